(** * Timetables for all roles of a nuscr protocol at once: C46

    The model is Nuscr.v and NuscrText.v; the specification is NuscrTimetable.v. *)

From Coq Require Import Ascii String ZArith QArith Bool Lia Lqa List.
From Verif Require Import Checker CheckerText CheckerAll Nuscr NuscrSpec NuscrMaps NuscrTree NuscrRun NuscrFile
  NuscrNames NuscrClocks NuscrAccept Regex NuscrText NuscrTextSpec NuscrReadAll NuscrPrint Properties_Nuscr
  NuscrTimetable.
Import ListNotations.
Open Scope Q_scope.

(** What C37 asks of each role and clock is necessary. *)
Theorem followed_each : forall p i now r c,
  (forall m, In m (part_messages p i) -> sender m <> receiver m) ->
  followed now (part_messages p i) -> feasible r c 0 (part_messages p i).
Proof.
  intros p i now r c F H. apply (together_each r c) in H; [|now apply Forall_forall].
  eapply feasible_less; [|exact H]. lra.
Qed.
Print Assumptions followed_each.

(** If the messages of a part all use one clock that none of them restarts, and
    their windows are not empty and all closed, or all open, on the right, then
    all roles of an accepted protocol can keep all their windows in one run. *)
Theorem accepted_followed : forall title name p ls f i c closed,
  protocol_text name p ls -> no_rec p -> NoDup (p_roles p) ->
  generator_text title ls = Fine f -> part p i -> c <> lit " " ->
  (forall m, In m (part_messages p i) ->
     clock m = c /\ resets c m = false /\ sound_window m /\ ri m = closed) ->
  followed (fun _ => 0) (part_messages p i).
Proof.
  intros title name p ls f i c closed T R N H Hi Hc Hw. pose proof (text_written title name p ls f T R N H) as W.
  destruct (wr_clock_tests _ _ _ W i Hi) as (prev & Hp).
  apply (tests_together c closed _ [] prev); try assumption.
  - eapply Forall_impl; [|exact (wr_roles_ok _ _ _ W i Hi)]. now intros m (_ & _ & ?).
  - now apply Forall_forall.
  - intros r. apply Qeq_refl.
  - intros r. cbn. apply Qle_refl.
Qed.
Print Assumptions accepted_followed.

(** With two roles the clock may also be restarted. *)
Theorem accepted_followed_by_two : forall title name p ls f i a b c closed,
  protocol_text name p ls -> no_rec p -> p_roles p = [a; b] -> a <> b ->
  generator_text title ls = Fine f -> part p i -> c <> lit " " ->
  (forall m, In m (part_messages p i) -> clock m = c /\ sound_window m /\ ri m = closed) ->
  followed (fun _ => 0) (part_messages p i).
Proof.
  intros title name p ls f i a b c closed T R P Hab H Hi Hc Hw.
  assert (NoDup (p_roles p)) as N.
  { rewrite P. constructor; [intros [Q|[]]; congruence|]. constructor; [easy|constructor]. }
  pose proof (text_written title name p ls f T R N H) as W.
  apply (two_together a b c); try easy.
  - apply Forall_forall. intros m Hm. split; [|now apply Hw].
    pose proof (proj1 (Forall_forall _ _) (wr_roles_ok _ _ _ W i Hi) m Hm) as (R1 & R2 & R3).
    rewrite P in R1, R2. cbn in R1, R2. destruct R1 as [R1|[R1|[]]], R2 as [R2|[R2|[]]]; subst; auto; congruence.
  - apply (feasible_less a c _ _ 0); [lra|].
    apply (accepted_feasible title name p ls f i a c closed); try assumption.
    intros m Hm _ _. now apply Hw.
Qed.
Print Assumptions accepted_followed_by_two.

Definition roleC : str := lit "C".
Definition say_in (a b : str) (l r : string) (c : string) (rst : option str) : msg :=
  Msg (lit "M") None a b true (lit l) (lit r) true (lit c) rst.
Definition steps3 (ms : list msg) : proto := Proto [roleA; roleB; roleC] ms None [] None.

(** Three roles in a ring on one clock. *)
Definition ring : list msg :=
  [say_in roleA roleB "0" "2" "a" None; say_in roleB roleC "1" "3" "a" None; say_in roleC roleA "2" "4" "a" None].
Example ring_followed :
  fine (generator_text idt (print (lit "P") (steps3 ring))) = true /\
  (forall m, In m ring -> clock m = lit "a" /\ resets (lit "a") m = false /\ sound_window m /\ ri m = true) /\
  followed (fun _ => 0) ring.
Proof.
  assert (forall m, In m ring -> clock m = lit "a" /\ resets (lit "a") m = false /\ sound_window m /\ ri m = true) as K.
  { cbn. intros m [<-|[<-|[<-|[]]]]; (do 2 (split; [reflexivity|])); (split; [|reflexivity]);
      exists 2; vm_compute; split; discriminate. }
  assert (fine (generator_text idt (print (lit "P") (steps3 ring))) = true) as E by now vm_compute.
  split; [exact E|]. split; [exact K|].
  destruct (generator_text idt (print (lit "P") (steps3 ring))) as [f| | |] eqn:G; [|discriminate..].
  apply (accepted_followed idt (lit "P") (steps3 ring) (print (lit "P") (steps3 ring)) f None (lit "a") true);
    [now apply print_ok|now left|repeat constructor; cbn; intuition discriminate|exact G|exact Logic.I|discriminate|exact K].
Qed.

(** Two roles that restart the clock. *)
Definition pingpong : list msg :=
  [say_in roleA roleB "1" "4" "a" None; say_in roleB roleA "3" "9" "a" (Some (lit "a")); say_in roleA roleB "0" "1" "a" None].
Example pingpong_followed :
  fine (generator_text idt (print (lit "P") (steps pingpong))) = true /\ followed (fun _ => 0) pingpong.
Proof.
  assert (forall m, In m pingpong -> clock m = lit "a" /\ sound_window m /\ ri m = true) as K.
  { cbn. intros m [<-|[<-|[<-|[]]]]; (split; [reflexivity|]); (split; [|reflexivity]);
      [exists 4|exists 9|exists 1]; vm_compute; split; discriminate. }
  assert (fine (generator_text idt (print (lit "P") (steps pingpong))) = true) as E by now vm_compute.
  split; [exact E|].
  destruct (generator_text idt (print (lit "P") (steps pingpong))) as [f| | |] eqn:G; [|discriminate..].
  apply (accepted_followed_by_two idt (lit "P") (steps pingpong) (print (lit "P") (steps pingpong)) f None roleA roleB (lit "a") true);
    [now apply print_ok|now left|reflexivity|discriminate|exact G|exact Logic.I|discriminate|exact K].
Qed.

(** With two clocks an accepted protocol may be impossible although every role
    can keep the windows of each of its clocks: the second message must come
    in the first second, the first one after the fifth.  This holds whenever
    the roles start. *)
Theorem two_clocks_refuted : exists p ls f,
  protocol_text (lit "P") p ls /\ no_rec p /\ NoDup (p_roles p) /\ generator_text idt ls = Fine f /\
  (forall m, In m (part_messages p None) -> sound_window m /\ ri m = true /\ reset m = None) /\
  (forall r c, feasible r c 0 (part_messages p None)) /\
  (forall now, ~ followed now (part_messages p None)).
Proof.
  set (ms := [say_in roleA roleB "5" "6" "a" None; say_in roleA roleB "0" "1" "b" None]).
  destruct (generator_text idt (print (lit "P") (steps ms))) as [f| | |] eqn:E; [|vm_compute in E; discriminate..].
  exists (steps ms), (print (lit "P") (steps ms)), f.
  split; [now apply print_ok|]. split; [now left|].
  split; [repeat constructor; cbn; intuition discriminate|]. split; [exact E|]. clear E.
  change (part_messages (steps ms) None) with ms.
  assert (forall m, In m ms -> sound_window m /\ ri m = true /\ reset m = None) as K.
  { cbn. intros m [<-|[<-|[]]]; (split; [|split; reflexivity]); [exists 5|exists 1]; vm_compute; split; discriminate. }
  split; [exact K|]. split.
  - intros r c. unfold ms. cbn [feasible].
    assert (in_window 5 (say_in roleA roleB "5" "6" "a" None)) as W1 by (vm_compute; split; discriminate).
    assert (in_window 1 (say_in roleA roleB "0" "1" "b" None)) as W2 by (vm_compute; split; discriminate).
    change (resets c (say_in roleA roleB "5" "6" "a" None)) with false.
    change (resets c (say_in roleA roleB "0" "1" "b" None)) with false.
    change (clock (say_in roleA roleB "5" "6" "a" None)) with (lit "a").
    change (clock (say_in roleA roleB "0" "1" "b" None)) with (lit "b").
    change (involves r (say_in roleA roleB "0" "1" "b" None)) with (involves r (say_in roleA roleB "5" "6" "a" None)).
    destruct (involves r (say_in roleA roleB "5" "6" "a" None)); [|exact Logic.I].
    destruct (seqb (lit "a") c) eqn:Ea.
    + exists 5. split; [lra|]. split; [exact W1|]. apply seqb_true in Ea. subst c. exact Logic.I.
    + destruct (seqb (lit "b") c); [|exact Logic.I]. exists 1. split; [lra|]. split; [exact W2|exact Logic.I].
  - intros now (s & t & H1 & H2 & H3 & W1 & W2 & s' & t' & H1' & H2' & H3' & W1' & _).
    destruct W1 as [W1 _]. destruct W1' as [_ W1'].
    change (5 <= s - now roleA) in W1. change (s' - now roleA <= 1) in W1'. change (s <= s') in H1'. lra.
Qed.
Print Assumptions two_clocks_refuted.

(** So may a protocol with one clock: B restarts its clock after four seconds,
    C does not, and the message from B to C is due in the first second on both. *)
Theorem restarts_refuted : exists p ls f,
  protocol_text (lit "P") p ls /\ no_rec p /\ NoDup (p_roles p) /\ generator_text idt ls = Fine f /\
  (forall m, In m (part_messages p None) -> sound_window m /\ ri m = true /\ clock m = lit "a") /\
  (forall r, feasible r (lit "a") 0 (part_messages p None)) /\
  (forall now, ~ followed now (part_messages p None)).
Proof.
  set (m1 := say_in roleC roleA "0" "1" "a" None). set (m2 := say_in roleA roleB "0" "1" "a" None).
  set (m3 := say_in roleA roleB "4" "5" "a" (Some (lit "a"))). set (m4 := say_in roleB roleC "0" "1" "a" None).
  set (ms := [m1; m2; m3; m4]).
  destruct (generator_text idt (print (lit "P") (steps3 ms))) as [f| | |] eqn:E; [|vm_compute in E; discriminate..].
  exists (steps3 ms), (print (lit "P") (steps3 ms)), f.
  split; [now apply print_ok|]. split; [now left|].
  split; [repeat constructor; cbn; intuition discriminate|]. split; [exact E|].
  assert (forall m, In m ms -> sound_window m /\ ri m = true /\ clock m = lit "a") as K.
  { cbn. intros m [<-|[<-|[<-|[<-|[]]]]]; (split; [|split; reflexivity]);
      [exists 1|exists 1|exists 4|exists 1]; vm_compute; split; discriminate. }
  split; [exact K|]. split.
  - intros r. refine (accepted_feasible idt (lit "P") (steps3 ms) _ f None r (lit "a") true _ _ _ E Logic.I _ _);
      [now apply print_ok|now left|repeat constructor; cbn; intuition discriminate|discriminate|].
    intros m Hm _ _. destruct (K m Hm) as (K1 & K2 & _). auto.
  - intros now H. change (part_messages (steps3 ms) None) with ms in H.
    destruct H as (s1 & t1 & A1 & A2 & A3 & A4 & A5 & H).
    destruct H as (s2 & t2 & B1 & B2 & B3 & B4 & B5 & H).
    destruct H as (s3 & t3 & C1 & C2 & C3 & C4 & C5 & H).
    destruct H as (s4 & t4 & D1 & D2 & D3 & D4 & D5 & _).
    destruct A4 as [A4 _], A5 as [_ A5], C4 as [C4 _], D5 as [_ D5].
    change (0 <= s1 - now roleC) in A4. change (t1 - now roleA <= 1) in A5. change (4 <= s3 - now roleA) in C4.
    change (t4 - now roleC <= 1) in D5. change (t3 <= s4) in D1. lra.
Qed.
Print Assumptions restarts_refuted.
