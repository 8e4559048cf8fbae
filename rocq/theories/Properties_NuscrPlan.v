(** * C52: generated programs that can run in time

    From the text of a nuscr protocol to a complete run of the generated
    endpoints: the generator (Nuscr.v, NuscrText.v), instants that suit all
    roles (NuscrTimetable.v) and the timed machine (TimedMesh.v) together. *)

From Coq Require Import Ascii String ZArith QArith Arith Bool Lia Lqa List.
From Verif Require Import Types Wiring Session Mesh MeshSpec Global Timed TimedMesh TimedMeshProofs
  Properties_Mesh Properties_Global Properties_TimedMesh TimedMeshPlan Properties_TimedMeshPlan.
From Verif Require Import Checker CheckerText CheckerAll Nuscr NuscrSpec NuscrFile NuscrNames NuscrText NuscrTextSpec NuscrPrint
  Properties_Nuscr NuscrGlobalSpec NuscrGlobal NuscrSystem Properties_NuscrGlobal NuscrTimedSpec NuscrTimedProofs
  Properties_NuscrTimed NuscrTimetable Properties_NuscrTimetable NuscrPlanSpec NuscrPlanProofs.
Import ListNotations.
Open Scope nat_scope.
Open Scope list_scope.

(** The roles of the file, read as a timed system whose functions start the
    clocks written in the file, have a run in which all finish in time. *)
Definition runs_in_time (f : rust_file) (code : str -> nat) : Prop :=
  let n := length (meshed_roles f) in
  exists labels T B W BW cs, timed_system_as f code labels T B W BW /\ started_as f cs /\
  exists now tr st v,
    on_clock heap_ops n B BW labels now cs cs 0%Z (tstart n T W) tr st v /\
    punctual heap_ops n B BW labels now (tstart n T W) tr st /\
    forall k, 1 <= k <= n -> tresult st k = Some ROk /\ t_trash (tm_thr (ts_thr st k)) = [].

(** If the messages of every part on a way through an accepted protocol can be
    made at instants that suit all roles (rational ones, C46), the windows are
    closed and the clocks that messages restart are started, then the generated
    roles have a run in which all finish in time. *)
Theorem generated_in_time : forall title code name p ls f picks,
  protocol_text name p ls -> no_rec p -> clean p -> no_enum_message title p ->
  generator_text title ls = Fine f -> 2 <= length (p_roles p) -> letter_clocks p ->
  (forall i m, part p i -> In m (part_messages p i) -> closed_window m) -> resets_used p ->
  way p None picks ->
  (forall i, i = None \/ (exists l, In l picks /\ i = Some l) -> followed (fun _ => 0%Q) (part_messages p i)) ->
  runs_in_time f code.
Proof.
  intros title code name p ls f picks HT HR HC HE HG H2 HL HK HU HW HF. unfold runs_in_time. cbv zeta.
  destruct (pl_timetable title code name p ls f HT HR HC HG H2 HL HK HU picks HW HF) as (cs & base & plan & H1 & H0 & HP).
  pose proof (acc_wf title code name p ls f HT HR HC HG H2 _ (fun _ => eq_refl)) as W.
  destruct (timetable_runs _ _ _ _ _ _ _ _ _ _ W HP) as (now & tr & st & v & K1 & K2 & _ & K3). rewrite H0 in K1.
  eexists _, _, _, _, _, cs. split; [exact (tim_system title code name p ls f HT HR HC HE HG H2 HL)|]. split; [exact H1|].
  exists now, tr, st, v. auto.
Qed.
Print Assumptions generated_in_time.

(** An accepted protocol whose messages all use one clock, that none restarts,
    and have closed windows that are not empty: every way through it can be run
    in time. *)
Theorem one_clock_in_time : forall title code name p ls f picks c,
  protocol_text name p ls -> no_rec p -> clean p -> no_enum_message title p ->
  generator_text title ls = Fine f -> 2 <= length (p_roles p) -> c <> " "%char ->
  (forall i m, part p i -> In m (part_messages p i) ->
     clock m = [c] /\ reset m = None /\ sound_window m /\ closed_window m) ->
  way p None picks -> runs_in_time f code.
Proof.
  intros title code name p ls f picks c HT HR HC HE HG H2 Hc HM HW.
  assert (HL : letter_clocks p).
  { intros i m Hi Hm. destruct (HM i m Hi Hm) as (E1 & E2 & _). split; [eauto|]. intros r Er. congruence. }
  apply (generated_in_time title code name p ls f picks); auto.
  - intros i m Hi Hm. apply (HM i m Hi Hm).
  - intros i m x r Hi Hm Er. destruct (HM i m Hi Hm) as (_ & E2 & _). congruence.
  - intros i Hi. assert (part p i) as Hi'.
    { destruct Hi as [->|(l & Hl & ->)]; [exact Logic.I|]. clear - HW Hl. induction HW as [|i s x xs H1 H2 H3 H4 IH]; [destruct Hl|].
      destruct Hl as [<-|Hl]; auto. }
    apply (accepted_followed title name p ls f i [c] true); auto; [apply HC|intros Hx; cbn in Hx; congruence|].
    intros m Hm. destruct (HM i m Hi' Hm) as (E1 & E2 & E3 & E4 & E5 & _). split; [exact E1|]. split; [unfold resets; now rewrite E2|]. auto.
Qed.
Print Assumptions one_clock_in_time.

(** With two roles the clock may be restarted. *)
Theorem two_roles_in_time : forall title code name p ls f picks a b c,
  protocol_text name p ls -> no_rec p -> clean p -> no_enum_message title p ->
  generator_text title ls = Fine f -> p_roles p = [a; b] -> c <> " "%char ->
  (forall i m, part p i -> In m (part_messages p i) ->
     clock m = [c] /\ (reset m = None \/ reset m = Some [c]) /\ sound_window m /\ closed_window m) ->
  way p None picks -> runs_in_time f code.
Proof.
  intros title code name p ls f picks a b c HT HR HC HE HG HP Hc HM HW.
  assert (HL : letter_clocks p).
  { intros i m Hi Hm. destruct (HM i m Hi Hm) as (E1 & E2 & _). split; [eauto|]. intros r Er. destruct E2 as [E2|E2]; [congruence|].
    rewrite E2 in Er. injection Er as <-. eauto. }
  assert (a <> b).
  { destruct HC as [N _]. rewrite HP in N. inversion N as [|? ? Ha _]; subst. intros ->. apply Ha. now left. }
  apply (generated_in_time title code name p ls f picks); auto.
  - rewrite HP. cbn. lia.
  - intros i m Hi Hm. apply (HM i m Hi Hm).
  - intros i m x r Hi Hm Er Hv. exists i, m. destruct (HM i m Hi Hm) as (E1 & [E2|E2] & _); [congruence|]. repeat split; auto. congruence.
  - intros i Hi. assert (part p i) as Hi'.
    { destruct Hi as [->|(l & Hl & ->)]; [exact Logic.I|]. clear - HW Hl. induction HW as [|i s x xs H1 H2 H3 H4 IH]; [destruct Hl|].
      destruct Hl as [<-|Hl]; auto. }
    apply (accepted_followed_by_two title name p ls f i a b [c] true); auto; [intros Hx; cbn in Hx; congruence|].
    intros m Hm. destruct (HM i m Hi' Hm) as (E1 & E2 & E3 & E4 & E5 & _). auto.
Qed.
Print Assumptions two_roles_in_time.

(** ** Examples *)

(** The protocol with a loop of Properties_Nuscr.v: twice the first branch, then
    the second. *)
Lemma tm_closed l q a b : sound_window (tm l q a b) /\ closed_window (tm l q a b).
Proof.
  split; [exists 0%Q; vm_compute; split; discriminate|]. split; [reflexivity|]. split; [reflexivity|].
  intros hi E. vm_compute in E. injection E as <-. vm_compute. discriminate.
Qed.
Example looping_in_time : exists f,
  protocol_text (lit "P") looping (print (lit "P") looping) /\
  generator_text idt (print (lit "P") looping) = Fine f /\ way looping None [0; 0; 1] /\ runs_in_time f (@length ascii).
Proof.
  destruct (generator_text idt (print (lit "P") looping)) as [f| | |] eqn:E; [|vm_compute in E; discriminate..].
  destruct looping_accepted as (A1 & A2 & _ & A3 & _). exists f. split; [exact A1|]. split; [reflexivity|].
  assert (way looping None [0; 0; 1]) as HW.
  { eapply way_choice with (s := lit "A"); [exact Logic.I|reflexivity|cbn; lia|].
    eapply way_choice with (s := lit "A"); [cbn; lia|reflexivity|cbn; lia|].
    eapply way_choice with (s := lit "A"); [cbn; lia|reflexivity|cbn; lia|]. constructor; [cbn; lia|reflexivity]. }
  split; [exact HW|].
  apply (one_clock_in_time idt (@length ascii) (lit "P") looping (print (lit "P") looping) f [0; 0; 1] "a"%char A1 A2 A3 looping_no_enum E);
    [cbn; lia|discriminate| |exact HW].
  intros i m Hi Hm.
  destruct i as [i|]; [destruct i as [|[|[|i]]]; [| | |cbn in Hi; lia]|]; cbn in Hm;
    repeat (destruct Hm as [<-|Hm]; [split; [reflexivity|]; split; [reflexivity|apply tm_closed]|]); destruct Hm.
Qed.

(** Two roles that restart their clock. *)
Example pingpong_in_time : exists f,
  protocol_text (lit "P") (steps pingpong) (print (lit "P") (steps pingpong)) /\
  generator_text idt (print (lit "P") (steps pingpong)) = Fine f /\ runs_in_time f (@length ascii).
Proof.
  destruct (generator_text idt (print (lit "P") (steps pingpong))) as [f| | |] eqn:E; [|vm_compute in E; discriminate..].
  exists f. assert (protocol_text (lit "P") (steps pingpong) (print (lit "P") (steps pingpong))) as A1 by now apply print_ok.
  split; [exact A1|]. split; [reflexivity|].
  apply (two_roles_in_time idt (@length ascii) (lit "P") (steps pingpong) _ f [] roleA roleB "a"%char A1);
    [now left| | |exact E|reflexivity|discriminate| |constructor; [exact Logic.I|reflexivity]].
  - split; [repeat constructor; cbn; intuition discriminate|]. intros r Hr (u & v & Hx).
    assert (In "T"%char r) as K by (rewrite Hx; apply in_or_app; right; now left).
    destruct Hr as [<-|[<-|[]]]; cbn in K; intuition discriminate.
  - intros i m Hi Hm s r Hx. destruct i as [i|]; [destruct Hi|]. cbn in Hm. destruct Hm as [<-|[<-|[<-|[]]]]; discriminate.
  - intros i m Hi Hm. destruct i as [i|]; [destruct Hi|]. cbn in Hm.
    destruct Hm as [<-|[<-|[<-|[]]]]; (split; [reflexivity|]); (split; [auto|]);
      (split; [|split; [reflexivity|split; [reflexivity|intros hi Eh; vm_compute in Eh; injection Eh as <-; vm_compute; discriminate]]]);
      [exists 4%Q|exists 9%Q|exists 1%Q]; vm_compute; split; discriminate.
Qed.
