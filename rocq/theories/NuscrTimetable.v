(** * Timetables of a nuscr protocol

    Specification of C46: when all the roles of a timed protocol can keep all
    their windows in the same run.  The windows are those that
    src/top_down_nuscr writes into the types of both sides of a message
    (messages_and_stacks_update/{sender,receiver}_messages.rs), the clocks are
    those of each role alone (code_generate/fn_endpoints.rs). *)

From Coq Require Import Ascii String ZArith QArith Bool Lia Lqa List.
From Verif Require Import Checker CheckerText CheckerAll Nuscr NuscrSpec NuscrMaps NuscrTree NuscrRun NuscrFile
  NuscrClocks.
Import ListNotations.
Open Scope Q_scope.

(** [f] with another value for [r]. *)
Definition put (f : str -> Q) (r : str) (v : Q) : str -> Q := fun x => if seqb x r then v else f x.

(** The instants at which the clocks of each role were last started, after role
    [r] has done message [m] at instant [v]. *)
Definition restart (m : msg) (r : str) (v : Q) (start : str -> str -> Q) : str -> str -> Q :=
  fun x c => if seqb x r && resets c m then v else start x c.

(** The messages can be sent and received at instants that suit everybody: no
    role does something before what it did last, nothing is received before it
    was sent, and both sides are inside the window on their own clock.  [now r]
    is when role [r] did something last, [start r c] when its clock [c] was
    started. *)
Fixpoint together (now : str -> Q) (start : str -> str -> Q) (ms : list msg) : Prop :=
  match ms with
  | [] => True
  | m :: ms' =>
      exists s t, now (sender m) <= s /\ now (receiver m) <= t /\ s <= t /\
        in_window (s - start (sender m) (clock m)) m /\
        in_window (t - start (receiver m) (clock m)) m /\
        together (put (put now (sender m) s) (receiver m) t)
          (restart m (receiver m) t (restart m (sender m) s start)) ms'
  end.

(** All roles start at [now], and so do all their clocks. *)
Definition followed (now : str -> Q) (ms : list msg) : Prop := together now (fun r _ => now r) ms.

(** ** Lemmas *)

Lemma in_window_eq v w m : v == w -> in_window v m -> in_window w m.
Proof.
  unfold in_window. intros E. destruct (number (lb m)); [|easy]. destruct (number (rb m)); [|easy].
  destruct (li m), (ri m); intros [H1 H2]; split; lra.
Qed.

Lemma feasible_less r c ms : forall l l', l <= l' -> feasible r c l' ms -> feasible r c l ms.
Proof.
  induction ms as [|m ms IH]; intros l l' L; [easy|]. cbn [feasible].
  destruct (involves r m); [|now apply IH]. destruct (seqb (clock m) c).
  - intros (v & H1 & H2 & H3). exists v. split; [lra|auto].
  - apply IH. destruct (resets c m); lra.
Qed.

(** Keeping all windows means keeping those of each role and clock. *)
Lemma together_each r c ms : forall now start,
  Forall (fun m => sender m <> receiver m) ms ->
  together now start ms -> feasible r c (now r - start r c) ms.
Proof.
  induction ms as [|m ms IH]; intros now start F; [easy|]. inversion F as [|? ? Hne F']; subst.
  intros (s & t & H1 & H2 & H3 & W1 & W2 & H). apply IH in H; [|exact F']. cbn [feasible].
  unfold involves, put, restart in *.
  destruct (seqb (sender m) r) eqn:Es.
  - apply seqb_true in Es. subst r. cbn [orb].
    rewrite (proj2 (seqb_false _ _) Hne), seqb_refl in H. cbn [andb] in H.
    destruct (seqb (clock m) c) eqn:Ec.
    + apply seqb_true in Ec. subst c. exists (s - start (sender m) (clock m)). split; [lra|]. split; [exact W1|].
      eapply feasible_less; [|exact H]. destruct (resets (clock m) m); lra.
    + eapply feasible_less; [|exact H]. destruct (resets c m); lra.
  - destruct (seqb (receiver m) r) eqn:Er; cbn [orb].
    + apply seqb_true in Er. subst r. rewrite seqb_refl in H. cbn [andb] in H.
      destruct (seqb (clock m) c) eqn:Ec.
      * apply seqb_true in Ec. subst c. exists (t - start (receiver m) (clock m)). split; [lra|].
        split; [exact W2|]. eapply feasible_less; [|exact H].
        assert (seqb (receiver m) (sender m) = false) as -> by (apply seqb_false; congruence). cbn [andb].
        destruct (resets (clock m) m); lra.
      * eapply feasible_less; [|exact H].
        assert (seqb (receiver m) (sender m) = false) as -> by (apply seqb_false; congruence). cbn [andb].
        destruct (resets c m); lra.
    + apply seqb_false in Es, Er.
      assert (seqb r (receiver m) = false) as Q1 by (apply seqb_false; congruence).
      assert (seqb r (sender m) = false) as Q2 by (apply seqb_false; congruence).
      rewrite Q1, Q2 in H. exact H.
Qed.

(** One clock that nobody restarts. *)
Lemma tests_together c closed ms : forall prev prev' now start,
  c <> lit " " -> clock_tests prev ms = Fine prev' ->
  Forall (fun m => sender m <> receiver m) ms ->
  Forall (fun m => clock m = c /\ resets c m = false /\ sound_window m /\ ri m = closed) ms ->
  (forall r, start r c == 0) ->
  (forall r, match bound_at prev r c with
    | None => now r <= 0
    | Some (s, b) => b = closed /\ exists p, number s = Some p /\ now r <= inject_Z p - slack closed
    end) ->
  together now start ms.
Proof.
  induction ms as [|m ms IH]; intros prev prev' now start Hc H Hne Hw H0 Hp; [exact Logic.I|].
  cbn [clock_tests] in H. apply gbind_fine in H as (prev1 & E & H).
  inversion Hne as [|? ? Hne1 Hne2]; subst. inversion Hw as [|? ? (Ec & Er & W1 & W2) Hw2]; subst.
  destruct (window_choice m (ri m) W1 eq_refl) as (lo & hi & Hlo & Hhi & Hin & Pos & L1 & L2).
  assert (forall r, involves r m = true -> now r <= inject_Z hi - slack (ri m)) as K1.
  { intros r Hr. destruct (previous_step _ _ _ r (clock m) E Hne1) as [_ P2]. specialize (P2 Hr eq_refl).
    specialize (Hp r). destruct (bound_at prev r (clock m)) as [[s b]|]; [|lra].
    destruct Hp as [-> (p & Hs & Hp)]. destruct P2 as [_ (lo' & hi' & p' & Q1 & Q2 & Q3)].
    rewrite Hlo in Q1. injection Q1 as <-. rewrite Hs in Q2. injection Q2 as <-.
    assert (p <= hi)%Z as L.
    { destruct (Z_lt_ge_dec (lo + (if li m then 1 else 0)) (p + (if ri m then 1 else 0))) as [G|G].
      - destruct (Q3 G) as [Q4 Q5]. rewrite Hhi in Q4. injection Q4 as <-. lia.
      - destruct (ri m), (li m); try specialize (L2 eq_refl); lia. }
    rewrite Zle_Qle in L. lra. }
  exists (inject_Z hi - slack (ri m)), (inject_Z hi - slack (ri m)).
  assert (involves (sender m) m = true) as I1 by (unfold involves; now rewrite seqb_refl).
  assert (involves (receiver m) m = true) as I2 by (unfold involves; rewrite seqb_refl; apply orb_true_r).
  split; [now apply K1|]. split; [now apply K1|]. split; [lra|].
  split. { eapply in_window_eq; [|exact Hin]. rewrite H0. ring. }
  split. { eapply in_window_eq; [|exact Hin]. rewrite H0. ring. }
  eapply IH; eauto.
  - intros r. unfold restart. rewrite Er, !andb_false_r. apply H0.
  - intros r. destruct (previous_step _ _ _ r (clock m) E Hne1) as [P1 P2].
    destruct (involves r m) eqn:Ei.
    + specialize (P2 eq_refl eq_refl).
      assert (bound_at prev1 r (clock m) = Some (rb m, ri m)) as ->.
      { destruct (bound_at prev r (clock m)) as [[s b]|]; [|exact P2]. destruct P2 as [-> _].
        unfold resets in Er. destruct (reset m) as [x|]; [now rewrite Er|].
        destruct (seqb (lit " ") (clock m)) eqn:Q; [|reflexivity]. apply seqb_true in Q. congruence. }
      split; [reflexivity|]. exists hi. split; [exact Hhi|].
      unfold put. destruct (seqb r (receiver m)); [lra|]. destruct (seqb r (sender m)); [lra|].
      now apply K1.
    + rewrite P1 by auto. unfold involves in Ei. apply orb_false_iff in Ei as [Q1 Q2].
      apply seqb_false in Q1, Q2. unfold put.
      assert (seqb r (receiver m) = false) as -> by (apply seqb_false; congruence).
      assert (seqb r (sender m) = false) as -> by (apply seqb_false; congruence).
      apply Hp.
Qed.

(** Two roles and one clock. *)
Lemma two_together a b c ms : forall now start,
  Forall (fun m => (sender m = a /\ receiver m = b \/ sender m = b /\ receiver m = a) /\ clock m = c) ms ->
  a <> b -> now a == now b -> start a c == start b c ->
  feasible a c (now a - start a c) ms -> together now start ms.
Proof.
  induction ms as [|m ms IH]; intros now start F Hab Hn Hs H; [exact Logic.I|].
  inversion F as [|? ? [Hr Hc] F']; subst. cbn [feasible] in H.
  assert (involves a m = true) as Hi.
  { unfold involves. destruct Hr as [[-> _]|[_ ->]]; rewrite seqb_refl; [reflexivity|apply orb_true_r]. }
  rewrite Hi, seqb_refl in H. destruct H as (v & H1 & H2 & H3).
  exists (start a (clock m) + v), (start a (clock m) + v).
  assert (seqb a b = false) as Q1 by (apply seqb_false; congruence).
  assert (seqb b a = false) as Q2 by (apply seqb_false; congruence).
  split. { destruct Hr as [[-> _]|[-> _]]; lra. }
  split. { destruct Hr as [[_ ->]|[_ ->]]; lra. }
  split; [lra|].
  split. { eapply in_window_eq; [|exact H2]. destruct Hr as [[-> _]|[-> _]]; [|rewrite <- Hs]; ring. }
  split. { eapply in_window_eq; [|exact H2]. destruct Hr as [[_ ->]|[_ ->]]; [rewrite <- Hs|]; ring. }
  apply IH; [exact F'|exact Hab|..]; unfold put, restart;
    destruct Hr as [[-> ->]|[-> ->]]; rewrite ?seqb_refl, ?Q1, ?Q2; cbn [andb].
  - lra.
  - lra.
  - destruct (resets (clock m) m); [lra|exact Hs].
  - destruct (resets (clock m) m); [lra|exact Hs].
  - eapply feasible_less; [|exact H3]. destruct (resets (clock m) m); lra.
  - eapply feasible_less; [|exact H3]. destruct (resets (clock m) m); lra.
Qed.
