(** C75: the text of a window says what the timed operations demand. *)
From Coq Require Import List ZArith Bool Lia.
From Verif Require Import Types Timed TimedProofs Properties_Timed Constraint.
Import ListNotations.
Open Scope Z_scope.

(** Specification only: the value of a number (seconds) or of the clock, in nanoseconds; [e] gives the time
    since each clock was started. *)
Definition value_of (e : nat -> Z) (p : piece) : option Z :=
  match p with PNum z => Some (z * second) | PClock c => Some (e c) | _ => None end.
(** Specification only: a chain of comparisons, as written in mathematics. *)
Fixpoint text_true (e : nat -> Z) (l : list piece) : Prop :=
  match l with
  | [a] => value_of e a <> None
  | a :: op :: ((b :: _) as l') =>
      match value_of e a, op, value_of e b with
      | Some x, PLe, Some y => x <= y /\ text_true e l'
      | Some x, PLt, Some y => x < y /\ text_true e l'
      | _, _, _ => False
      end
  | _ => False
  end.

(** There is no text exactly if there is no bound. *)
Theorem constraint_panics_iff : forall w, constraint w = None <-> w_start w < 0 /\ w_end w < 0.
Proof.
  intros w. unfold constraint. destruct (Z.ltb_spec (w_start w) 0).
  - destruct (Z.leb_spec 0 (w_end w)); [destruct (w_incl_end w); split; [discriminate|lia|discriminate|lia]|split; [auto|reflexivity]].
  - destruct (Z.ltb_spec (w_end w) 0); destruct (w_incl_start w); try destruct (w_incl_end w); split; try discriminate; lia.
Qed.
Print Assumptions constraint_panics_iff.
(** The free window of the generated choices has no text, although the operations accept it. *)
Theorem constraint_free_refuted : exists w m,
  r_out (run OSend (fun _ => 0) ex_ready ex_ready_block w m 0) = Ok /\
  r_out (run ORecv (fun _ => 0) ex_ready ex_ready_block w m 0) = Ok /\ constraint w = None.
Proof. exists (Window 32 (-2) false (-1) false 32), ex_clocks. split; [reflexivity|]. split; reflexivity. Qed.
Print Assumptions constraint_free_refuted.

(** The text is true exactly inside the window, and speaks of the clock of the window. *)
Theorem constraint_means_window : forall w l, constraint w = Some l ->
  (forall e, text_true e l <-> in_window w (e (w_clock w))) /\ forall c, In (PClock c) l <-> c = w_clock w.
Proof.
  intros w l H. assert (S0 : 0 < second) by reflexivity. unfold constraint in H.
  destruct (Z.ltb_spec (w_start w) 0) as [Hs|Hs]; destruct (Z.ltb_spec (w_end w) 0) as [He|He].
  - replace (0 <=? w_end w) with false in H by (symmetry; apply Z.leb_gt; exact He). discriminate.
  - replace (0 <=? w_end w) with true in H by (symmetry; apply Z.leb_le; exact He).
    destruct (w_incl_end w) eqn:Ee; injection H as <-; split; try (intros e; unfold in_window; rewrite Ee; cbn [text_true value_of];
      split; [intros [Q _]; split; [lia|auto]|intros [_ Q]; split; [apply Q, He|discriminate]]);
      intros c; cbn; split; [intros [Q|[Q|[Q|[]]]]; congruence|intros ->; auto|intros [Q|[Q|[Q|[]]]]; congruence|intros ->; auto].
  - destruct (w_incl_start w) eqn:Ee; injection H as <-; split; try (intros e; unfold in_window; rewrite Ee; cbn [text_true value_of];
      split; [intros [Q _]; split; [auto|lia]|intros [Q _]; split; [apply Q, Hs|discriminate]]);
      intros c; cbn; split; [intros [Q|[Q|[Q|[]]]]; congruence|intros ->; auto|intros [Q|[Q|[Q|[]]]]; congruence|intros ->; auto].
  - destruct (w_incl_start w) eqn:Ea, (w_incl_end w) eqn:Eb; injection H as <-; split;
      try (intros e; unfold in_window; rewrite Ea, Eb; cbn [text_true value_of];
        split; [intros (Q1 & Q2 & _); split; auto|intros [Q1 Q2]; split; [apply Q1, Hs|split; [apply Q2, He|discriminate]]]);
      intros c; cbn; (split; [intros [Q|[Q|[Q|[Q|[Q|[]]]]]]; congruence|intros ->; auto]).
Qed.
Print Assumptions constraint_means_window.
Example constraint_example :
  constraint (Window 97 1 true 3 false 32) = Some [PNum 1; PLe; PClock 97; PLt; PNum 3] /\
  text_true (fun _ => 2 * second) [PNum 1; PLe; PClock 97; PLt; PNum 3] /\
  ~ text_true (fun _ => 3 * second) [PNum 1; PLe; PClock 97; PLt; PNum 3].
Proof. split; [reflexivity|]. split; [cbn; repeat split; try discriminate; reflexivity|]. cbn. intros (_ & Q & _). discriminate. Qed.

(** Two windows with the same text have the same clock and are the same set of instants. *)
Theorem constraint_same_text : forall w w' l, constraint w = Some l -> constraint w' = Some l ->
  w_clock w = w_clock w' /\ forall e, in_window w e <-> in_window w' e.
Proof.
  intros w w' l H H'. destruct (constraint_means_window w l H) as [M C]. destruct (constraint_means_window w' l H') as [M' C'].
  assert (E : w_clock w = w_clock w') by (apply C', C; reflexivity). split; [exact E|]. intros e.
  rewrite <- (M (fun _ => e)), <- (M' (fun _ => e)). reflexivity.
Qed.
Print Assumptions constraint_same_text.
Example constraint_same_example :
  constraint (Window 97 (-1) true 3 true 32) = constraint (Window 97 (-2) false 3 true 97) /\
  constraint (Window 97 (-1) true 3 true 32) <> None.
Proof. split; [reflexivity|discriminate]. Qed.

(** If a timed operation with a text hands its message over, the text was true of its clock at a reading
    during the operation. *)
Theorem constraint_success : forall o now ct cb w m k l, monotone now -> constraint w = Some l ->
  r_handed (run o now ct cb w m k) = true ->
  exists c j, m (w_clock w) = Some c /\ (k <= j < r_next (run o now ct cb w m k))%nat /\
    forall e, e (w_clock w) = elapsed (now j) c -> text_true e l.
Proof.
  intros o now ct cb w m k l Hm Hl H. destruct (proj2 (timed_success_inside_window o now ct cb w m k Hm) H) as [N|(c & j & H1 & H2 & H3)].
  - apply constraint_panics_iff in N. congruence.
  - exists c, j. split; [exact H1|]. split; [exact H2|]. intros e He. apply (constraint_means_window w l Hl). rewrite He. exact H3.
Qed.
Print Assumptions constraint_success.
Example constraint_success_example :
  r_handed (run OSend ex_now ex_ready' ex_ready_block (Window 97 1 true 3 true 32) ex_clocks 0) = true /\
  constraint (Window 97 1 true 3 true 32) = Some [PNum 1; PLe; PClock 97; PLe; PNum 3].
Proof. split; reflexivity. Qed.

(** The other direction is false: "1 < a <= 3" is true at 1.5 seconds, but whole seconds are compared. *)
Theorem constraint_accepted_refuted : exists w l t, constraint w = Some l /\ text_true (fun _ => elapsed t 0) l /\
  r_out (run OSend (fun _ => t) ex_ready ex_ready_block w ex_clocks 0) = Panic OutOfWindow /\
  r_out (run ORecv (fun _ => t) ex_ready ex_ready_block w ex_clocks 0) = Panic OutOfWindow.
Proof.
  exists (Window 97 1 false 3 true 32), [PNum 1; PLt; PClock 97; PLe; PNum 3], 1500000000.
  split; [reflexivity|]. split; [cbn; repeat split; discriminate|]. split; reflexivity.
Qed.
Print Assumptions constraint_accepted_refuted.
