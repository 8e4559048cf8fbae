(** The test of Proto.v is exact. Proofs only. *)
From Coq Require Import List Arith Bool Lia.
From Verif Require Import Types WiringProofs Session Mesh MeshSpec TidySpec OrderSpec OrderProofs Proto.
Import ListNotations.

Lemma pty_eqb_true : forall a b, pty_eqb a b = true <-> a = b.
Proof.
  intros [x|b j] [y|c k]; cbn; rewrite ?andb_true_iff, ?Nat.eqb_eq; split; intros H; try discriminate; try congruence.
  - destruct H; congruence.
  - injection H; auto.
Qed.
Lemma sty_eqb_true : forall s t, sty_eqb s t = true <-> s = t.
Proof.
  induction s as [|p s IH|p s IH]; intros [|q t|q t]; cbn; rewrite ?andb_true_iff, ?pty_eqb_true, ?IH; split; intros H; try discriminate; try congruence; auto;
    try (destruct H; congruence); injection H; auto.
Qed.
Lemma in_roles : forall n p, In p (seq 1 n) <-> 1 <= p <= n.
Proof. intros n p. rewrite in_seq. lia. Qed.

Lemma dual_test_true : forall n T, dual_test n T = true <-> dual_mesh n T.
Proof.
  intros n T. unfold dual_test, dual_mesh. rewrite forallb_forall. split.
  - intros H. split.
    + intros p Hp. specialize (H p (proj2 (in_roles n p) Hp)). apply andb_true_iff in H. apply Nat.eqb_eq, H.
    + intros p q Hp Hq Hne. specialize (H p (proj2 (in_roles n p) Hp)). apply andb_true_iff in H. destruct H as [_ H].
      rewrite forallb_forall in H. specialize (H q (proj2 (in_roles n q) Hq)). apply orb_true_iff in H.
      destruct H as [H|H]; [apply Nat.eqb_eq in H; contradiction|apply sty_eqb_true, H].
  - intros [H1 H2] p Hp. apply in_roles in Hp. apply andb_true_iff. split; [apply Nat.eqb_eq; auto|].
    rewrite forallb_forall. intros q Hq. apply in_roles in Hq. apply orb_true_iff.
    destruct (Nat.eq_dec p q) as [->|Hne]; [left; apply Nat.eqb_refl|right; apply sty_eqb_true; auto].
Qed.

Lemma set_nth_all_end : forall ss f, f < length ss -> forallb is_end (set_nth f End ss) = true <->
  (forall f' s, f' <> f -> nth_error ss f' = Some s -> s = End).
Proof.
  induction ss as [|t ss IH]; intros [|f] Hf; cbn in *; try lia.
  - rewrite forallb_forall. split.
    + intros H [|f'] s Hne Hs; [lia|]. cbn in Hs. specialize (H s (nth_error_In _ _ Hs)). destruct s; cbn in H; congruence.
    + intros H s Hs. apply In_nth_error in Hs. destruct Hs as [k Hk]. rewrite (H (S k) s); [reflexivity|lia|exact Hk].
  - rewrite andb_true_iff, (IH f) by lia. split.
    + intros [H1 H2] [|f'] s Hne Hs; cbn in Hs; [injection Hs as <-; destruct t; cbn in H1; congruence|]. eapply H2; [|exact Hs]. lia.
    + intros H. split; [rewrite (H 0 t); [reflexivity|lia|reflexivity]|]. intros f' s Hne Hs. apply (H (S f') s); [lia|exact Hs].
Qed.
Lemma tidy_role_true : forall p r ss, tidy_role p ss r = true <-> tidy p ss r.
Proof.
  intros p r. induction r as [| |x r IH|x r IH|x r1 IH1 r2 IH2|x r1 IH1 r2 IH2]; intros ss; cbn; try tauto.
  destruct (nth_error ss (field_pos p x)) as [[|[t|b j] k|[t|b j] k]|] eqn:E; cbn; try tauto; try apply IH.
  destruct k; try tauto. apply set_nth_all_end. apply nth_error_Some. congruence.
Qed.
Lemma tidy_test_true : forall n T, tidy_test n T = true <-> tidy_mesh n T.
Proof.
  intros n T. unfold tidy_test, tidy_mesh. rewrite forallb_forall. split; intros H p Hp.
  - apply tidy_role_true, H, in_roles, Hp.
  - apply tidy_role_true, H, in_roles, Hp.
Qed.
Lemma round_test_true : forall n labels T, round_test n labels T = true <-> dual_mesh n T /\ tidy_mesh n T /\ ordered n labels T.
Proof.
  intros n labels T. unfold round_test. rewrite !andb_true_iff, dual_test_true, tidy_test_true, check_ordered. tauto.
Qed.

(** The rounds of a table: the start and the branches. *)
Definition round_of (P : proto) (T : nat -> mty) : Prop := T = p_types P \/ exists b l, l < p_labels P b /\ T = p_branch P b l.
Lemma accepts_rounds : forall P, accepts P = true <->
  forall T, round_of P T -> dual_mesh (p_roles P) T /\ tidy_mesh (p_roles P) T /\ ordered (p_roles P) (p_labels P) T.
Proof.
  intros P. unfold accepts. rewrite forallb_forall. split.
  - intros H T HT. apply round_test_true, H. destruct HT as [->|(b & l & Hl & ->)]; [left; reflexivity|right]. unfold p_branch, p_labels in *.
    apply in_map, in_concat. exists (nth b (p_choices P) []). split; [|apply nth_In, Hl].
    destruct (lt_dec b (length (p_choices P))) as [Hb|Hb]; [apply nth_In, Hb|]. rewrite nth_overflow in Hl by lia. cbn in Hl. lia.
  - intros H T HT. apply round_test_true, H. destruct HT as [<-|HT]; [left; reflexivity|right].
    apply in_map_iff in HT. destruct HT as (Ts & <- & HT). apply in_concat in HT. destruct HT as (c & Hc & HT).
    apply In_nth with (d := []) in Hc. destruct Hc as (b & Hb & <-). apply In_nth with (d := []) in HT. destruct HT as (l & Hl & <-).
    exists b, l. split; [exact Hl|reflexivity].
Qed.
