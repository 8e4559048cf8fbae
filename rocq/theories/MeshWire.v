(** The ends created by fork and by a choice on the specification store: who gets which end, and with
    which type. *)
From Coq Require Import List Arith Bool Lia Permutation.
From Verif Require Import Types Diag DiagProofs Wiring WiringProofs Session Mesh MeshSpec Links LinksProofs Refine Sim.
Import ListNotations.

(** Type of an end. *)
Definition lty (L : links) (x : handle) : sty := let '(l, s, _) := x in l_ty (lk L l) s.

(** The end of role p towards role q, for links numbered from base. *)
Definition hndb (n base p q : nat) : handle := (base + (idx n (min p q) (max p q) - 1), p <? q, true).
Definition meshb (n base p : nat) : list handle := map (fun j => hndb n base p (peer p j)) (seq 1 (n - 1)).

Lemma alloc_links : forall tys L pl L', alloc link_ops tys L = (pl, L') ->
  pl = map (fun i => ((i, true, true), (i, false, true))) (seq (lnext L) (length tys)) /\
  lnext L' = lnext L + length tys /\
  (forall m, m < lnext L -> lk L' m = lk L m) /\
  (forall i, i < length tys -> lk L' (lnext L + i) = new_link (nth i tys End)).
Proof.
  induction tys as [|t tys IH]; intros L pl L' H.
  - cbn in H. injection H as <- <-. cbn. repeat split; auto; intros; lia.
  - cbn [alloc op_new link_ops lk_new] in H.
    set (L1 := Links _ _) in H. destruct (alloc link_ops tys L1) as [l1 L2] eqn:E.
    injection H as <- <-. destruct (IH L1 l1 L2 E) as (-> & Hn & Hold & Hnew).
    cbn [lnext L1] in *. split; [reflexivity|]. split; [cbn; lia|]. split.
    + intros m Hm. rewrite Hold by lia. unfold L1. cbn. destruct (Nat.eqb_spec m (lnext L)); [lia|reflexivity].
    + intros [|i] Hi.
      * rewrite Nat.add_0_r. rewrite Hold by lia. unfold L1. cbn. rewrite Nat.eqb_refl. reflexivity.
      * cbn [nth]. replace (lnext L + S i) with (S (lnext L) + i) by lia. apply Hnew. cbn in Hi. lia.
Qed.

Lemma nth_error_seq' : forall len start i, i < len -> nth_error (seq start len) i = Some (start + i).
Proof.
  induction len as [|len IH]; intros start i Hi; [lia|]. destruct i as [|i]; cbn.
  - f_equal. lia.
  - rewrite IH by lia. f_equal. lia.
Qed.

Definition to_handle (base : nat) (e : endp) : handle := (base + (fst e - 1), snd e, true).

Lemma pick_links : forall base m k b, 1 <= k <= m ->
  pick (map (fun i : nat => ((i, true, true), (i, false, true))) (seq base m)) (k, b)
  = Some (to_handle base (k, b)).
Proof.
  intros base m k b Hk. unfold pick. cbn [fst snd]. rewrite nth_error_map, nth_error_seq' by lia. cbn.
  unfold to_handle. cbn. destruct b; reflexivity.
Qed.

Lemma end_range : forall b n i p, 1 <= i <= n -> 1 <= p <= n -> i <> p ->
  1 <= fst (end_of b n i p) <= npairs n.
Proof.
  intros b n i p Hi Hp Hne. unfold end_of. cbn [fst]. rewrite npairs_tri. apply idx_range; lia.
Qed.

Lemma hndb_to : forall n base p q, hndb n base p q = to_handle base (end_of b_fork n p q).
Proof. reflexivity. Qed.

Lemma pick_mesh : forall n base p, 1 <= p <= n ->
  pick_all (map (fun i : nat => ((i, true, true), (i, false, true))) (seq base (npairs n))) (mesh_of b_fork n p)
  = Some (meshb n base p).
Proof.
  intros n base p Hp. unfold pick_all, mesh_of, meshb. rewrite map_map. apply all_some_map.
  intros j Hj. apply in_seq in Hj. pose proof (peer_range n p j Hp ltac:(lia)) as Hr.
  pose proof (peer_neq p j) as Hne.
  pose proof (end_range b_fork n p (peer p j) Hp Hr ltac:(lia)) as Hk.
  rewrite hndb_to. destruct (end_of b_fork n p (peer p j)) as [k b]. apply pick_links. exact Hk.
Qed.

Lemma meshb_length : forall n base p, length (meshb n base p) = n - 1.
Proof. intros. unfold meshb. rewrite map_length, seq_length. reflexivity. Qed.

Lemma meshb_full : forall n base p y, In y (meshb n base p) -> full y = true.
Proof. intros n base p y H. apply in_map_iff in H. destruct H as (j & <- & _). reflexivity. Qed.

Lemma meshb_nth : forall n base p q, 1 <= p <= n -> 1 <= q <= n -> p <> q ->
  nth_error (meshb n base p) (field_pos p q) = Some (hndb n base p q).
Proof.
  intros n base p q Hp Hq Hne. destruct (peer_field n p q Hp Hq Hne) as [Hf Hpe].
  unfold meshb. rewrite nth_error_map, nth_error_seq' by lia. cbn. rewrite Hpe. reflexivity.
Qed.

Lemma peer_other : forall p j, peer p j = other p j.
Proof.
  intros p j. unfold peer, other. destruct (Nat.ltb_spec j p), (Nat.leb_spec p j); lia.
Qed.
Lemma served_other : forall p j, served p j = other p j.
Proof. reflexivity. Qed.

Lemma field_pos_peer : forall p j, 1 <= j -> field_pos p (peer p j) = j - 1.
Proof.
  intros p j Hj. unfold field_pos, peer. destruct (Nat.ltb_spec j p).
  - destruct (Nat.ltb_spec j p); lia.
  - destruct (Nat.ltb_spec (S j) p); lia.
Qed.

Lemma meshb_in : forall n base p y, 1 <= p <= n -> In y (meshb n base p) ->
  exists q, 1 <= q <= n /\ q <> p /\ y = hndb n base p q.
Proof.
  intros n base p y Hp H. apply in_map_iff in H. destruct H as (j & <- & Hj). apply in_seq in Hj.
  exists (peer p j). split; [apply peer_range; lia|]. split; [apply peer_neq|reflexivity].
Qed.

Lemma hndb_in : forall n base p q, 1 <= p <= n -> 1 <= q <= n -> p <> q -> In (hndb n base p q) (meshb n base p).
Proof. intros. eapply nth_error_In, meshb_nth; eauto. Qed.

(** The sends of a choice. *)
Definition pend_of (n base p : nat) (hs : list handle) : list (nat * handle * list handle) :=
  map (fun i => (other p i, nth (i - 1) hs (0, false, true), meshb n base (other p i))) (seq 1 (n - 1)).

Lemma wire_spec : forall n p b l base hs, 1 <= p <= n -> length hs = n - 1 ->
  wire n p b l hs (map (fun i : nat => ((i, true, true), (i, false, true))) (seq base (npairs n)))
  = Some (PChoose b l (pend_of n base p hs) (meshb n base p)).
Proof.
  intros n p b l base hs Hp Hlen. unfold wire.
  rewrite choose_sends_spec, choose_own_spec by exact Hp. rewrite pick_mesh by exact Hp.
  rewrite map_map. rewrite (all_some_map _ _ _
    (fun i => (other p i, nth (i - 1) hs (0, false, true), meshb n base (other p i)))).
  - reflexivity.
  - intros i Hi. apply in_seq in Hi.
    rewrite (nth_error_nth' hs (0, false, true)) by lia.
    rewrite pick_mesh by (apply served_range; lia). reflexivity.
Qed.

Lemma others_perm : forall n p, 1 <= p <= n -> Permutation (p :: map (other p) (seq 1 (n - 1))) (seq 1 n).
Proof.
  intros n p Hp. replace (n - 1) with ((p - 1) + (n - p)) by lia. rewrite seq_app, map_app.
  replace n with ((p - 1) + S (n - p)) at 2 by lia. rewrite seq_app.
  rewrite (map_ext_in (other p) (fun x => x)).
  2: { intros i Hi. apply in_seq in Hi. unfold other. destruct (Nat.leb_spec p i); lia. }
  rewrite map_id. replace (1 + (p - 1)) with p by lia. cbn [seq].
  rewrite (map_ext_in (other p) S (seq p (n - p))).
  2: { intros i Hi. apply in_seq in Hi. unfold other. destruct (Nat.leb_spec p i); lia. }
  rewrite seq_shift. apply Permutation_middle.
Qed.

(** ** Each end goes to exactly one role *)

Definition ends (n : nat) : list endp := flat_map (mesh_of b_fork n) (seq 1 n).
Definition all_ends (n : nat) : list endp := flat_map (fun k => [(k, true); (k, false)]) (seq 1 (npairs n)).

Lemma all_ends_in : forall n k b, In (k, b) (all_ends n) <-> 1 <= k <= npairs n.
Proof.
  intros n k b. unfold all_ends. rewrite in_flat_map. split.
  - intros (x & Hx & Hin). apply in_seq in Hx. cbn in Hin.
    destruct Hin as [E|[E|[]]]; injection E as <- _; lia.
  - intros H. exists k. rewrite in_seq. split; [lia|]. destruct b; cbn; auto.
Qed.

Lemma all_ends_NoDup : forall n, NoDup (all_ends n).
Proof.
  intros n. unfold all_ends. apply NoDup_flat_map.
  - apply seq_NoDup.
  - intros x _. constructor; [intros [E|[]]; discriminate|constructor; [auto|constructor]].
  - intros x y z _ _ Hx Hy. cbn in *. destruct Hx as [<-|[<-|[]]], Hy as [E|[E|[]]]; congruence.
Qed.

Lemma ends_perm : forall n, Permutation (ends n) (all_ends n).
Proof.
  intros n. pose proof (mesh_of_connected b_fork n (b_fork_antisym n)) as C.
  pose proof (mesh_of_uses_all b_fork n (b_fork_antisym n)) as U.
  apply NoDup_Permutation.
  - unfold ends. rewrite flat_map_concat_map. apply C.
  - apply all_ends_NoDup.
  - intros [k b]. rewrite all_ends_in. unfold ends. split.
    + intros Hin. apply in_flat_map in Hin. destruct Hin as (p & Hp & Hin). apply in_seq in Hp.
      apply in_map_iff in Hin. destruct Hin as (j & Hj & Hin). apply in_seq in Hin.
      pose proof (peer_range n p j ltac:(lia) ltac:(lia)). pose proof (peer_neq p j).
      pose proof (end_range b_fork n p (peer p j) ltac:(lia) ltac:(lia) ltac:(lia)) as Hr.
      rewrite Hj in Hr. exact Hr.
    + intros Hk. rewrite flat_map_concat_map. apply U. rewrite <- npairs_tri. exact Hk.
Qed.

Lemma mesh_perm : forall n base,
  Permutation (flat (map (fun i : nat => ((i, true, true), (i, false, true))) (seq base (npairs n))))
              (flat_map (meshb n base) (seq 1 n)).
Proof.
  intros n base.
  replace (flat (map (fun i : nat => ((i, true, true), (i, false, true))) (seq base (npairs n))))
    with (map (to_handle base) (all_ends n)).
  - replace (flat_map (meshb n base) (seq 1 n)) with (map (to_handle base) (ends n)).
    + apply Permutation_map, Permutation_sym, ends_perm.
    + unfold ends. rewrite !flat_map_concat_map, concat_map, map_map. f_equal. apply map_ext.
      intros p. unfold mesh_of, meshb. rewrite map_map. reflexivity.
  - unfold all_ends, flat. generalize (npairs n) as m. intros m. rewrite !flat_map_concat_map, concat_map.
    rewrite !map_map. f_equal.
    replace (seq base m) with (map (fun k => base + (k - 1)) (seq 1 m)).
    + rewrite map_map. apply map_ext. intros k. reflexivity.
    + clear. revert base. induction m as [|m IH]; intros base; [reflexivity|]. cbn [seq map]. f_equal; [lia|].
      rewrite <- (IH (S base)). rewrite <- (seq_shift m 1), map_map. apply map_ext_in.
      intros k Hk. apply in_seq in Hk. lia.
Qed.

Lemma cnt_perm : forall x a b, Permutation a b -> cnt x a = cnt x b.
Proof. intros x a b P. unfold cnt. apply (Permutation_count_occ handle_eq_dec), P. Qed.

(** ** Types of the new ends *)

Lemma comm_field_pos : forall p q, p <> q -> 1 <= p -> 1 <= q -> comm_field p q - 1 = field_pos p q.
Proof.
  intros p q Hne Hp Hq. unfold comm_field, field_pos. destruct (Nat.leb_spec p q), (Nat.ltb_spec q p); lia.
Qed.

Lemma pair_types_nth : forall n vars T p q, 1 <= p -> p < q -> q <= n ->
  vars (idx n p q) = Some ((p, q), (q, p)) ->
  nth (idx n p q - 1) (pair_types n vars T) End = sess T p q.
Proof.
  intros n vars T p q Hp Hpq Hq Hv. pose proof (idx_range n p q Hp Hpq Hq) as Hr.
  unfold pair_types. rewrite npairs_tri.
  rewrite (nth_indep _ End (match vars 0 with Some (line, column, _) =>
              nth (comm_field line column - 1) (fst (T line)) End | None => End end))
    by (rewrite map_length, seq_length; lia).
  rewrite (map_nth (fun k => match vars k with Some (line, column, _) =>
              nth (comm_field line column - 1) (fst (T line)) End | None => End end)).
  rewrite seq_nth by lia. replace (1 + (idx n p q - 1)) with (idx n p q) by lia. rewrite Hv.
  rewrite comm_field_pos by lia. reflexivity.
Qed.

Lemma pair_types_length : forall n vars T, length (pair_types n vars T) = npairs n.
Proof. intros. unfold pair_types. rewrite map_length, seq_length. reflexivity. Qed.

Lemma fork_vars_spec : forall n p q, 1 <= p -> p < q -> q <= n -> fork_vars n (idx n p q) = Some ((p, q), (q, p)).
Proof.
  intros n p q H1 H2 H3. unfold fork_vars. rewrite (proj1 (get_tuple_diag_spec n p q H1 H2 H3)). reflexivity.
Qed.
Lemma choose_vars_spec : forall n p q, 1 <= p -> p < q -> q <= n -> choose_vars n (idx n p q) = Some ((p, q), (q, p)).
Proof.
  intros n p q H1 H2 H3. unfold choose_vars. rewrite (proj2 (get_tuple_diag_spec n p q H1 H2 H3)). reflexivity.
Qed.

(** Allocating one link per pair of roles gives each role ends of the announced types. *)
Lemma new_mesh : forall n vars T L pl L',
  (forall p q, 1 <= p -> p < q -> q <= n -> vars (idx n p q) = Some ((p, q), (q, p))) ->
  dual_mesh n T -> alloc link_ops (pair_types n vars T) L = (pl, L') ->
  pl = map (fun i : nat => ((i, true, true), (i, false, true))) (seq (lnext L) (npairs n)) /\
  lnext L' = lnext L + npairs n /\
  (forall m, m < lnext L -> lk L' m = lk L m) /\
  (forall m, lnext L <= m < lnext L' -> exists t, lk L' m = new_link t) /\
  (forall p q, 1 <= p <= n -> 1 <= q <= n -> p <> q -> lty L' (hndb n (lnext L) p q) = sess T p q).
Proof.
  intros n vars T L pl L' Hv [_ Hd] H. apply alloc_links in H. rewrite pair_types_length in H.
  destruct H as (Hpl & Hn & Hold & Hnew). split; [exact Hpl|]. split; [exact Hn|]. split; [exact Hold|]. split.
  - intros m Hm. exists (nth (m - lnext L) (pair_types n vars T) End).
    rewrite <- Hnew by lia. f_equal. lia.
  - assert (Hlt : forall p q, 1 <= p -> p < q -> q <= n ->
              lty L' (hndb n (lnext L) p q) = sess T p q /\ lty L' (hndb n (lnext L) q p) = co (sess T p q)).
    { intros p q H1 H2 H3. unfold lty, hndb.
      rewrite (Nat.min_comm q p), (Nat.max_comm q p), (Nat.min_l p q), (Nat.max_r p q) by lia.
      pose proof (idx_range n p q H1 H2 H3) as Hr. rewrite <- npairs_tri in Hr.
      rewrite Hnew by lia. rewrite pair_types_nth by auto.
      destruct (Nat.ltb_spec p q), (Nat.ltb_spec q p); try lia. cbn. auto. }
    intros p q Hp Hq Hne. destruct (lt_dec p q) as [Hpq|Hpq].
    + apply Hlt; lia.
    + rewrite (Hd p q) by auto. apply Hlt; lia.
Qed.
