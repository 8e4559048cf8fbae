(** Proofs about the wiring produced by the generators of Wiring.v. *)
From Coq Require Import List Arith Bool Lia.
From Verif Require Import Diag DiagProofs Wiring.
Import ListNotations.

(** ** Specification: who is connected to whom *)

(** Position (from 0) of the field of role [me] that faces role [p]: the other roles are listed in
    increasing order. *)
Definition field_pos (me p : nat) : nat := if p <? me then p - 1 else p - 2.

Definition session_with (meshes : list (list endp)) (me p : nat) : option endp :=
  match nth_error meshes (me - 1) with
  | Some fields => nth_error fields (field_pos me p)
  | None => None
  end.

(** [n] MeshedChannels form a complete private network: any two roles hold the two ends of one
    channel, no end occurs twice, and there is one field per other role. *)
Record connected (n : nat) (meshes : list (list endp)) : Prop := {
  conn_len : length meshes = n;
  conn_fields : forall fields, In fields meshes -> length fields = n - 1;
  conn_pair : forall i p, 1 <= i <= n -> 1 <= p <= n -> i <> p ->
    exists k b, session_with meshes i p = Some (k, b) /\
                session_with meshes p i = Some (k, negb b);
  conn_nodup : NoDup (concat meshes)
}.

(** All ends of the channels 1..m are used. *)
Definition uses_all (m : nat) (meshes : list (list endp)) : Prop :=
  forall k b, 1 <= k <= m -> In (k, b) (concat meshes).

(** ** Generic lemmas *)

Lemma all_some_map : forall (A B : Type) (f : A -> option B) (g : A -> B) l,
  (forall x, In x l -> f x = Some (g x)) -> all_some (map f l) = Some (map g l).
Proof.
  induction l as [|a l IH]; intros H; [reflexivity|].
  cbn. rewrite (H a) by (left; reflexivity). rewrite IH; [reflexivity|].
  intros; apply H; right; assumption.
Qed.

Lemma NoDup_map_inj : forall (A B : Type) (f : A -> B) l,
  NoDup l -> (forall x y, In x l -> In y l -> f x = f y -> x = y) -> NoDup (map f l).
Proof.
  induction 1 as [|a l Hn Hd IH]; intros Hinj; cbn; constructor.
  - intros Hin. apply in_map_iff in Hin. destruct Hin as (y & Hy & Hin).
    apply Hn. rewrite (Hinj a y); [exact Hin|left; reflexivity|right; exact Hin|symmetry; exact Hy].
  - apply IH. intros x y Hx Hy. apply Hinj; right; assumption.
Qed.

Lemma NoDup_app_intro : forall (A : Type) (l1 l2 : list A),
  NoDup l1 -> NoDup l2 -> (forall x, In x l1 -> ~ In x l2) -> NoDup (l1 ++ l2).
Proof.
  induction 1 as [|a l1 Hn Hd IH]; intros H2 Hdis; cbn; [assumption|].
  constructor.
  - rewrite in_app_iff. intros [Hin|Hin]; [contradiction|].
    apply (Hdis a); [left; reflexivity|exact Hin].
  - apply IH; [assumption|]. intros x Hx. apply Hdis. right; exact Hx.
Qed.

Lemma NoDup_flat_map : forall (A B : Type) (f : A -> list B) l,
  NoDup l -> (forall x, In x l -> NoDup (f x)) ->
  (forall x y z, In x l -> In y l -> In z (f x) -> In z (f y) -> x = y) ->
  NoDup (flat_map f l).
Proof.
  induction 1 as [|a l Hn Hd IH]; intros Hf Hdis; cbn; [constructor|].
  apply NoDup_app_intro.
  - apply Hf. left; reflexivity.
  - apply IH; [intros; apply Hf; right; assumption|].
    intros x y z Hx Hy. apply Hdis; right; assumption.
  - intros z Hz Hin. apply in_flat_map in Hin. destruct Hin as (y & Hy & Hzy).
    assert (a = y) by (apply (Hdis a y z); [left; reflexivity|right; exact Hy|exact Hz|exact Hzy]).
    subst y. contradiction.
Qed.

(** ** Environments *)

Lemma var_eqb_spec : forall x y, var_eqb x y = true <-> x = y.
Proof.
  intros [a b] [c d]. unfold var_eqb. cbn. rewrite andb_true_iff, !Nat.eqb_eq. split.
  - intros [-> ->]; reflexivity.
  - intros H; inversion H; auto.
Qed.

Lemma let_new_keep : forall f ks g g' x e,
  let_new f ks g = Some g' ->
  (forall k y z, In k ks -> f k = Some (y, z) -> y <> x /\ z <> x) ->
  lookup g x = Some e -> lookup g' x = Some e.
Proof.
  induction ks as [|k ks IH]; intros g g' x e Hl Hd Hx; cbn in Hl; [congruence|].
  destruct (f k) as [[y z]|] eqn:E; [|discriminate].
  eapply IH; [exact Hl| |].
  - intros k' y' z' Hk'. apply Hd. right; exact Hk'.
  - destruct (Hd k y z (or_introl eq_refl) E) as [Hy Hz]. cbn.
    destruct (var_eqb x z) eqn:E1; [apply var_eqb_spec in E1; congruence|].
    destruct (var_eqb x y) eqn:E2; [apply var_eqb_spec in E2; congruence|]. exact Hx.
Qed.

Lemma let_new_some : forall f ks g,
  (forall k, In k ks -> exists p, f k = Some p) -> exists g', let_new f ks g = Some g'.
Proof.
  induction ks as [|k ks IH]; intros g H; cbn; [eexists; reflexivity|].
  destruct (H k (or_introl eq_refl)) as [[x y] ->].
  apply IH. intros; apply H; right; assumption.
Qed.

Lemma let_new_lookup : forall f ks g g' k x y,
  let_new f ks g = Some g' -> NoDup ks -> In k ks -> f k = Some (x, y) -> x <> y ->
  (forall k' x' y', In k' ks -> k' <> k -> f k' = Some (x', y') ->
     x' <> x /\ x' <> y /\ y' <> x /\ y' <> y) ->
  lookup g' x = Some (k, true) /\ lookup g' y = Some (k, false).
Proof.
  induction ks as [|k0 ks IH]; intros g g' k x y Hl Hnd Hin Hf Hxy Hd; [destruct Hin|].
  inversion Hnd as [|? ? Hnin Hnd']; subst. cbn in Hl.
  destruct (f k0) as [[x0 y0]|] eqn:E; [|discriminate].
  destruct Hin as [->|Hin].
  - rewrite Hf in E. inversion E; subst x0 y0.
    assert (Hk : forall v, v = x \/ v = y ->
      forall k' y' z', In k' ks -> f k' = Some (y', z') -> y' <> v /\ z' <> v).
    { intros v Hv k' y' z' Hk' Hf'.
      assert (k' <> k) by (intros ->; contradiction).
      destruct (Hd k' y' z') as (H1 & H2 & H3 & H4);
        [right; exact Hk'|assumption|exact Hf'|].
      destruct Hv; subst; auto. }
    split; (eapply let_new_keep; [exact Hl| |]).
    + apply Hk; left; reflexivity.
    + cbn. destruct (var_eqb x y) eqn:E1; [apply var_eqb_spec in E1; congruence|].
      destruct (var_eqb x x) eqn:E2; [reflexivity|].
      assert (var_eqb x x = true) by (apply var_eqb_spec; reflexivity). congruence.
    + apply Hk; right; reflexivity.
    + cbn. assert (var_eqb y y = true) as -> by (apply var_eqb_spec; reflexivity). reflexivity.
  - eapply IH; try eassumption. intros k' x' y' Hk'. apply Hd. right; exact Hk'.
Qed.

(** ** A general form of all meshes: [b i p] tells which end role i has towards p *)

Definition end_of (b : nat -> nat -> bool) (n i p : nat) : endp :=
  (idx n (min i p) (max i p), b i p).

Definition mesh_of (b : nat -> nat -> bool) (n i : nat) : list endp :=
  map (fun j => end_of b n i (peer i j)) (seq 1 (n - 1)).

Definition antisym (n : nat) (b : nat -> nat -> bool) : Prop :=
  forall i p, 1 <= i <= n -> 1 <= p <= n -> i <> p -> b p i = negb (b i p).

Lemma peer_field : forall n i p, 1 <= i <= n -> 1 <= p <= n -> i <> p ->
  field_pos i p < n - 1 /\ peer i (S (field_pos i p)) = p.
Proof.
  intros n i p Hi Hp Hne. unfold field_pos, peer.
  destruct (p <? i) eqn:E; [apply Nat.ltb_lt in E|apply Nat.ltb_ge in E].
  - split; [lia|]. replace (S (p - 1)) with p by lia.
    replace (p <? i) with true by (symmetry; apply Nat.ltb_lt; lia). reflexivity.
  - split; [lia|]. replace (S (p - 2) <? i) with false by (symmetry; apply Nat.ltb_ge; lia). lia.
Qed.

Lemma session_with_mesh_of : forall b n i p, 1 <= i <= n -> 1 <= p <= n -> i <> p ->
  session_with (map (mesh_of b n) (seq 1 n)) i p = Some (end_of b n i p).
Proof.
  intros b n i p Hi Hp Hne. unfold session_with.
  rewrite nth_error_map, nth_error_seq by lia. cbn [option_map].
  replace (1 + (i - 1)) with i by lia.
  destruct (peer_field n i p Hi Hp Hne) as [Hlt Hpe].
  unfold mesh_of. rewrite nth_error_map, nth_error_seq by lia. cbn [option_map].
  change (1 + field_pos i p) with (S (field_pos i p)). rewrite Hpe. reflexivity.
Qed.

Lemma end_of_inj : forall b n i p i' p', antisym n b ->
  1 <= i <= n -> 1 <= p <= n -> i <> p ->
  1 <= i' <= n -> 1 <= p' <= n -> i' <> p' ->
  end_of b n i p = end_of b n i' p' -> i = i' /\ p = p'.
Proof.
  intros b n i p i' p' Ha Hi Hp Hne Hi' Hp' Hne' He.
  inversion He as [[Hidx Hb]].
  apply idx_inj in Hidx; try lia.
  destruct Hidx as [Hmin Hmax].
  assert (Hc : (i = i' /\ p = p') \/ (i = p' /\ p = i')) by lia.
  destruct Hc as [Hc|[-> ->]]; [exact Hc|].
  rewrite (Ha i' p') in Hb by auto. destruct (b i' p'); discriminate.
Qed.

Lemma mesh_of_connected : forall b n, antisym n b ->
  connected n (map (mesh_of b n) (seq 1 n)).
Proof.
  intros b n Ha. constructor.
  - rewrite map_length, seq_length. reflexivity.
  - intros fields Hin. apply in_map_iff in Hin. destruct Hin as (i & <- & _).
    unfold mesh_of. rewrite map_length, seq_length. reflexivity.
  - intros i p Hi Hp Hne. exists (idx n (min i p) (max i p)), (b i p).
    rewrite !session_with_mesh_of by auto. split; [reflexivity|].
    unfold end_of. rewrite (Nat.min_comm p i), (Nat.max_comm p i), (Ha i p) by auto. reflexivity.
  - rewrite <- flat_map_concat_map. apply NoDup_flat_map.
    + apply seq_NoDup.
    + intros i Hi. apply in_seq in Hi. apply NoDup_map_inj; [apply seq_NoDup|].
      intros j j' Hj Hj' He. apply in_seq in Hj, Hj'.
      apply (end_of_inj b n i (peer i j) i (peer i j')) in He; auto using peer_neq;
        try (apply peer_range; lia); try lia; try (intros E; symmetry in E; revert E; apply peer_neq).
      destruct He as [_ He]. unfold peer in He.
      destruct (j <? i) eqn:E1, (j' <? i) eqn:E2;
        repeat match goal with
        | H : (_ <? _) = true |- _ => apply Nat.ltb_lt in H
        | H : (_ <? _) = false |- _ => apply Nat.ltb_ge in H
        end; lia.
    + intros i i' z Hi Hi' Hz Hz'. apply in_seq in Hi, Hi'.
      apply in_map_iff in Hz, Hz'. destruct Hz as (j & <- & Hj), Hz' as (j' & Hz' & Hj').
      apply in_seq in Hj, Hj'.
      apply (end_of_inj b n i' (peer i' j') i (peer i j)) in Hz'; auto;
        try (apply peer_range; lia); try lia; try (intros E; symmetry in E; revert E; apply peer_neq).
Qed.

Lemma mesh_of_uses_all : forall b n, antisym n b ->
  uses_all (tri n) (map (mesh_of b n) (seq 1 n)).
Proof.
  intros b n Ha k s Hk.
  destruct (idx_surj n k Hk) as (l & c & Hl & Hlc & Hc & <-).
  assert (Hin : forall i p, 1 <= i <= n -> 1 <= p <= n -> i <> p ->
    In (end_of b n i p) (concat (map (mesh_of b n) (seq 1 n)))).
  { intros i p Hi Hp Hne. apply in_concat. exists (mesh_of b n i). split.
    - apply in_map, in_seq. lia.
    - destruct (peer_field n i p Hi Hp Hne) as [Hlt Hpe].
      unfold mesh_of. apply in_map_iff. exists (S (field_pos i p)).
      rewrite Hpe. split; [reflexivity|]. apply in_seq. lia. }
  destruct (Bool.bool_dec (b l c) s) as [<-|Hs].
  - specialize (Hin l c ltac:(lia) ltac:(lia) ltac:(lia)).
    unfold end_of in Hin. rewrite Nat.min_l, Nat.max_r in Hin by lia. exact Hin.
  - specialize (Hin c l ltac:(lia) ltac:(lia) ltac:(lia)).
    unfold end_of in Hin. rewrite Nat.min_r, Nat.max_l in Hin by lia.
    rewrite (Ha l c) in Hin by lia.
    replace s with (negb (b l c)) by (destruct (b l c), s; try reflexivity; exfalso; apply Hs; reflexivity). exact Hin.
Qed.

Lemma npairs_tri : forall n, npairs n = tri n.
Proof.
  intros [|n]; [reflexivity|]. unfold npairs, tri. f_equal. f_equal. lia.
Qed.

(** ** Environments with variables (l,c)/(c,l) *)

(** [sw l c] tells whether the two variables of pair (l,c) are swapped. *)
Lemma env_spec : forall n (sw : nat -> nat -> bool) f,
  (forall l c, 1 <= l -> l < c -> c <= n ->
     f (idx n l c) = Some (if sw l c then ((c, l), (l, c)) else ((l, c), (c, l)))) ->
  exists g, let_new f (seq 1 (tri n)) [] = Some g /\
    forall i p, 1 <= i <= n -> 1 <= p <= n -> i <> p ->
      lookup g (i, p) =
        Some (idx n (min i p) (max i p), if i <? p then negb (sw i p) else sw p i).
Proof.
  intros n sw f Hf.
  assert (Hall : forall k, In k (seq 1 (tri n)) -> exists l c,
            1 <= l /\ l < c /\ c <= n /\ k = idx n l c).
  { intros k Hk. apply in_seq in Hk. destruct (idx_surj n k) as (l & c & H1 & H2 & H3 & H4); [lia|].
    exists l, c. auto. }
  destruct (let_new_some f (seq 1 (tri n)) []) as [g Hg].
  { intros k Hk. destruct (Hall k Hk) as (l & c & H1 & H2 & H3 & ->).
    rewrite Hf by assumption. eexists; reflexivity. }
  exists g. split; [exact Hg|].
  assert (Hpair : forall l c, 1 <= l -> l < c -> c <= n ->
    lookup g (l, c) = Some (idx n l c, negb (sw l c)) /\
    lookup g (c, l) = Some (idx n l c, sw l c)).
  { intros l c H1 H2 H3.
    assert (Hin : In (idx n l c) (seq 1 (tri n))).
    { apply in_seq. pose proof (idx_range n l c H1 H2 H3). lia. }
    assert (Hother : forall k' x' y', In k' (seq 1 (tri n)) -> k' <> idx n l c ->
      f k' = Some (x', y') ->
      (x' <> (l, c) /\ x' <> (c, l)) /\ (y' <> (l, c) /\ y' <> (c, l))).
    { intros k' x' y' Hk' Hne Hf'.
      destruct (Hall k' Hk') as (l' & c' & H1' & H2' & H3' & ->).
      rewrite Hf in Hf' by assumption.
      assert (~ (l = l' /\ c = c')) by (intros [-> ->]; congruence).
      destruct (sw l' c'); inversion Hf'; subst;
        repeat split; intros E; inversion E; subst; try lia; apply H; auto. }
    pose proof (Hf l c H1 H2 H3) as Hfk.
    destruct (sw l c) eqn:Es; cbn [negb].
    - destruct (let_new_lookup f (seq 1 (tri n)) [] g (idx n l c) (c, l) (l, c) Hg
                  (seq_NoDup _ _) Hin Hfk) as [HA HB].
      + intros E; inversion E; lia.
      + intros k' x' y' Hk' Hne Hf'. destruct (Hother k' x' y' Hk' Hne Hf') as [[? ?] [? ?]]. auto.
      + auto.
    - destruct (let_new_lookup f (seq 1 (tri n)) [] g (idx n l c) (l, c) (c, l) Hg
                  (seq_NoDup _ _) Hin Hfk) as [HA HB].
      + intros E; inversion E; lia.
      + intros k' x' y' Hk' Hne Hf'. destruct (Hother k' x' y' Hk' Hne Hf') as [[? ?] [? ?]]. auto.
      + auto. }
  intros i p Hi Hp Hne. destruct (i <? p) eqn:E.
  - apply Nat.ltb_lt in E. rewrite Nat.min_l, Nat.max_r by lia. apply Hpair; lia.
  - apply Nat.ltb_ge in E. rewrite Nat.min_r, Nat.max_l by lia. apply (Hpair p i); lia.
Qed.

(** ** fork *)

Definition b_fork (i p : nat) : bool := i <? p.

Lemma b_fork_antisym : forall n, antisym n b_fork.
Proof.
  intros n i p _ _ Hne. unfold b_fork.
  destruct (p <? i) eqn:E1, (i <? p) eqn:E2; try reflexivity;
  repeat match goal with
  | H : (_ <? _) = true |- _ => apply Nat.ltb_lt in H
  | H : (_ <? _) = false |- _ => apply Nat.ltb_ge in H
  end; lia.
Qed.

Lemma fork_env_spec : forall n, exists g, fork_env n = Some g /\
  forall i p, 1 <= i <= n -> 1 <= p <= n -> i <> p -> lookup g (i, p) = Some (end_of b_fork n i p).
Proof.
  intros n. unfold fork_env. rewrite npairs_tri.
  destruct (env_spec n (fun _ _ => false) (fork_vars n)) as (g & Hg & Hl).
  - intros l c H1 H2 H3. unfold fork_vars.
    destruct (get_tuple_diag_spec n l c H1 H2 H3) as [-> _]. reflexivity.
  - exists g. split; [exact Hg|]. intros i p Hi Hp Hne. rewrite Hl by assumption.
    unfold end_of, b_fork. destruct (i <? p); reflexivity.
Qed.

Lemma cell_line : forall n i j, 1 <= i <= n -> 1 <= j < n ->
  fst (fst (cell n i j)) = min i (peer i j).
Proof. reflexivity. Qed.

Lemma cell_var : forall n i j,
  (let '(line, column, _) := cell n i j in if line =? i then (line, column) else (column, line))
  = (i, peer i j).
Proof.
  intros n i j. unfold cell. destruct (min i (peer i j) =? i) eqn:E.
  - apply Nat.eqb_eq in E. f_equal; lia.
  - apply Nat.eqb_neq in E. f_equal; lia.
Qed.

Lemma min_eqb : forall i p, p <> i -> (min i p =? i) = (i <? p).
Proof.
  intros i p H. destruct (i <? p) eqn:E; [apply Nat.ltb_lt in E|apply Nat.ltb_ge in E].
  - apply Nat.eqb_eq. lia.
  - apply Nat.eqb_neq. lia.
Qed.

Lemma fork_mesh_spec : forall n i, 1 <= i <= n -> fork_mesh n i = Some (mesh_of b_fork n i).
Proof.
  intros n i Hi. unfold fork_mesh.
  destruct (fork_env_spec n) as (g & -> & Hl).
  unfold mesh_of. apply all_some_map. intros j Hj. apply in_seq in Hj.
  rewrite get_tuple_matrix_spec by lia.
  pose proof (cell_var n i j) as Hc.
  destruct (cell n i j) as [[line column] m]. cbv beta iota in Hc |- *. etransitivity; [apply f_equal; exact Hc|]. apply Hl; [lia| |].
  - apply peer_range; lia.
  - intros E; symmetry in E; revert E; apply peer_neq.
Qed.

Lemma fork_decl_spec : forall n i, 1 <= i <= n -> fork_decl n i = Some (mesh_of b_fork n i).
Proof.
  intros n i Hi. unfold fork_decl, mesh_of. apply all_some_map. intros j Hj. apply in_seq in Hj.
  rewrite get_tuple_matrix_w_offset_spec by lia. unfold cell, end_of, b_fork.
  rewrite min_eqb by apply peer_neq. reflexivity.
Qed.

Lemma fork_threads_spec : forall n, fork_threads n = Some (map (mesh_of b_fork n) (seq 1 n)).
Proof.
  intros n. unfold fork_threads. apply all_some_map. intros i Hi. apply in_seq in Hi.
  apply fork_mesh_spec. lia.
Qed.

(** ** enum choice *)

Lemma choose_env_spec : forall n, exists g, choose_env n = Some g /\
  forall i p, 1 <= i <= n -> 1 <= p <= n -> i <> p -> lookup g (i, p) = Some (end_of b_fork n i p).
Proof.
  intros n. unfold choose_env. fold (tri n).
  destruct (env_spec n (fun _ _ => false) (choose_vars n)) as (g & Hg & Hl).
  - intros l c H1 H2 H3. unfold choose_vars.
    destruct (get_tuple_diag_spec n l c H1 H2 H3) as [_ ->]. reflexivity.
  - exists g. split; [exact Hg|]. intros i p Hi Hp Hne. rewrite Hl by assumption.
    unfold end_of, b_fork. destruct (i <? p); reflexivity.
Qed.

(** Role served by the i-th send of chooser e. *)
Definition served (e i : nat) : nat := if e <=? i then i + 1 else i.

Lemma served_range : forall n e i, 1 <= e <= n -> 1 <= i < n -> 1 <= served e i <= n /\ served e i <> e.
Proof.
  intros n e i He Hi. unfold served.
  destruct (e <=? i) eqn:E; [apply Nat.leb_le in E|apply Nat.leb_gt in E]; lia.
Qed.

Lemma row_lookup : forall n g t,
  (forall i p, 1 <= i <= n -> 1 <= p <= n -> i <> p -> lookup g (i, p) = Some (end_of b_fork n i p)) ->
  1 <= t <= n ->
  all_some (map (fun j => lookup g (if j <? t then (t, j) else (t, j + 1))) (seq 1 (n - 1)))
  = Some (mesh_of b_fork n t).
Proof.
  intros n g t Hl Ht. unfold mesh_of. apply all_some_map. intros j Hj. apply in_seq in Hj.
  unfold peer. destruct (j <? t) eqn:E; [apply Nat.ltb_lt in E|apply Nat.ltb_ge in E].
  - apply Hl; lia.
  - replace (j + 1) with (S j) by lia. apply Hl; lia.
Qed.

Lemma choose_sends_spec : forall n e, 1 <= e <= n ->
  choose_sends n e = Some (map (fun i => (i, mesh_of b_fork n (served e i))) (seq 1 (n - 1))).
Proof.
  intros n e He. unfold choose_sends. apply all_some_map. intros i Hi. apply in_seq in Hi.
  unfold choose_send. destruct (choose_env_spec n) as (g & -> & Hl).
  destruct (served_range n e i He ltac:(lia)) as [Hr _]. fold (served e i).
  rewrite (row_lookup n g (served e i) Hl Hr). reflexivity.
Qed.

Lemma choose_own_spec : forall n e, 1 <= e <= n -> choose_own n e = Some (mesh_of b_fork n e).
Proof.
  intros n e He. unfold choose_own. destruct (choose_env_spec n) as (g & -> & Hl).
  apply row_lookup; assumption.
Qed.

(** ** choose_left / choose_right *)

Definition b_choice (sender i p : nat) : bool :=
  if i =? sender then false else if p =? sender then true else i <? p.

Lemma ltb_antisym_neq : forall i p, i <> p -> (p <? i) = negb (i <? p).
Proof.
  intros i p Hne.
  destruct (p <? i) eqn:E1, (i <? p) eqn:E2; try reflexivity;
  repeat match goal with
  | H : (_ <? _) = true |- _ => apply Nat.ltb_lt in H
  | H : (_ <? _) = false |- _ => apply Nat.ltb_ge in H
  end; lia.
Qed.

Lemma b_choice_antisym : forall n s, antisym n (b_choice s).
Proof.
  intros n s i p _ _ Hne. unfold b_choice.
  destruct (i =? s) eqn:E1, (p =? s) eqn:E2; try reflexivity.
  - apply Nat.eqb_eq in E1, E2. congruence.
  - apply ltb_antisym_neq. exact Hne.
Qed.

Lemma bchoose_env_spec : forall n s, exists g, bchoose_env n s = Some g /\
  forall i p, 1 <= i <= n -> 1 <= p <= n -> i <> p ->
    lookup g (i, p) = Some (end_of (b_choice s) n i p).
Proof.
  intros n s. unfold bchoose_env. rewrite npairs_tri.
  destruct (env_spec n (fun l _ => s =? l) (bchoose_vars n s)) as (g & Hg & Hl).
  - intros l c H1 H2 H3. unfold bchoose_vars. rewrite get_line_column_spec by assumption.
    destruct (s =? l); reflexivity.
  - exists g. split; [exact Hg|]. intros i p Hi Hp Hne. rewrite Hl by assumption.
    unfold end_of, b_choice. f_equal. f_equal.
    rewrite (Nat.eqb_sym s i), (Nat.eqb_sym s p).
    destruct (i <? p) eqn:E; [apply Nat.ltb_lt in E|apply Nat.ltb_ge in E];
      destruct (i =? s) eqn:E1, (p =? s) eqn:E2; cbn; try reflexivity.
    apply Nat.eqb_eq in E1, E2. lia.
Qed.

Lemma bchoose_receiver_spec : forall n s j, 1 <= s <= n -> 1 <= j <= n -> j <> s ->
  bchoose_receiver n s j = Some (mesh_of (b_choice s) n j).
Proof.
  intros n s j Hs Hj Hne. unfold bchoose_receiver.
  destruct (bchoose_env_spec n s) as (g & -> & Hl).
  unfold mesh_of. apply all_some_map. intros k Hk. apply in_seq in Hk. unfold peer.
  destruct (k <? j) eqn:E; [apply Nat.ltb_lt in E|apply Nat.ltb_ge in E].
  - apply Hl; lia.
  - replace (k + 1) with (S k) by lia. apply Hl; lia.
Qed.

(** The row of [sender] read at the position of role j is the pair (sender, j). *)
Lemma sender_cell : forall n s j, 1 <= s <= n -> 1 <= j <= n -> j <> s ->
  (if s <? j then get_tuple_matrix (matrix n) s (j - 1) else get_tuple_matrix (matrix n) s j)
  = Some (min s j, max s j, idx n (min s j) (max s j)).
Proof.
  intros n s j Hs Hj Hne. destruct (s <? j) eqn:E.
  - apply Nat.ltb_lt in E. rewrite get_tuple_matrix_spec by lia. unfold cell, peer.
    replace (j - 1 <? s) with false by (symmetry; apply Nat.ltb_ge; lia).
    replace (S (j - 1)) with j by lia. reflexivity.
  - apply Nat.ltb_ge in E. rewrite get_tuple_matrix_spec by lia. unfold cell, peer.
    replace (j <? s) with true by (symmetry; apply Nat.ltb_lt; lia). reflexivity.
Qed.

Lemma bchoose_receiver_decl_spec : forall n s j, 1 <= s <= n -> 1 <= j <= n -> j <> s ->
  bchoose_receiver_decl n s j = Some (mesh_of (b_choice s) n j).
Proof.
  intros n s j Hs Hj Hne. unfold bchoose_receiver_decl, mesh_of.
  apply all_some_map. intros k Hk. apply in_seq in Hk.
  rewrite get_tuple_matrix_spec by lia. rewrite sender_cell by assumption.
  unfold cell, end_of, b_choice.
  pose proof (peer_neq j k). pose proof (peer_range n j k Hj ltac:(lia)).
  set (p := peer j k) in *.
  replace (j =? s) with false by (symmetry; apply Nat.eqb_neq; exact Hne).
  destruct (p =? s) eqn:E.
  - apply Nat.eqb_eq in E. subst s. rewrite (Nat.min_comm p j), (Nat.max_comm p j).
    rewrite Nat.eqb_refl, orb_true_r. reflexivity.
  - apply Nat.eqb_neq in E.
    assert ((idx n (min s j) (max s j) =? idx n (min j p) (max j p)) = false) as ->.
    { apply Nat.eqb_neq. intros Hidx. apply idx_inj in Hidx; lia. }
    rewrite orb_false_r, min_eqb by assumption. reflexivity.
Qed.

Lemma filter_not : forall n s, 1 <= s <= n ->
  filter (fun j => negb (s =? j)) (seq 1 n) = map (peer s) (seq 1 (n - 1)).
Proof.
  intros n s Hs.
  replace n with ((s - 1) + S (n - s)) at 1 by lia.
  rewrite seq_app. replace (1 + (s - 1)) with s by lia. cbn [seq].
  rewrite filter_app. cbn [filter]. rewrite Nat.eqb_refl. cbn [negb].
  rewrite !filter_all.
  - replace (n - 1) with ((s - 1) + (n - s)) by lia. rewrite seq_app, map_app. f_equal.
    + rewrite <- map_id at 1. apply map_ext_in. intros j Hj. apply in_seq in Hj. unfold peer.
      replace (j <? s) with true by (symmetry; apply Nat.ltb_lt; lia). reflexivity.
    + replace (1 + (s - 1)) with s by lia. rewrite <- seq_shift. apply map_ext_in.
      intros j Hj. apply in_seq in Hj. unfold peer.
      replace (j <? s) with false by (symmetry; apply Nat.ltb_ge; lia). reflexivity.
  - intros x Hx. apply in_seq in Hx. apply negb_true_iff, Nat.eqb_neq. lia.
  - intros x Hx. apply in_seq in Hx. apply negb_true_iff, Nat.eqb_neq. lia.
Qed.

Lemma bchoose_sender_spec : forall n s, 1 <= s <= n ->
  bchoose_sender n s =
    Some (map (fun j => (j, end_of (b_choice s) n s (peer s j))) (seq 1 (n - 1))).
Proof.
  intros n s Hs. unfold bchoose_sender.
  destruct (bchoose_env_spec n s) as (g & -> & Hl).
  rewrite filter_not by assumption. rewrite map_map. apply all_some_map.
  intros j Hj. apply in_seq in Hj. rewrite Hl.
  - f_equal. f_equal. unfold peer.
    destruct (j <? s) eqn:E; [rewrite E; reflexivity|].
    apply Nat.ltb_ge in E. replace (S j <? s) with false by (symmetry; apply Nat.ltb_ge; lia). lia.
  - exact Hs.
  - apply peer_range; lia.
  - intros E; symmetry in E; revert E; apply peer_neq.
Qed.

Lemma bchoose_sender_decl_spec : forall n s, 1 <= s <= n ->
  bchoose_sender_decl n s = Some (mesh_of (b_choice s) n s).
Proof.
  intros n s Hs. unfold bchoose_sender_decl. rewrite filter_not by assumption.
  rewrite map_map. unfold mesh_of. apply all_some_map. intros j Hj. apply in_seq in Hj.
  rewrite sender_cell; [|assumption|apply peer_range; lia|apply peer_neq].
  unfold end_of, b_choice. rewrite Nat.eqb_refl. reflexivity.
Qed.

(** ** Function form: create_choose_mpst_session_multi_left/right *)

Lemma cchoose_receiver_spec : forall n i, 1 <= i <= n -> cchoose_receiver n i = Some (mesh_of b_fork n i).
Proof.
  intros n i Hi. unfold cchoose_receiver, cchoose_env.
  destruct (choose_env_spec n) as (g & -> & Hl).
  unfold mesh_of. apply all_some_map. intros j Hj. apply in_seq in Hj.
  rewrite get_tuple_matrix_spec by lia.
  pose proof (cell_var n i j) as Hc. destruct (cell n i j) as [[line column] m]. cbv beta iota in Hc |- *. etransitivity; [apply f_equal; exact Hc|].
  apply Hl; [lia|apply peer_range; lia|intros E; symmetry in E; revert E; apply peer_neq].
Qed.

Lemma cchoose_receiver_decl_spec : forall n i, 1 <= i <= n ->
  cchoose_receiver_decl n i = Some (mesh_of b_fork n i).
Proof.
  intros n i Hi. unfold cchoose_receiver_decl, mesh_of. apply all_some_map.
  intros j Hj. apply in_seq in Hj. unfold cchoose_type_arg.
  rewrite get_tuple_matrix_spec by lia. unfold cell, end_of, b_fork.
  rewrite negb_involutive, min_eqb by apply peer_neq. reflexivity.
Qed.

Lemma cchoose_sender_spec : forall n, cchoose_sender n = Some (mesh_of b_fork n n).
Proof.
  intros n. unfold cchoose_sender, cchoose_env.
  destruct (choose_env_spec n) as (g & -> & Hl).
  unfold mesh_of. apply all_some_map. intros i Hi. apply in_seq in Hi.
  rewrite get_tuple_matrix_spec by lia. unfold cell, peer.
  replace (i <? n) with true by (symmetry; apply Nat.ltb_lt; lia).
  rewrite Nat.min_r, Nat.max_l by lia. rewrite Nat.eqb_refl. apply Hl; lia.
Qed.

Lemma sum_off : forall n i a,
  fold_right (fun j acc => (n - 1 - j) + acc) 0 (seq a i) + off n a = off n (a + i).
Proof.
  induction i; intros a; cbn [seq fold_right].
  - rewrite Nat.add_0_r. reflexivity.
  - replace (a + S i) with (S a + i) by lia. rewrite <- IHi. cbn [off]. lia.
Qed.

Lemma cchoose_sender_decl_spec : forall n, cchoose_sender_decl n = mesh_of b_fork n n.
Proof.
  intros n. unfold cchoose_sender_decl, mesh_of. apply map_ext_in. intros i Hi. apply in_seq in Hi.
  unfold end_of, b_fork, peer.
  replace (i <? n) with true by (symmetry; apply Nat.ltb_lt; lia).
  rewrite Nat.min_r, Nat.max_l by lia.
  replace (n <? i) with false by (symmetry; apply Nat.ltb_ge; lia). f_equal.
  pose proof (sum_off n i 0) as H. cbn [off] in H. rewrite Nat.add_0_r in H. rewrite H.
  unfold idx. destruct i as [|i]; [lia|]. replace (S i - 1) with i by lia.
  rewrite Nat.add_0_l. cbn [off]. lia.
Qed.

(** ** Choice with broadcaster *)

Lemma cancel_pushes_app : forall n ks1 ks2 l1 l2,
  cancel_pushes n ks1 = Some l1 -> cancel_pushes n ks2 = Some l2 ->
  cancel_pushes n (ks1 ++ ks2) = Some (l1 ++ l2).
Proof.
  induction ks1 as [|k ks1 IH]; intros ks2 l1 l2 H1 H2; cbn [cancel_pushes app] in H1 |- *.
  - inversion H1; subst. exact H2.
  - destruct (get_tuple_diag (diag n) k) as [[[l c] x]|]; [|discriminate H1].
    destruct (cancel_pushes n ks1) as [r|]; [|discriminate].
    rewrite (IH ks2 r l2 eq_refl H2). inversion H1; subst.
    destruct (k <? n); reflexivity.
Qed.

Lemma cancel_pushes_spec : forall n, 2 <= n ->
  cancel_pushes n (seq 1 (tri n)) = Some (map (fun c => (1, c)) (seq 2 (n - 1))).
Proof.
  intros n Hn.
  assert (Htri : n - 1 <= tri n).
  { rewrite tri_off. pose proof (off_mono n 1 (n - 1)). cbn [off] in H. lia. }
  replace (tri n) with ((n - 1) + (tri n - (n - 1))) by lia. rewrite seq_app.
  rewrite <- (app_nil_r (map _ _)). apply cancel_pushes_app.
  - assert (H : forall m a, 1 <= a -> a + m <= n ->
      cancel_pushes n (seq a m) = Some (map (fun c => (1, c)) (seq (S a) m))).
    { induction m; intros a Ha Hm; [reflexivity|]. cbn [seq cancel_pushes map].
      assert (Hidx : idx n 1 (S a) = a) by (unfold idx; cbn [Nat.sub off]; lia).
      destruct (get_tuple_diag_spec n 1 (S a)) as [_ Hd]; [lia|lia|lia|].
      rewrite Hidx in Hd. rewrite Hd, IHm by lia.
      replace (a <? n) with true by (symmetry; apply Nat.ltb_lt; lia). reflexivity. }
    apply H; lia.
  - assert (H : forall m a, n <= a -> a + m <= S (tri n) -> cancel_pushes n (seq a m) = Some []).
    { induction m; intros a Ha Hm; [reflexivity|]. cbn [seq cancel_pushes].
      destruct (idx_surj n a) as (l & c & H1 & H2 & H3 & Hidx); [lia|].
      destruct (get_tuple_diag_spec n l c H1 H2 H3) as [_ Hd].
      rewrite Hidx in Hd. rewrite Hd, IHm by lia.
      replace (a <? n) with false by (symmetry; apply Nat.ltb_ge; lia). reflexivity. }
    apply H; lia.
Qed.

Lemma cancel_carry_spec : forall e is_ stack x,
  length stack = length is_ ->
  cancel_carry e is_ (stack ++ [x]) = Some (combine (map (served e) is_) stack ++ [(e, x)]).
Proof.
  induction is_ as [|i is_ IH]; intros stack x Hlen; destruct stack as [|v stack];
    try discriminate; cbn; [reflexivity|].
  rewrite IH by (cbn in Hlen; lia). reflexivity.
Qed.

Definition carriers_spec (n e : nat) : list (nat * var) :=
  combine (map (served e) (seq 2 (n - 2))) (rev (map (fun c => (1, c)) (seq 3 (n - 2)))) ++ [(e, (1, 2))].

Lemma cancel_carriers_spec : forall n e, 2 <= n -> cancel_carriers n e = Some (carriers_spec n e).
Proof.
  intros n e Hn. unfold cancel_carriers. fold (tri n). rewrite cancel_pushes_spec by exact Hn.
  replace (n - 1) with (S (n - 2)) by lia. cbn [seq map rev].
  rewrite cancel_carry_spec; [reflexivity|].
  rewrite rev_length, map_length, !seq_length. reflexivity.
Qed.

Lemma rev_seq_map : forall (A : Type) (f : nat -> A) m a,
  rev (map f (seq a m)) = map (fun i => f (a + (m - 1) - i)) (seq 0 m).
Proof.
  intros A f m a. rewrite <- map_rev. rewrite <- (map_map (fun i => a + (m - 1) - i) f). f_equal.
  apply nth_ext with (d := 0) (d' := 0).
  - rewrite rev_length, map_length, !seq_length. reflexivity.
  - intros k Hk. rewrite rev_length, seq_length in Hk.
    rewrite rev_nth by (rewrite seq_length; exact Hk). rewrite !seq_length.
    rewrite seq_nth by lia.
    rewrite (nth_indep _ 0 (a + (m - 1) - 0)) by (rewrite map_length, seq_length; lia).
    rewrite (map_nth (fun i => a + (m - 1) - i)), seq_nth by lia. lia.
Qed.

Lemma combine_map : forall (A B C : Type) (f : A -> B) (g : A -> C) l,
  combine (map f l) (map g l) = map (fun x => (f x, g x)) l.
Proof. induction l; cbn; [reflexivity|]. f_equal. assumption. Qed.

Lemma carriers_closed : forall n e, 2 <= n ->
  carriers_spec n e =
    map (fun i => (served e i, (1, n + 2 - i))) (seq 2 (n - 2)) ++ [(e, (1, 2))].
Proof.
  intros n e Hn. unfold carriers_spec. f_equal.
  rewrite rev_seq_map.
  replace (seq 2 (n - 2)) with (map (fun i => i + 2) (seq 0 (n - 2))).
  - rewrite !map_map.
    rewrite (combine_map _ _ _ (fun x => served e (x + 2)) (fun x => (1, 3 + (n - 2 - 1) - x))).
    apply map_ext_in. intros x Hx. apply in_seq in Hx. do 2 f_equal. lia.
  - generalize (n - 2). intros m.
    assert (H : forall s, map (fun i => i + 2) (seq s m) = seq (s + 2) m).
    { induction m; intros s; [reflexivity|]. cbn [seq map]. rewrite IHm. reflexivity. }
    apply H.
Qed.

Lemma in_carriers : forall n e r q, 2 <= n -> 2 <= e <= n ->
  (In (r, (1, q)) (carriers_spec n e) <->
   (r = e /\ q = 2) \/ (2 <= r < e /\ q = n + 2 - r) \/ (e < r <= n /\ q = n + 3 - r)).
Proof.
  intros n e r q Hn He. rewrite carriers_closed by exact Hn.
  rewrite in_app_iff, in_map_iff. split.
  - intros [(i & Hi & Hin)|[Hi|[]]].
    + apply in_seq in Hin. inversion Hi as [[Hr Hq]]. unfold served in *.
      destruct (e <=? i) eqn:E; [apply Nat.leb_le in E|apply Nat.leb_gt in E]; lia.
    + inversion Hi; subst. left; auto.
  - intros [[-> ->]|[[Hr ->]|[Hr ->]]].
    + right. left. reflexivity.
    + left. exists r. split; [|apply in_seq; lia]. unfold served.
      destruct (e <=? r) eqn:E; [apply Nat.leb_le in E; lia|reflexivity].
    + left. exists (r - 1). split; [|apply in_seq; lia]. unfold served.
      destruct (e <=? r - 1) eqn:E; [|apply Nat.leb_gt in E; lia].
      f_equal; [lia|]. f_equal. lia.
Qed.

Lemma in_carriers_one : forall n e r v, 2 <= n -> In (r, v) (carriers_spec n e) -> fst v = 1.
Proof.
  intros n e r v Hn Hin. rewrite carriers_closed in Hin by exact Hn.
  apply in_app_iff in Hin. rewrite in_map_iff in Hin.
  destruct Hin as [(i & Hi & _)|[Hi|[]]]; inversion Hi; reflexivity.
Qed.

Definition peer_after (n e r : nat) : nat :=
  if r =? e then 2 else if r <? e then n + 2 - r else n + 3 - r.

Lemma broadcaster_peer_spec : forall n e r, 2 <= n -> 2 <= e <= n -> 2 <= r <= n ->
  broadcaster_peer (carriers_spec n e) r = Some (peer_after n e r).
Proof.
  intros n e r Hn He Hr. unfold broadcaster_peer.
  destruct (find (fun c => fst c =? r) (carriers_spec n e)) as [[r' [a q]]|] eqn:E.
  - apply find_some in E. destruct E as [Hin Heq]. cbn in Heq. apply Nat.eqb_eq in Heq. subst r'.
    pose proof (in_carriers_one n e r _ Hn Hin) as Ha. cbn in Ha. subst a.
    apply in_carriers in Hin; try assumption. f_equal. unfold peer_after.
    destruct (r =? e) eqn:E1; [apply Nat.eqb_eq in E1|apply Nat.eqb_neq in E1]; [lia|].
    destruct (r <? e) eqn:E2; [apply Nat.ltb_lt in E2|apply Nat.ltb_ge in E2]; lia.
  - exfalso. pose proof (find_none _ _ E (r, (1, peer_after n e r))) as H. cbn in H.
    rewrite Nat.eqb_refl in H. enough (true = false) by discriminate. apply H.
    apply in_carriers; try assumption. unfold peer_after.
    destruct (r =? e) eqn:E1; [apply Nat.eqb_eq in E1|apply Nat.eqb_neq in E1]; [lia|].
    destruct (r <? e) eqn:E2; [apply Nat.ltb_lt in E2|apply Nat.ltb_ge in E2]; lia.
Qed.

Lemma peer_after_range : forall n e r, 2 <= e <= n -> 2 <= r <= n -> 2 <= peer_after n e r <= n.
Proof.
  intros n e r He Hr. unfold peer_after.
  destruct (r =? e) eqn:E1; [apply Nat.eqb_eq in E1|apply Nat.eqb_neq in E1]; [lia|].
  destruct (r <? e) eqn:E2; [apply Nat.ltb_lt in E2|apply Nat.ltb_ge in E2]; lia.
Qed.

Lemma peer_after_inj : forall n e r r', 2 <= e <= n -> 2 <= r <= n -> 2 <= r' <= n ->
  peer_after n e r = peer_after n e r' -> r = r'.
Proof.
  intros n e r r' He Hr Hr'. unfold peer_after.
  destruct (r =? e) eqn:E1; [apply Nat.eqb_eq in E1|apply Nat.eqb_neq in E1];
  (destruct (r' =? e) eqn:E3; [apply Nat.eqb_eq in E3|apply Nat.eqb_neq in E3]);
  (destruct (r <? e) eqn:E2; [apply Nat.ltb_lt in E2|apply Nat.ltb_ge in E2]);
  (destruct (r' <? e) eqn:E4; [apply Nat.ltb_lt in E4|apply Nat.ltb_ge in E4]); lia.
Qed.

Lemma peer_after_surj : forall n e q, 2 <= n -> 2 <= e <= n -> 2 <= q <= n ->
  exists r, 2 <= r <= n /\ peer_after n e r = q.
Proof.
  intros n e q Hn He Hq.
  destruct (Nat.eq_dec q 2) as [->|Hq2].
  - exists e. split; [exact He|]. unfold peer_after. rewrite Nat.eqb_refl. reflexivity.
  - destruct (lt_dec (n + 2 - q) e) as [Hlt|Hge].
    + exists (n + 2 - q). split; [lia|]. unfold peer_after.
      replace (n + 2 - q =? e) with false by (symmetry; apply Nat.eqb_neq; lia).
      replace (n + 2 - q <? e) with true by (symmetry; apply Nat.ltb_lt; lia). lia.
    + exists (n + 3 - q). split; [lia|]. unfold peer_after.
      replace (n + 3 - q =? e) with false by (symmetry; apply Nat.eqb_neq; lia).
      replace (n + 3 - q <? e) with false by (symmetry; apply Nat.ltb_ge; lia). lia.
Qed.

(** ** Interleaved fork *)

Lemma lookup_app : forall g1 g2 x,
  lookup (g1 ++ g2) x = match lookup g1 x with Some e => Some e | None => lookup g2 x end.
Proof.
  induction g1 as [|[y e] g1 IH]; intros g2 x; cbn; [reflexivity|].
  destruct (var_eqb x y); [reflexivity|apply IH].
Qed.

Lemma let_new_app_ks : forall f ks1 ks2 g g1,
  let_new f ks1 g = Some g1 -> let_new f (ks1 ++ ks2) g = let_new f ks2 g1.
Proof.
  induction ks1 as [|k ks1 IH]; intros ks2 g g1 H; cbn in *; [congruence|].
  destruct (f k) as [[x y]|]; [|discriminate]. apply IH. exact H.
Qed.

Lemma let_new_ext : forall f f' ks g,
  (forall k, In k ks -> f k = f' k) -> let_new f ks g = let_new f' ks g.
Proof.
  induction ks as [|k ks IH]; intros g H; cbn; [reflexivity|].
  rewrite <- (H k) by (left; reflexivity). destruct (f k) as [[x y]|]; [|reflexivity].
  apply IH. intros; apply H; right; assumption.
Qed.

Lemma il_env_spec : forall n1 n2, exists g, il_env n1 n2 = Some g /\
  (forall i p, 1 <= i <= n1 -> 1 <= p <= n1 -> i <> p ->
     lookup g (i, p) = Some (end_of b_fork n1 i p)) /\
  (forall i p, 1 <= i <= n2 -> 1 <= p <= n2 -> i <> p ->
     lookup g (n1 + i, n1 + p) =
       Some (npairs n1 + idx n2 (min i p) (max i p), i <? p)).
Proof.
  intros n1 n2. unfold il_env. rewrite !npairs_tri. rewrite seq_app.
  destruct (env_spec n1 (fun _ _ => false) (il_vars n1 n2)) as (g1 & Hg1 & Hl1).
  { intros l c H1 H2 H3. unfold il_vars. pose proof (idx_range n1 l c H1 H2 H3).
    rewrite npairs_tri.
    replace (idx n1 l c <=? tri n1) with true by (symmetry; apply Nat.leb_le; lia).
    destruct (get_tuple_diag_spec n1 l c H1 H2 H3) as [-> _]. reflexivity. }
  rewrite (let_new_app_ks _ _ _ _ _ Hg1).
  set (ks2 := seq (1 + tri n1) (tri n2)).
  assert (Hall : forall k, In k ks2 -> exists l c, 1 <= l /\ l < c /\ c <= n2 /\
            k = tri n1 + idx n2 l c /\
            il_vars n1 n2 k = Some ((n1 + l, n1 + c), (n1 + c, n1 + l))).
  { intros k Hk. apply in_seq in Hk.
    destruct (idx_surj n2 (k - tri n1)) as (l & c & H1 & H2 & H3 & H4); [lia|].
    exists l, c. repeat split; try lia. unfold il_vars. rewrite npairs_tri.
    replace (k <=? tri n1) with false by (symmetry; apply Nat.leb_gt; lia).
    rewrite <- H4. destruct (get_tuple_diag_spec n2 l c H1 H2 H3) as [-> _]. reflexivity. }
  destruct (let_new_some (il_vars n1 n2) ks2 g1) as [g Hg].
  { intros k Hk. destruct (Hall k Hk) as (l & c & _ & _ & _ & _ & ->). eexists; reflexivity. }
  exists g. split; [exact Hg|]. split.
  - intros i p Hi Hp Hne. eapply let_new_keep; [exact Hg| |].
    + intros k y z Hk Hf. destruct (Hall k Hk) as (l & c & H1 & H2 & H3 & H4 & H5).
      rewrite H5 in Hf. inversion Hf; subst. split; intros E; inversion E; lia.
    + rewrite Hl1 by assumption. unfold end_of, b_fork. destruct (i <? p); reflexivity.
  - assert (Hpair : forall l c, 1 <= l -> l < c -> c <= n2 ->
      lookup g (n1 + l, n1 + c) = Some (tri n1 + idx n2 l c, true) /\
      lookup g (n1 + c, n1 + l) = Some (tri n1 + idx n2 l c, false)).
    { intros l c H1 H2 H3. pose proof (idx_range n2 l c H1 H2 H3) as Hr.
      assert (Hin : In (tri n1 + idx n2 l c) ks2) by (apply in_seq; lia).
      apply (let_new_lookup (il_vars n1 n2) ks2 g1 g (tri n1 + idx n2 l c)); auto.
      - apply seq_NoDup.
      - destruct (Hall _ Hin) as (l' & c' & H1' & H2' & H3' & H4' & ->).
        assert (Hidx : idx n2 l c = idx n2 l' c') by lia.
        apply idx_inj in Hidx; try assumption. destruct Hidx as [-> ->]. reflexivity.
      - intros E; inversion E; lia.
      - intros k' x' y' Hk' Hne Hf'.
        destruct (Hall _ Hk') as (l' & c' & H1' & H2' & H3' & -> & Hv).
        rewrite Hv in Hf'. inversion Hf'; subst.
        assert (~ (l = l' /\ c = c')) by (intros [-> ->]; congruence).
        repeat split; intros E; inversion E; lia. }
    intros i p Hi Hp Hne. destruct (i <? p) eqn:E.
    + apply Nat.ltb_lt in E. rewrite Nat.min_l, Nat.max_r by lia. apply Hpair; lia.
    + apply Nat.ltb_ge in E. rewrite Nat.min_r, Nat.max_l by lia. apply (Hpair p i); lia.
Qed.

Lemma il_mesh_one_spec : forall n1 n2 i, 1 <= i <= n1 ->
  il_mesh n1 n2 (il_mesh_one i) = il_decl_one n1 i.
Proof.
  intros n1 n2 i Hi. unfold il_mesh, il_mesh_one, il_decl_one.
  rewrite fork_decl_spec by exact Hi.
  destruct (il_env_spec n1 n2) as (g & -> & Hl & _).
  replace (i <=? n1) with true by (symmetry; apply Nat.leb_le; lia).
  unfold mesh_of. apply all_some_map. intros j Hj. apply in_seq in Hj.
  rewrite get_tuple_matrix_spec by lia.
  pose proof (cell_var n1 i j) as Hc. destruct (cell n1 i j) as [[line column] m].
  cbv beta iota in Hc |- *. etransitivity; [apply f_equal; exact Hc|].
  apply Hl; [lia|apply peer_range; lia|intros E; symmetry in E; revert E; apply peer_neq].
Qed.

Definition mesh_two (n1 n2 i : nat) : list endp :=
  map (fun j => (npairs n1 + idx n2 (min i (peer i j)) (max i (peer i j)), i <? peer i j))
      (seq 1 (n2 - 1)).

Lemma il_mesh_two_eq : forall n1 n2 i, 1 <= i <= n2 ->
  il_mesh n1 n2 (il_mesh_two n1 i) = Some (mesh_two n1 n2 i).
Proof.
  intros n1 n2 i Hi. unfold il_mesh, il_mesh_two, mesh_two.
  destruct (il_env_spec n1 n2) as (g & -> & _ & Hl).
  replace (n1 + i <=? n1) with false by (symmetry; apply Nat.leb_gt; lia).
  replace (n1 + i - n1) with i by lia.
  apply all_some_map. intros j Hj. apply in_seq in Hj.
  rewrite get_tuple_matrix_spec by lia.
  pose proof (cell_var n2 i j) as Hc. destruct (cell n2 i j) as [[line column] m].
  cbv beta iota in Hc |- *.
  assert (Hv : (if line =? i then (n1 + line, n1 + column) else (n1 + column, n1 + line))
               = (n1 + i, n1 + peer i j)).
  { destruct (line =? i); inversion Hc; reflexivity. }
  etransitivity; [apply f_equal; exact Hv|].
  apply Hl; [lia|apply peer_range; lia|intros E; symmetry in E; revert E; apply peer_neq].
Qed.

Lemma il_decl_two_eq : forall n1 n2 i, 1 <= i <= n2 ->
  il_decl_two n1 n2 i = Some (mesh_two n1 n2 i).
Proof.
  intros n1 n2 i Hi. unfold il_decl_two, mesh_two. apply all_some_map.
  intros j Hj. apply in_seq in Hj.
  rewrite get_tuple_matrix_w_offset_spec by lia. unfold cell.
  rewrite min_eqb by apply peer_neq. reflexivity.
Qed.

Lemma filter_unique : forall (f : nat -> bool) a m r,
  In r (seq a m) -> f r = true -> (forall x, In x (seq a m) -> f x = true -> x = r) ->
  filter f (seq a m) = [r].
Proof.
  intros f a m r Hin Hf Hu. apply in_seq in Hin.
  replace m with ((r - a) + S (m - (r - a) - 1)) by lia.
  rewrite seq_app. cbn [seq]. replace (a + (r - a)) with r by lia.
  rewrite filter_app. cbn [filter]. rewrite Hf.
  rewrite !filter_none; [reflexivity| |].
  - intros x Hx. apply in_seq in Hx. destruct (f x) eqn:E; [|reflexivity].
    assert (x = r) by (apply Hu; [apply in_seq; lia|exact E]). lia.
  - intros x Hx. apply in_seq in Hx. destruct (f x) eqn:E; [|reflexivity].
    assert (x = r) by (apply Hu; [apply in_seq; lia|exact E]). lia.
Qed.

Lemma il_decl_fun_low : forall n1 n2 idx1 idx2 f,
  1 <= idx1 <= n1 -> 1 <= idx2 <= n2 -> 1 <= f < n1 ->
  il_decl_fun n1 n2 idx1 idx2 f = [il_decl_one n1 (il_thread n1 idx1 idx2 f)].
Proof.
  intros n1 n2 idx1 idx2 f H1 H2 Hf. unfold il_decl_fun.
  assert (Ht : il_thread n1 idx1 idx2 f = if f <? idx1 then f else f + 1).
  { unfold il_thread. destruct (f <? idx1) eqn:E; [reflexivity|]. apply Nat.ltb_ge in E.
    replace (idx1 <=? f) with true by (symmetry; apply Nat.leb_le; lia).
    replace (f <? n1 - 1 + idx2) with true by (symmetry; apply Nat.ltb_lt; lia). reflexivity. }
  rewrite (filter_unique _ 1 n1 (il_thread n1 idx1 idx2 f)).
  - rewrite filter_none; [reflexivity|]. intros x Hx. apply in_seq in Hx.
    apply andb_false_iff. right. apply Nat.eqb_neq. unfold il_fun_two.
    destruct (x <? idx2); lia.
  - rewrite Ht. apply in_seq. destruct (f <? idx1) eqn:E;
      [apply Nat.ltb_lt in E|apply Nat.ltb_ge in E]; lia.
  - rewrite Ht. apply andb_true_iff. unfold il_fun_one. destruct (f <? idx1) eqn:E;
      [apply Nat.ltb_lt in E|apply Nat.ltb_ge in E].
    + split; [apply negb_true_iff, Nat.eqb_neq; lia|].
      replace (f <? idx1) with true by (symmetry; apply Nat.ltb_lt; lia). apply Nat.eqb_refl.
    + split; [apply negb_true_iff, Nat.eqb_neq; lia|].
      replace (f + 1 <? idx1) with false by (symmetry; apply Nat.ltb_ge; lia).
      apply Nat.eqb_eq. lia.
  - intros x Hx Hb. apply andb_true_iff in Hb. destruct Hb as [Hb1 Hb2].
    apply negb_true_iff, Nat.eqb_neq in Hb1. apply Nat.eqb_eq in Hb2.
    rewrite Ht. unfold il_fun_one in Hb2.
    destruct (x <? idx1) eqn:E; [apply Nat.ltb_lt in E|apply Nat.ltb_ge in E];
    (destruct (f <? idx1) eqn:E'; [apply Nat.ltb_lt in E'|apply Nat.ltb_ge in E']); lia.
Qed.

Lemma il_decl_fun_high : forall n1 n2 idx1 idx2 f,
  1 <= idx1 <= n1 -> 1 <= idx2 <= n2 -> n1 <= f <= n1 + n2 - 2 ->
  exists i, 1 <= i <= n2 /\ il_thread n1 idx1 idx2 f = n1 + i /\
            il_decl_fun n1 n2 idx1 idx2 f = [il_decl_two n1 n2 i].
Proof.
  intros n1 n2 idx1 idx2 f H1 H2 Hf.
  assert (Ht : il_thread n1 idx1 idx2 f = if f <? n1 - 1 + idx2 then f + 1 else f + 2).
  { unfold il_thread. replace (f <? idx1) with false by (symmetry; apply Nat.ltb_ge; lia).
    replace (idx1 <=? f) with true by (symmetry; apply Nat.leb_le; lia). reflexivity. }
  exists (il_thread n1 idx1 idx2 f - n1).
  assert (Hr : n1 < il_thread n1 idx1 idx2 f <= n1 + n2 /\ il_thread n1 idx1 idx2 f <> n1 + idx2).
  { rewrite Ht. destruct (f <? n1 - 1 + idx2) eqn:E;
      [apply Nat.ltb_lt in E|apply Nat.ltb_ge in E]; lia. }
  split; [lia|]. split; [lia|]. unfold il_decl_fun.
  rewrite filter_none.
  2:{ intros x Hx. apply in_seq in Hx. apply andb_false_iff.
      unfold il_fun_one. destruct (x =? idx1) eqn:Ex; [left; reflexivity|right].
      apply Nat.eqb_neq in Ex. apply Nat.eqb_neq.
      destruct (x <? idx1) eqn:E; [apply Nat.ltb_lt in E|apply Nat.ltb_ge in E]; lia. }
  rewrite (filter_unique _ 1 n2 (il_thread n1 idx1 idx2 f - n1)); [reflexivity| | |].
  - apply in_seq. lia.
  - apply andb_true_iff. split; [apply negb_true_iff, Nat.eqb_neq; lia|].
    apply Nat.eqb_eq. unfold il_fun_two. rewrite Ht in *.
    destruct (f <? n1 - 1 + idx2) eqn:E; [apply Nat.ltb_lt in E|apply Nat.ltb_ge in E].
    + replace (f + 1 - n1 <? idx2) with true by (symmetry; apply Nat.ltb_lt; lia). lia.
    + replace (f + 2 - n1 <? idx2) with false by (symmetry; apply Nat.ltb_ge; lia). lia.
  - intros x Hx Hb. apply in_seq in Hx. apply andb_true_iff in Hb. destruct Hb as [Hb1 Hb2].
    apply negb_true_iff, Nat.eqb_neq in Hb1. apply Nat.eqb_eq in Hb2.
    rewrite Ht in *. unfold il_fun_two in Hb2.
    destruct (x <? idx2) eqn:E; [apply Nat.ltb_lt in E|apply Nat.ltb_ge in E];
    (destruct (f <? n1 - 1 + idx2) eqn:E'; [apply Nat.ltb_lt in E'|apply Nat.ltb_ge in E']); lia.
Qed.
