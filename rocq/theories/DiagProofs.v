(** Closed form of the walk in Diag.v. *)
From Coq Require Import List Arith Bool Lia.
From Verif Require Import Diag.
Import ListNotations.

(** Number of pairs before row [l+1] (rows numbered from 1). *)
Fixpoint off (n l : nat) : nat :=
  match l with
  | 0 => 0
  | S l' => off n l' + (n - S l')
  end.

(** Number of the pair (l, c), 1 <= l < c <= n. *)
Definition idx (n l c : nat) : nat := off n (l - 1) + (c - l).

Definition row (n l : nat) : list triple :=
  map (fun c => (l, c, idx n l c)) (seq (S l) (n - l)).

Definition rows_from (n l k : nat) : list triple := flat_map (row n) (seq l k).

Definition tri (n : nat) : nat := (n - 1) * ((n - 1) + 1) / 2.

Lemma tri_off : forall n, tri n = off n (n - 1).
Proof.
  intros n.
  assert (H : forall l, l <= n - 1 -> 2 * off n l = l * (2 * n - l - 1)).
  { induction l; intros Hl; [reflexivity|].
    simpl off. rewrite Nat.mul_add_distr_l, IHl by lia. nia. }
  unfold tri.
  destruct n as [|n]; [reflexivity|].
  replace (S n - 1) with n in * by lia.
  specialize (H n (le_n _)).
  symmetry. apply Nat.div_unique_exact; [lia|].
  rewrite H. replace (2 * S n - n - 1) with (n + 1) by lia. lia.
Qed.

Lemma off_mono : forall n a b, a <= b -> off n a <= off n b.
Proof. induction 1; simpl; lia. Qed.

Lemma loop_row : forall n m i line column f,
  line <= column -> column + m = n - 1 ->
  diag_loop n (m + f) i line column =
    map (fun t => (line + 1, column + 1 + t + 1, i + t + 1)) (seq 0 m)
    ++ diag_loop n f (i + m) (line) (n - 1).
Proof.
  induction m; intros i line column f Hle Hm.
  - replace (n - 1) with column by lia. rewrite Nat.add_0_r. reflexivity.
  - assert (Hs : diag_step n line column = (line, column + 1)).
    { unfold diag_step. destruct (line =? column); [reflexivity|].
      destruct (n - 1 <=? column) eqn:E; [apply Nat.leb_le in E; lia|reflexivity]. }
    change (S m + f) with (S (m + f)). cbn [diag_loop]. rewrite Hs.
    rewrite IHm by lia. cbn [seq map app].
    f_equal; [f_equal; f_equal; lia|].
    rewrite <- seq_shift, map_map.
    replace (i + 1 + m) with (i + S m) by lia. f_equal.
    apply map_ext. intros t. f_equal; [f_equal; lia|lia].
Qed.

Lemma loop_next_row : forall n f i line,
  line < n - 1 ->
  diag_loop n f i line (n - 1) = diag_loop n f i (line + 1) (line + 1).
Proof.
  intros n f i line H. destruct f; [reflexivity|]. cbn [diag_loop].
  assert (diag_step n line (n - 1) = (line + 1, line + 1 + 1)) as ->.
  { unfold diag_step. destruct (line =? n - 1) eqn:E; [apply Nat.eqb_eq in E; lia|].
    rewrite Nat.leb_refl. reflexivity. }
  assert (diag_step n (line + 1) (line + 1) = (line + 1, line + 1 + 1)) as ->.
  { unfold diag_step. rewrite Nat.eqb_refl. reflexivity. }
  reflexivity.
Qed.

Lemma row_shift : forall n line,
  row n (S line) =
  map (fun t => (line + 1, line + 1 + t + 1, off n line + t + 1)) (seq 0 (n - S line)).
Proof.
  intros n line. unfold row.
  replace (seq (S (S line)) (n - S line))
    with (map (fun t => line + 1 + t + 1) (seq 0 (n - S line))).
  - rewrite map_map. apply map_ext_in. intros t _. unfold idx.
    replace (S line - 1) with line by lia. f_equal; [f_equal; lia|lia].
  - generalize (n - S line). intros m.
    assert (H : forall s, map (fun t => line + 1 + t + 1) (seq s m) = seq (S (S line) + s) m).
    { induction m; intros s; [reflexivity|]. cbn [seq map]. f_equal; [lia|].
      rewrite IHm. f_equal. lia. }
    rewrite H, Nat.add_0_r. reflexivity.
Qed.

Lemma loop_rows : forall n k line f,
  line + k = n - 1 ->
  diag_loop n (off n (line + k) - off n line + f) (off n line) line line =
    rows_from n (S line) k ++
    match k with
    | 0 => diag_loop n f (off n (n - 1)) line line
    | _ => diag_loop n f (off n (n - 1)) (n - 1) (n - 1)
    end.
Proof.
  intros n k. induction k; intros line f Hk.
  - rewrite Nat.add_0_r, Nat.sub_diag. cbn. rewrite <- Hk, Nat.add_0_r. reflexivity.
  - assert (Hsplit : off n (line + S k) - off n line + f
              = (n - 1 - line) + (off n (S line + k) - off n (S line) + f)).
    { replace (line + S k) with (S line + k) by lia.
      pose proof (off_mono n (S line) (S line + k)). cbn [off] in *. lia. }
    rewrite Hsplit, loop_row by lia.
    rewrite loop_next_row by lia.
    replace (line + 1) with (S line) by lia.
    replace (off n line + (n - 1 - line)) with (off n (S line)) by (cbn [off]; lia).
    rewrite (IHk (S line)) by lia.
    unfold rows_from. cbn [seq flat_map]. rewrite <- app_assoc, row_shift.
    replace (n - S line) with (n - 1 - line) by lia.
    replace (line + 1) with (S line) by lia. f_equal. f_equal.
    destruct k; [|reflexivity]. replace (S line) with (n - 1) by lia. reflexivity.
Qed.

Lemma diag_rows : forall n, diag n = rows_from n 1 (n - 1).
Proof.
  intros n. unfold diag. fold (tri n). rewrite tri_off.
  pose proof (loop_rows n (n - 1) 0 0 eq_refl) as H.
  rewrite Nat.add_0_l in H. cbn [off] in H. rewrite Nat.add_0_r, Nat.sub_0_r in H.
  etransitivity; [exact H|].
  destruct (n - 1); cbn [diag_loop]; rewrite app_nil_r; reflexivity.
Qed.

Lemma diag_w_offset_rows : forall n, 2 <= n ->
  diag_w_offset n = rows_from n 1 (n - 1) ++ [(n, n + 1, off n (n - 1) + 1)].
Proof.
  intros n Hn. unfold diag_w_offset. fold (tri n). rewrite tri_off.
  pose proof (loop_rows n (n - 1) 0 1 eq_refl) as H.
  rewrite Nat.add_0_l in H. cbn [off] in H. rewrite Nat.sub_0_r in H.
  etransitivity; [exact H|].
  destruct (n - 1) eqn:E; [lia|]. f_equal. cbn [diag_loop]. unfold diag_step.
  rewrite Nat.eqb_refl. do 2 f_equal. f_equal; lia.
Qed.

(** ** Rows of the matrix *)

(** Peer reached by field [j] of role [i]: the other roles in increasing order. *)
Definition peer (i j : nat) : nat := if j <? i then j else S j.

Lemma peer_neq : forall i j, peer i j <> i.
Proof. intros i j. unfold peer. destruct (j <? i) eqn:E;
  [apply Nat.ltb_lt in E|apply Nat.ltb_ge in E]; lia. Qed.

Lemma peer_range : forall n i j, 1 <= i <= n -> 1 <= j < n -> 1 <= peer i j <= n.
Proof. intros n i j ? ?. unfold peer. destruct (j <? i) eqn:E;
  [apply Nat.ltb_lt in E|apply Nat.ltb_ge in E]; lia. Qed.

Definition cell (n i j : nat) : triple :=
  let p := peer i j in (min i p, max i p, idx n (min i p) (max i p)).

Lemma filter_none : forall (A : Type) (f : A -> bool) l,
  (forall x, In x l -> f x = false) -> filter f l = [].
Proof.
  induction l as [|a l IH]; intros H; [reflexivity|]. cbn. rewrite (H a) by (left; reflexivity).
  apply IH. intros; apply H; right; assumption.
Qed.

Lemma filter_all : forall (A : Type) (f : A -> bool) l,
  (forall x, In x l -> f x = true) -> filter f l = l.
Proof.
  induction l as [|a l IH]; intros H; [reflexivity|]. cbn. rewrite (H a) by (left; reflexivity).
  f_equal. apply IH. intros; apply H; right; assumption.
Qed.

Lemma filter_row_lt : forall n l i, l < i <= n ->
  filter (touches i) (row n l) = [(l, i, idx n l i)].
Proof.
  intros n l i [H1 H2]. unfold row.
  assert (Hs : seq (S l) (n - l) = seq (S l) (i - S l) ++ i :: seq (S i) (n - i)).
  { replace (n - l) with ((i - S l) + S (n - i)) by lia. rewrite seq_app. f_equal.
    replace (S l + (i - S l)) with i by lia. reflexivity. }
  rewrite Hs, map_app, filter_app. cbn [map filter touches].
  replace (i =? l) with false by (symmetry; apply Nat.eqb_neq; lia).
  rewrite Nat.eqb_refl. cbn [orb].
  rewrite filter_none, filter_none; [reflexivity| |].
  - intros [[a b] c] Hin. apply in_map_iff in Hin. destruct Hin as (x & Hx & Hin).
    inversion Hx; subst. apply in_seq in Hin. cbn.
    apply orb_false_iff; split; apply Nat.eqb_neq; lia.
  - intros [[a b] c] Hin. apply in_map_iff in Hin. destruct Hin as (x & Hx & Hin).
    inversion Hx; subst. apply in_seq in Hin. cbn.
    apply orb_false_iff; split; apply Nat.eqb_neq; lia.
Qed.

Lemma filter_row_eq : forall n i, filter (touches i) (row n i) = row n i.
Proof.
  intros n i. apply filter_all. intros [[a b] c] Hin.
  apply in_map_iff in Hin. destruct Hin as (x & Hx & _). inversion Hx; subst.
  cbn. rewrite Nat.eqb_refl. reflexivity.
Qed.

Lemma filter_row_gt : forall n l i, i < l -> filter (touches i) (row n l) = [].
Proof.
  intros n l i H. apply filter_none. intros [[a b] c] Hin.
  apply in_map_iff in Hin. destruct Hin as (x & Hx & Hin). inversion Hx; subst.
  apply in_seq in Hin. cbn. apply orb_false_iff; split; apply Nat.eqb_neq; lia.
Qed.

Lemma filter_rows_low : forall n i k l, l + k <= i -> i <= n ->
  filter (touches i) (rows_from n l k) = map (fun p => (p, i, idx n p i)) (seq l k).
Proof.
  induction k; intros l H1 H2; [reflexivity|].
  unfold rows_from in *. cbn [seq flat_map map]. rewrite filter_app, filter_row_lt by lia.
  rewrite IHk by lia. reflexivity.
Qed.

Lemma filter_rows_high : forall n i k l, i < l ->
  filter (touches i) (rows_from n l k) = [].
Proof.
  induction k; intros l H; [reflexivity|].
  unfold rows_from in *. cbn [seq flat_map]. rewrite filter_app, filter_row_gt, IHk by lia.
  reflexivity.
Qed.

Lemma filter_rows : forall n i, 1 <= i <= n ->
  filter (touches i) (rows_from n 1 (n - 1)) = map (cell n i) (seq 1 (n - 1)).
Proof.
  intros n i Hi.
  assert (Hhigh : map (cell n i) (seq i (n - i)) = row n i).
  { unfold row. rewrite <- seq_shift, map_map. apply map_ext_in. intros j Hj.
    apply in_seq in Hj. unfold cell, peer.
    replace (j <? i) with false by (symmetry; apply Nat.ltb_ge; lia).
    rewrite Nat.min_l, Nat.max_r by lia. reflexivity. }
  assert (Hlow : map (cell n i) (seq 1 (i - 1)) = map (fun p => (p, i, idx n p i)) (seq 1 (i - 1))).
  { apply map_ext_in. intros j Hj. apply in_seq in Hj. unfold cell, peer.
    replace (j <? i) with true by (symmetry; apply Nat.ltb_lt; lia).
    rewrite Nat.min_r, Nat.max_l by lia. reflexivity. }
  destruct (Nat.eq_dec i n) as [->|Hne].
  - rewrite filter_rows_low by lia. rewrite Hlow. reflexivity.
  - replace (n - 1) with ((i - 1) + S (n - i - 1)) by lia.
    unfold rows_from. rewrite seq_app, flat_map_app, filter_app.
    fold (rows_from n 1 (i - 1)). rewrite filter_rows_low by lia.
    replace (1 + (i - 1)) with i by lia. cbn [seq flat_map]. rewrite filter_app.
    fold (rows_from n (S i) (n - i - 1)). rewrite filter_rows_high, app_nil_r by lia.
    rewrite filter_row_eq, map_app. f_equal; [symmetry; exact Hlow|].
    rewrite <- Hhigh. replace (n - i) with (S (n - i - 1)) at 1 by lia. reflexivity.
Qed.

Lemma nth_error_seq : forall m s k, k < m -> nth_error (seq s m) k = Some (s + k).
Proof.
  induction m; intros s k H; [lia|]. destruct k; cbn; [f_equal; lia|].
  rewrite IHm by lia. f_equal; lia.
Qed.

Lemma get_tuple_matrix_spec : forall n i j, 1 <= i <= n -> 1 <= j < n ->
  get_tuple_matrix (matrix n) i j = Some (cell n i j).
Proof.
  intros n i j Hi Hj. destruct i as [|i]; [lia|]. destruct j as [|j]; [lia|].
  cbn [get_tuple_matrix]. unfold matrix, matrix_of.
  rewrite nth_error_map, nth_error_seq by lia. cbn [option_map].
  rewrite diag_rows, filter_rows by lia.
  rewrite nth_error_map, nth_error_seq by lia. reflexivity.
Qed.

Lemma get_tuple_matrix_w_offset_spec : forall n i j, 1 <= i <= n -> 1 <= j < n ->
  get_tuple_matrix (matrix_w_offset n) i j = Some (cell n i j).
Proof.
  intros n i j Hi Hj. destruct i as [|i]; [lia|]. destruct j as [|j]; [lia|].
  cbn [get_tuple_matrix]. unfold matrix_w_offset, matrix_of.
  rewrite nth_error_map, nth_error_seq by lia. cbn [option_map].
  rewrite diag_w_offset_rows, filter_app by lia. rewrite filter_rows by lia.
  rewrite nth_error_app1 by (rewrite map_length, seq_length; lia).
  rewrite nth_error_map, nth_error_seq by lia. reflexivity.
Qed.

(** ** The entries of [diag] *)

Lemma idx_bounds : forall n l c, 1 <= l -> l < c -> c <= n ->
  off n (l - 1) < idx n l c <= off n l.
Proof.
  intros n l c ? ? ?. unfold idx. destruct l as [|l]; [lia|].
  replace (S l - 1) with l by lia. cbn [off]. lia.
Qed.

Lemma idx_inj : forall n l c l' c',
  1 <= l -> l < c -> c <= n -> 1 <= l' -> l' < c' -> c' <= n ->
  idx n l c = idx n l' c' -> l = l' /\ c = c'.
Proof.
  intros n l c l' c' H1 H2 H3 H1' H2' H3' He.
  pose proof (idx_bounds n l c H1 H2 H3). pose proof (idx_bounds n l' c' H1' H2' H3').
  destruct (lt_eq_lt_dec l l') as [[Hlt| ->]|Hlt].
  - pose proof (off_mono n l (l' - 1)). lia.
  - split; [reflexivity|]. unfold idx in He. lia.
  - pose proof (off_mono n l' (l - 1)). lia.
Qed.

Lemma idx_range : forall n l c, 1 <= l -> l < c -> c <= n -> 1 <= idx n l c <= tri n.
Proof.
  intros n l c H1 H2 H3. pose proof (idx_bounds n l c H1 H2 H3).
  rewrite tri_off. pose proof (off_mono n l (n - 1)). lia.
Qed.

Lemma off_find : forall n m k, k < off n m -> exists l, 1 <= l <= m /\ off n (l - 1) <= k < off n l.
Proof.
  induction m; intros k H; cbn [off] in H; [lia|].
  destruct (Nat.lt_ge_cases k (off n m)) as [Hlt|Hge].
  - destruct (IHm k Hlt) as (l & ? & ?). exists l. split; lia.
  - exists (S m). replace (S m - 1) with m by lia. cbn [off]. split; lia.
Qed.

Lemma idx_surj : forall n k, 1 <= k <= tri n -> exists l c, 1 <= l /\ l < c /\ c <= n /\ idx n l c = k.
Proof.
  intros n k Hk. rewrite tri_off in Hk.
  destruct (off_find n (n - 1) (k - 1)) as (l & Hl & Hoff); [lia|].
  exists l, (k - off n (l - 1) + l). unfold idx.
  destruct l as [|l]; [lia|]. replace (S l - 1) with l in * by lia. cbn [off] in Hoff. lia.
Qed.

Lemma row_length : forall n l, length (row n l) = n - l.
Proof. intros. unfold row. rewrite map_length, seq_length. reflexivity. Qed.

Lemma rows_length : forall n k l, length (rows_from n (S l) k) = off n (l + k) - off n l.
Proof.
  induction k; intros l; cbn.
  - rewrite Nat.add_0_r. lia.
  - unfold rows_from in *. cbn [seq flat_map]. rewrite app_length, row_length.
    rewrite IHk. replace (l + S k) with (S l + k) by lia.
    pose proof (off_mono n (S l) (S l + k)). cbn [off] in *. lia.
Qed.

Lemma rows_nth : forall n k line l c,
  line < l -> l <= line + k -> l < c -> c <= n ->
  nth_error (rows_from n (S line) k) (idx n l c - off n line - 1) = Some (l, c, idx n l c).
Proof.
  induction k; intros line l c H1 H2 H3 H4; [lia|].
  unfold rows_from. cbn [seq flat_map]. fold (rows_from n (S (S line)) k).
  pose proof (idx_bounds n l c ltac:(lia) H3 H4) as Hb.
  destruct (Nat.eq_dec l (S line)) as [->|Hne].
  - replace (S line - 1) with line in Hb by lia. cbn [off] in Hb.
    rewrite nth_error_app1 by (rewrite row_length; lia).
    unfold row. rewrite nth_error_map, nth_error_seq by lia. cbn [option_map].
    f_equal. unfold idx in *. replace (S line - 1) with line in * by lia.
    f_equal; [f_equal|]; lia.
  - pose proof (off_mono n (S line) (l - 1)) as Hm.
    rewrite nth_error_app2 by (rewrite row_length; cbn [off] in Hm; lia).
    rewrite row_length.
    replace (idx n l c - off n line - 1 - (n - S line)) with (idx n l c - off n (S line) - 1)
      by (cbn [off] in *; lia).
    apply IHk; lia.
Qed.

Lemma get_tuple_diag_spec : forall n l c, 1 <= l -> l < c -> c <= n ->
  get_tuple_diag (diag_w_offset n) (idx n l c) = Some (l, c, idx n l c)
  /\ get_tuple_diag (diag n) (idx n l c) = Some (l, c, idx n l c).
Proof.
  intros n l c H1 H2 H3.
  pose proof (idx_range n l c H1 H2 H3) as Hr.
  assert (Hn : nth_error (rows_from n 1 (n - 1)) (idx n l c - 1) = Some (l, c, idx n l c)).
  { pose proof (rows_nth n (n - 1) 0 l c) as H. cbn [off] in H. rewrite Nat.sub_0_r in H.
    apply H; lia. }
  assert (He : exists k, idx n l c = S k) by (exists (idx n l c - 1); lia).
  destruct He as [k Hk]. rewrite diag_w_offset_rows, diag_rows by lia.
  unfold get_tuple_diag. rewrite Hk in *. replace (S k - 1) with k in Hn by lia.
  split; [|exact Hn].
  rewrite nth_error_app1; [exact Hn|]. apply nth_error_Some. rewrite Hn. discriminate.
Qed.

Lemma diag_length : forall n, length (diag n) = tri n.
Proof.
  intros n. rewrite diag_rows, tri_off.
  pose proof (rows_length n (n - 1) 0) as H. cbn [off] in H. rewrite Nat.sub_0_r in H. exact H.
Qed.

Lemma glc_rows_spec : forall d l c k,
  (forall a b a' b' x, In (a, b, x) d -> In (a', b', x) d -> a = a' /\ b = b') ->
  In (l, c, k) d -> get_line_column_from_diag d k = Some (l, c).
Proof.
  induction d as [|[[a b] x] d IH]; intros l c k Hf Hin; [destruct Hin|].
  cbn. destruct (x =? k) eqn:E.
  - apply Nat.eqb_eq in E. subst x.
    destruct (Hf a b l c k) as [-> ->]; [left; reflexivity|exact Hin|reflexivity].
  - destruct Hin as [Hin|Hin].
    + inversion Hin; subst. rewrite Nat.eqb_refl in E. discriminate.
    + apply IH; [|exact Hin]. intros. eapply Hf; right; eassumption.
Qed.

Lemma in_diag : forall n l c k,
  In (l, c, k) (diag n) <-> 1 <= l /\ l < c /\ c <= n /\ k = idx n l c.
Proof.
  intros n l c k. rewrite diag_rows. unfold rows_from. rewrite in_flat_map. split.
  - intros (x & Hx & Hin). apply in_seq in Hx. apply in_map_iff in Hin.
    destruct Hin as (y & Hy & Hin). apply in_seq in Hin. inversion Hy; subst.
    repeat split; lia.
  - intros (H1 & H2 & H3 & ->). exists l. split; [apply in_seq; lia|].
    apply in_map_iff. exists c. split; [reflexivity|apply in_seq; lia].
Qed.

Lemma get_line_column_spec : forall n l c, 1 <= l -> l < c -> c <= n ->
  get_line_column_from_diag (diag n) (idx n l c) = Some (l, c).
Proof.
  intros n l c H1 H2 H3. apply glc_rows_spec.
  - intros a b a' b' x Ha Hb. apply in_diag in Ha, Hb.
    apply (idx_inj n); lia.
  - apply in_diag. repeat split; lia.
Qed.
