(** The protobuf messages of a global type: proofs. *)
From Coq Require Import List NArith ZArith Bool Lia.
From Verif Require Import Protobuf.
Import ListNotations.
Open Scope N_scope.

(** ** Varints *)
Lemma enc_dec_from : forall k v r, v < 128 ^ N.of_nat (S k) -> dec_from (S k) (enc_from k v ++ r) = Some (v, r).
Proof.
  induction k as [|k IH]; intros v r H.
  - cbn in *. replace (v <? 128) with true by (symmetry; apply N.ltb_lt; lia). reflexivity.
  - cbn [enc_from]. destruct (v <? 128) eqn:E.
    + cbn [app dec_from]. rewrite E. reflexivity.
    + apply N.ltb_ge in E. cbn [app]. remember (S k) as k1. cbn [dec_from].
      assert (Eb : (v mod 128 + 128 <? 128) = false) by (apply N.ltb_ge; apply N.le_add_l). rewrite Eb. subst k1.
      rewrite IH.
      * f_equal. f_equal. pose proof (N.div_mod v 128 ltac:(discriminate)) as Q. rewrite N.add_sub, N.add_comm. symmetry. exact Q.
      * apply N.div_lt_upper_bound; [lia|]. replace (N.of_nat (S (S k))) with (N.succ (N.of_nat (S k))) in H by lia.
        rewrite N.pow_succ_r in H by lia. exact H.
Qed.
Lemma enc_dec : forall v r, v < 2 ^ 64 -> dec (enc v ++ r) = Some (v, r).
Proof.
  intros v r H. unfold dec, enc. rewrite enc_dec_from.
  - rewrite N.mod_small by exact H. reflexivity.
  - eapply N.lt_trans; [exact H|]. reflexivity.
Qed.
Lemma enc_from_length : forall k v, N.of_nat (length (enc_from k v)) = size_from k v.
Proof.
  induction k as [|k IH]; intros v; cbn [enc_from size_from]; [reflexivity|]. destruct (v <? 128); [reflexivity|].
  cbn [length]. rewrite <- IH. lia.
Qed.
Lemma enc_length : forall v, N.of_nat (length (enc v)) = varint_size v.
Proof. intros v. apply enc_from_length. Qed.
Lemma enc_from_bytes : forall k v, v < 128 ^ N.of_nat (S k) -> Forall (fun b => b < 256) (enc_from k v).
Proof.
  induction k as [|k IH]; intros v H; cbn [enc_from].
  - cbn in H. constructor; [lia|constructor].
  - destruct (v <? 128) eqn:E; [apply N.ltb_lt in E; constructor; [lia|constructor]|]. constructor.
    + pose proof (N.mod_lt v 128 ltac:(lia)). lia.
    + apply IH. apply N.div_lt_upper_bound; [lia|]. replace (N.of_nat (S (S k))) with (N.succ (N.of_nat (S k))) in H by lia.
      rewrite N.pow_succ_r in H by lia. exact H.
Qed.
Lemma enc_bytes : forall v, v < 2 ^ 64 -> Forall (fun b => b < 256) (enc v).
Proof. intros v H. apply enc_from_bytes. eapply N.lt_trans; [exact H|]. reflexivity. Qed.

Lemma dec_from_short : forall k bs v r, dec_from k bs = Some (v, r) -> (length r < length bs)%nat.
Proof.
  induction k as [|k IH]; intros [|b bs] v r H; cbn in H; try discriminate.
  destruct (b <? 128); [injection H as _ <-; cbn; lia|].
  destruct (dec_from k bs) as [[v' r']|] eqn:E; [|discriminate]. injection H as _ <-. apply IH in E. cbn. lia.
Qed.
Lemma dec_short : forall bs v r, dec bs = Some (v, r) -> (length r < length bs)%nat.
Proof.
  intros bs v r H. unfold dec in H. destruct (dec_from 10 bs) as [[v' r']|] eqn:E; [|discriminate]. injection H as _ <-.
  eapply dec_from_short; eauto.
Qed.
Lemma dec_from_app : forall k bs v r c, dec_from k bs = Some (v, r) -> dec_from k (bs ++ c) = Some (v, r ++ c).
Proof.
  induction k as [|k IH]; intros [|b bs] v r c H; cbn in H; try discriminate. cbn.
  destruct (b <? 128); [injection H as <- <-; reflexivity|].
  destruct (dec_from k bs) as [[v' r']|] eqn:E; [|discriminate]. injection H as <- <-. rewrite (IH _ _ _ _ E). reflexivity.
Qed.
Lemma dec_app : forall bs v r c, dec bs = Some (v, r) -> dec (bs ++ c) = Some (v, r ++ c).
Proof.
  intros bs v r c H. unfold dec in *. destruct (dec_from 10 bs) as [[v' r']|] eqn:E; [|discriminate]. injection H as <- <-.
  rewrite (dec_from_app _ _ _ _ c E). reflexivity.
Qed.

(** ** Signed integers *)
(** Specification only: the values of a signed type of that many bits. *)
Definition ranged (bits z : Z) : Prop := (- 2 ^ (bits - 1) <= z < 2 ^ (bits - 1))%Z.
Lemma to_u64_lt : forall z, to_u64 z < 2 ^ 64.
Proof.
  intros z. unfold to_u64. pose proof (Z.mod_pos_bound z (2 ^ 64) ltac:(reflexivity)).
  change (2 ^ 64) with (Z.to_N (2 ^ 64)). apply Z2N.inj_lt; lia.
Qed.
Lemma signed_u64 : forall bits z, (1 <= bits <= 64)%Z -> ranged bits z -> signed bits (to_u64 z) = z.
Proof.
  intros bits z Hb [H1 H2]. unfold signed, to_u64. rewrite Z2N.id by (apply Z.mod_pos_bound; reflexivity).
  assert (Hp : (0 < 2 ^ bits)%Z) by (apply Z.pow_pos_nonneg; lia).
  assert (Hh : (2 ^ bits = 2 * 2 ^ (bits - 1))%Z) by (rewrite <- Z.pow_succ_r by lia; f_equal; lia).
  assert (Em : ((z mod 2 ^ 64) mod 2 ^ bits = z mod 2 ^ bits)%Z).
  { assert (E : (2 ^ 64 = 2 ^ bits * 2 ^ (64 - bits))%Z) by (rewrite <- Z.pow_add_r by lia; f_equal; lia).
    assert (Hq : (0 < 2 ^ (64 - bits))%Z) by (apply Z.pow_pos_nonneg; lia).
    rewrite E, Z.rem_mul_r by lia. rewrite Z.mul_comm, Z.mod_add by lia. apply Z.mod_mod. lia. }
  cbv zeta. rewrite Em. destruct (Z.ltb_spec z 0).
  - replace (z mod 2 ^ bits)%Z with (z + 2 ^ bits)%Z.
    + replace (z + 2 ^ bits <? 2 ^ (bits - 1))%Z with false by (symmetry; apply Z.ltb_ge; lia). lia.
    + apply Z.mod_unique_pos with (q := (-1)%Z); lia.
  - rewrite Z.mod_small by lia. replace (z <? 2 ^ (bits - 1))%Z with true by (symmetry; apply Z.ltb_lt; lia). reflexivity.
Qed.

(** ** The loop *)
Lemma take_spec : forall k bs b r, take k bs = Some (b, r) -> bs = b ++ r /\ N.of_nat (length b) = k.
Proof.
  intros k bs b r H. unfold take in H. destruct (k <=? N.of_nat (length bs)) eqn:E; [|discriminate]. injection H as <- <-.
  apply N.leb_le in E. split; [symmetry; apply firstn_skipn|]. rewrite firstn_length. lia.
Qed.
Lemma take_app : forall b r, take (N.of_nat (length b)) (b ++ r) = Some (b, r).
Proof.
  intros b r. unfold take. rewrite app_length. replace (_ <=? _) with true by (symmetry; apply N.leb_le; lia).
  rewrite Nnat.Nat2N.id, firstn_app, skipn_app, Nat.sub_diag, firstn_all, skipn_all. cbn. rewrite app_nil_r. reflexivity.
Qed.
Lemma take_more : forall k bs b r c, take k bs = Some (b, r) -> take k (bs ++ c) = Some (b, r ++ c).
Proof. intros k bs b r c H. apply take_spec in H. destruct H as [-> <-]. rewrite <- app_assoc. apply take_app. Qed.

Lemma wires : forall w bs x, read_value w bs = Some x -> w = 0 \/ w = 1 \/ w = 2 \/ w = 5.
Proof. intros w bs x H. destruct w as [|[[[]|[]|]|[[]|[]|]|]]; cbn in H; try discriminate; auto. Qed.
Lemma read_value_short : forall w bs v r, read_value w bs = Some (v, r) -> (length r <= length bs)%nat.
Proof.
  intros w bs v r H. destruct (wires _ _ _ H) as [-> |[-> |[-> | ->]]]; cbn [read_value] in H.
  - destruct (dec bs) as [[n r']|] eqn:E; [|discriminate]. injection H as _ <-. apply dec_short in E. lia.
  - destruct (take 8 bs) as [[b r']|] eqn:E; [|discriminate]. injection H as _ <-. apply take_spec in E. destruct E as [-> _]. rewrite app_length. lia.
  - destruct (dec bs) as [[n r1]|] eqn:E1; [|discriminate]. destruct (take n r1) as [[b r']|] eqn:E; [|discriminate]. injection H as _ <-.
    apply dec_short in E1. apply take_spec in E. destruct E as [-> _]. rewrite app_length in E1. lia.
  - destruct (take 4 bs) as [[b r']|] eqn:E; [|discriminate]. injection H as _ <-. apply take_spec in E. destruct E as [-> _]. rewrite app_length. lia.
Qed.
Lemma read_value_app : forall w bs v r c, read_value w bs = Some (v, r) -> read_value w (bs ++ c) = Some (v, r ++ c).
Proof.
  intros w bs v r c H. destruct (wires _ _ _ H) as [-> |[-> |[-> | ->]]]; cbn [read_value] in *.
  - destruct (dec bs) as [[n r']|] eqn:E; [|discriminate]. injection H as <- <-. rewrite (dec_app _ _ _ c E). reflexivity.
  - destruct (take 8 bs) as [[b r']|] eqn:E; [|discriminate]. injection H as <- <-. rewrite (take_more _ _ _ _ c E). reflexivity.
  - destruct (dec bs) as [[n r1]|] eqn:E1; [|discriminate]. destruct (take n r1) as [[b r']|] eqn:E; [|discriminate]. injection H as <- <-.
    rewrite (dec_app _ _ _ c E1), (take_more _ _ _ _ c E). reflexivity.
  - destruct (take 4 bs) as [[b r']|] eqn:E; [|discriminate]. injection H as <- <-. rewrite (take_more _ _ _ _ c E). reflexivity.
Qed.
Lemma read_tag_short : forall bs t r, read_tag bs = Some (t, r) -> (length r < length bs)%nat.
Proof. intros bs t r H. unfold read_tag in H. destruct (dec bs) as [[v r']|] eqn:E; [|discriminate]. injection H as _ <-. eapply dec_short; eauto. Qed.
Lemma read_tag_app : forall bs t r c, read_tag bs = Some (t, r) -> read_tag (bs ++ c) = Some (t, r ++ c).
Proof.
  intros bs t r c H. unfold read_tag in *. destruct (dec bs) as [[v r']|] eqn:E; [|discriminate]. injection H as <- <-.
  rewrite (dec_app _ _ _ c E). reflexivity.
Qed.

Section Loop.
  Context {A : Type}.
  Variable set : N -> value -> A -> option A.
  Lemma merge_enough : forall k k' a bs, (length bs <= k)%nat -> (length bs <= k')%nat -> merge_upto set k a bs = merge_upto set k' a bs.
  Proof.
    induction k as [|k IH]; intros [|k'] a [|b bs] H H'; try reflexivity; try (cbn in *; lia).
    cbn [merge_upto]. destruct (read_tag (b :: bs)) as [[t r]|] eqn:E; [|reflexivity].
    destruct (read_value (t mod 8) r) as [[v r']|] eqn:E2; [|reflexivity]. destruct (set t v a) as [a'|]; [|reflexivity].
    apply read_tag_short in E. apply read_value_short in E2. apply IH; cbn in *; lia.
  Qed.
  Lemma merge_nil : forall a, merge set a [] = Some a.
  Proof. reflexivity. Qed.
  Lemma merge_step : forall a bs, bs <> [] -> merge set a bs =
    match read_tag bs with
    | None => None
    | Some (t, r) => match read_value (t mod 8) r with
                     | None => None
                     | Some (v, r') => match set t v a with None => None | Some a' => merge set a' r' end
                     end
    end.
  Proof.
    intros a [|b bs] H; [congruence|]. unfold merge at 1, merge_rest. cbn [length merge_upto].
    destruct (read_tag (b :: bs)) as [[t r]|] eqn:E; [|reflexivity].
    destruct (read_value (t mod 8) r) as [[v r']|] eqn:E2; [|reflexivity]. destruct (set t v a) as [a'|]; [|reflexivity].
    apply read_tag_short in E. apply read_value_short in E2. unfold merge, merge_rest. f_equal. apply merge_enough; cbn in *; lia.
  Qed.
  Lemma merge_end : forall k a bs a' r, merge_upto set k a bs = Some (a', r) -> r = [].
  Proof.
    induction k as [|k IH]; intros a [|b bs] a' r H; cbn [merge_upto] in H; try discriminate; try (injection H as _ <-; reflexivity).
    destruct (read_tag (b :: bs)) as [[t r1]|]; [|discriminate]. destruct (read_value (t mod 8) r1) as [[v r2]|]; [|discriminate].
    destruct (set t v a) as [a1|]; [|discriminate]. eapply IH; eauto.
  Qed.
  Lemma merge_all : forall a bs, merge_rest set a bs = match merge set a bs with Some a' => Some (a', []) | None => None end.
  Proof.
    intros a bs. unfold merge, merge_rest. destruct (merge_upto set (length bs) a bs) as [[a' r]|] eqn:E; [|reflexivity].
    apply merge_end in E. subst r. reflexivity.
  Qed.
  Lemma merge_field : forall a bs t r v r', read_tag bs = Some (t, r) -> read_value (t mod 8) r = Some (v, r') ->
    merge set a bs = match set t v a with None => None | Some a' => merge set a' r' end.
  Proof.
    intros a bs t r v r' H1 H2. rewrite merge_step, H1, H2; [reflexivity|]. intros ->. discriminate.
  Qed.
  Lemma merge_app : forall bs a a' c, merge set a bs = Some a' -> merge set a (bs ++ c) = merge set a' c.
  Proof.
    intros bs. remember (length bs) as k eqn:Ek. assert (L : (length bs <= k)%nat) by lia. clear Ek. revert bs L.
    induction k as [|k IH]; intros [|b bs] L a a' c H; try (cbn in H; injection H as <-; reflexivity); [cbn in L; lia|].
    rewrite merge_step in H by discriminate.
    destruct (read_tag (b :: bs)) as [[t r]|] eqn:E; [|discriminate].
    destruct (read_value (t mod 8) r) as [[v r']|] eqn:E2; [|discriminate]. destruct (set t v a) as [a1|] eqn:E3; [|discriminate].
    rewrite (merge_field _ _ _ _ _ _ (read_tag_app _ _ _ c E) (read_value_app _ _ _ _ c E2)), E3.
    apply read_tag_short in E. apply read_value_short in E2. apply IH; [cbn in *; lia|exact H].
  Qed.

  (** ** One field *)
  Lemma key_tag : forall f w r, f < 16 -> w < 8 -> read_tag (key f w ++ r) = Some (8 * f + w, r).
  Proof.
    intros f w r Hf Hw. unfold read_tag, key. rewrite enc_dec by (apply N.lt_trans with 136; [lia|reflexivity]).
    rewrite N.mod_small by (apply N.lt_trans with 136; [lia|reflexivity]). reflexivity.
  Qed.
  Lemma key_wire : forall f w, w < 8 -> (8 * f + w) mod 8 = w.
  Proof. intros f w H. rewrite N.add_comm, N.mul_comm, N.mod_add by lia. apply N.mod_small, H. Qed.
  Lemma merge_varint : forall a a' f v r, f < 16 -> v < 2 ^ 64 -> set (8 * f) (VVarint v) a = Some a' ->
    merge set a (key f 0 ++ enc v ++ r) = merge set a' r.
  Proof.
    intros a a' f v r Hf Hv H. erewrite merge_field; [|apply key_tag; [exact Hf|lia]|].
    - rewrite N.add_0_r, H. reflexivity.
    - rewrite key_wire by lia. cbn [read_value]. rewrite enc_dec by exact Hv. reflexivity.
  Qed.
  Lemma merge_bytes : forall a a' f b r, f < 16 -> N.of_nat (length b) < 2 ^ 32 -> set (8 * f + 2) (VBytes b) a = Some a' ->
    merge set a (key f 2 ++ enc (N.of_nat (length b) mod 2 ^ 32) ++ b ++ r) = merge set a' r.
  Proof.
    intros a a' f b r Hf Hb H. erewrite merge_field; [|apply key_tag; [exact Hf|lia]|].
    - rewrite H. reflexivity.
    - rewrite key_wire by lia. cbn [read_value]. rewrite N.mod_small by exact Hb.
      rewrite enc_dec by (eapply N.lt_trans; [exact Hb|reflexivity]). rewrite take_app. reflexivity.
  Qed.
  Lemma merge_int : forall a a' f z r, f < 16 -> (z = 0%Z -> a' = a) -> set (8 * f) (VVarint (to_u64 z)) a = Some a' ->
    merge set a (write_int f z ++ r) = merge set a' r.
  Proof.
    intros a a' f z r Hf H0 H. unfold write_int. destruct (Z.eqb_spec z 0) as [E|E]; [rewrite (H0 E); reflexivity|].
    rewrite <- app_assoc. apply merge_varint; [exact Hf|apply to_u64_lt|exact H].
  Qed.
  Lemma merge_bool : forall a a' f (b : bool) r, f < 16 -> (b = false -> a' = a) -> (b = true -> set (8 * f) (VVarint 1) a = Some a') ->
    merge set a (write_bool f b ++ r) = merge set a' r.
  Proof.
    intros a a' f [|] r Hf H0 H; cbn [write_bool]; [|rewrite H0 by reflexivity; reflexivity].
    rewrite <- app_assoc. change ([1] ++ r) with (enc 1 ++ r). apply merge_varint; [exact Hf|reflexivity|apply H; reflexivity].
  Qed.
  Lemma merge_string : forall a a' f s r, f < 16 -> N.of_nat (length s) < 2 ^ 32 -> (s = [] -> a' = a) ->
    (s <> [] -> set (8 * f + 2) (VBytes s) a = Some a') -> merge set a (write_string f s ++ r) = merge set a' r.
  Proof.
    intros a a' f s r Hf Hs H0 H. destruct s as [|x s]; [rewrite H0 by reflexivity; reflexivity|]. cbn [write_string].
    rewrite <- !app_assoc. apply merge_bytes; [exact Hf|exact Hs|apply H; discriminate].
  Qed.
End Loop.

(** ** Sizes *)
Lemma app_size : forall A (a b : list A), N.of_nat (length (a ++ b)) = N.of_nat (length a) + N.of_nat (length b).
Proof. intros. rewrite app_length. lia. Qed.
Lemma key_size : forall f w, f < 16 -> w < 8 -> N.of_nat (length (key f w)) = 1.
Proof.
  intros f w Hf Hw. unfold key. rewrite enc_length. unfold varint_size. cbn [size_from].
  replace (8 * f + w <? 128) with true by (symmetry; apply N.ltb_lt; lia). reflexivity.
Qed.
Lemma int_size_ok : forall f z, f < 16 -> N.of_nat (length (write_int f z)) = int_size z.
Proof.
  intros f z H. unfold write_int, int_size. destruct (z =? 0)%Z; [reflexivity|]. rewrite app_size, key_size, enc_length by lia. reflexivity.
Qed.
Lemma string_size_ok : forall f s, f < 16 -> N.of_nat (length s) < 2 ^ 32 -> N.of_nat (length (write_string f s)) = string_size s.
Proof.
  intros f [|x s] H L; [reflexivity|]. unfold write_string, string_size. rewrite N.mod_small by exact L.
  rewrite !app_size, key_size, enc_length by lia. lia.
Qed.
Lemma bool_size_ok : forall f b, f < 16 -> N.of_nat (length (write_bool f b)) = bool_size b.
Proof. intros f [|] H; [|reflexivity]. cbn [write_bool bool_size]. rewrite app_size, key_size by lia. reflexivity. Qed.
Lemma sizes_ok : forall A f (size : A -> N) (write : A -> list N) l, f < 16 ->
  Forall (fun x => size x < 2 ^ 32 /\ N.of_nat (length (write x)) = size x) l ->
  N.of_nat (length (concat (map (fun x => write_message f (size x) (write x)) l))) = sizes (map size l).
Proof.
  intros A f size write l Hf H. induction H as [|x l [H1 H2] Hl IH]; [reflexivity|]. cbn [map concat sizes].
  rewrite app_size, IH. unfold write_message. rewrite N.mod_small by exact H1. rewrite !app_size, key_size, enc_length, H2 by lia. lia.
Qed.
Lemma string_size_le : forall s, N.of_nat (length s) <= string_size s.
Proof. intros [|x s]; unfold string_size; [reflexivity|]. lia. Qed.
Lemma sizes_le : forall l x, List.In x l -> x <= sizes l.
Proof. induction l as [|y l IH]; [intros x []|]. intros x [-> |H]; cbn [sizes]; [lia|]. specialize (IH x H). lia. Qed.

Lemma index_sized : forall i, index_size i < 2 ^ 32 -> N.of_nat (length (write_index i)) = index_size i.
Proof.
  intros [l z] H. unfold write_index, index_size in *. cbn [i_label i_next] in *. pose proof (string_size_le l).
  rewrite app_size, string_size_ok, int_size_ok by lia. reflexivity.
Qed.
Lemma conts_sized : forall a, action_size a < 2 ^ 32 -> Forall (fun i => index_size i < 2 ^ 32) (a_conts a).
Proof.
  intros a H. apply Forall_forall. intros i Hi. apply (in_map index_size) in Hi. apply sizes_le in Hi. unfold action_size in H. lia.
Qed.
Lemma action_sized : forall a, action_size a < 2 ^ 32 -> N.of_nat (length (write_action a)) = action_size a.
Proof.
  intros a H. pose proof (conts_sized a H) as Hc. unfold write_action. unfold action_size in *.
  pose proof (string_size_le (a_from a)). pose proof (string_size_le (a_to a)). pose proof (string_size_le (a_clock a)).
  rewrite !app_size, !int_size_ok, !string_size_ok, !bool_size_ok, sizes_ok; try lia.
  eapply Forall_impl; [|exact Hc]. cbn beta. intros i Hi. split; [exact Hi|apply index_sized, Hi].
Qed.
Lemma actions_sized : forall g, global_size g < 2 ^ 32 -> Forall (fun a => action_size a < 2 ^ 32) (g_actions g).
Proof.
  intros g H. apply Forall_forall. intros a Ha. apply (in_map action_size) in Ha. apply sizes_le in Ha. unfold global_size in H. lia.
Qed.
Lemma global_sized : forall g, global_size g < 2 ^ 32 -> N.of_nat (length (write_global g)) = global_size g.
Proof.
  intros g H. pose proof (actions_sized g H) as Ha. unfold write_global. unfold global_size in *.
  rewrite app_size, int_size_ok, sizes_ok; [reflexivity|lia| |lia].
  eapply Forall_impl; [|exact Ha]. cbn beta. intros a Hx. split; [exact Hx|apply action_sized, Hx].
Qed.

(** ** Round trips *)
Section Trip.
  Variable utf8 : list N -> bool.
  (** Specification only: a message that Rust can hold (integers in range, strings in UTF-8). *)
  Definition held_index (i : index) : Prop := utf8 (i_label i) = true /\ ranged 32 (i_next i).
  Definition held_action (a : action) : Prop :=
    ranged 32 (a_idx a) /\ ranged 32 (a_type a) /\ utf8 (a_from a) = true /\ utf8 (a_to a) = true /\ Forall held_index (a_conts a) /\
    utf8 (a_clock a) = true /\ ranged 64 (a_lower a) /\ ranged 64 (a_upper a).
  Definition held_global (g : global) : Prop := ranged 32 (g_start g) /\ Forall held_action (g_actions g).

  Lemma index_trip : forall i, held_index i -> index_size i < 2 ^ 32 -> parse_index utf8 (write_index i) = Some i.
  Proof.
    intros [l z] [H1 H2] Hs. unfold index_size in Hs. cbn [i_label i_next] in *. pose proof (string_size_le l).
    unfold parse_index, write_index. cbn [i_label i_next].
    rewrite (merge_string _ index0 (Index l 0)); [|reflexivity|lia|intros ->; reflexivity|].
    - rewrite <- (app_nil_r (write_int 2 z)). rewrite (merge_int _ (Index l 0) (Index l z)); [reflexivity|reflexivity|intros ->; reflexivity|].
      cbn. rewrite signed_u64 by (auto; lia). reflexivity.
    - intros _. cbn. rewrite H1. reflexivity.
  Qed.

  Lemma merge_conts : forall l x t f g c k lo il u iu r rest, Forall held_index l -> Forall (fun i => index_size i < 2 ^ 32) l ->
    merge (set_action utf8) (Action x t f g c k lo il u iu r) (concat (map (fun i => write_message 5 (index_size i) (write_index i)) l) ++ rest) =
    merge (set_action utf8) (Action x t f g (c ++ l) k lo il u iu r) rest.
  Proof.
    induction l as [|i l IH]; intros x t f g c k lo il u iu r rest H Hs; [rewrite app_nil_r; reflexivity|].
    inversion_clear H as [|? ? Hi Hl]. inversion_clear Hs as [|? ? Si Sl].
    cbn [map concat]. unfold write_message at 1. rewrite <- !app_assoc. rewrite <- (index_sized i Si) at 1.
    rewrite (merge_bytes _ _ (Action x t f g (c ++ [i]) k lo il u iu r)).
    - rewrite IH by assumption. rewrite <- app_assoc. reflexivity.
    - reflexivity.
    - rewrite index_sized; exact Si.
    - change (8 * 5 + 2) with 42. cbn [set_action]. change (merge (set_index utf8) index0 (write_index i)) with (parse_index utf8 (write_index i)).
      rewrite index_trip by assumption. reflexivity.
  Qed.

  Lemma action_trip : forall a, held_action a -> action_size a < 2 ^ 32 -> parse_action utf8 (write_action a) = Some a.
  Proof.
    intros a H Hs. pose proof (conts_sized a Hs) as Hc. destruct a as [x t f g c k lo il u iu r].
    destruct H as (H1 & H2 & H3 & H4 & H5 & H6 & H7 & H8). unfold action_size in Hs.
    unfold parse_action, write_action.
    cbn [a_idx a_type a_from a_to a_conts a_clock a_lower a_inc_lb a_upper a_inc_ub a_reset] in *.
    pose proof (string_size_le f). pose proof (string_size_le g). pose proof (string_size_le k).
    unfold action0.
    rewrite (merge_int _ _ (Action x 0 [] [] [] [] 0 false 0 false false)); [|reflexivity|intros ->; reflexivity|cbn; rewrite signed_u64 by (auto; lia); reflexivity].
    rewrite (merge_int _ _ (Action x t [] [] [] [] 0 false 0 false false)); [|reflexivity|intros ->; reflexivity|cbn; rewrite signed_u64 by (auto; lia); reflexivity].
    rewrite (merge_string _ _ (Action x t f [] [] [] 0 false 0 false false)); [|reflexivity|lia|intros ->; reflexivity|intros _; cbn; rewrite H3; reflexivity].
    rewrite (merge_string _ _ (Action x t f g [] [] 0 false 0 false false)); [|reflexivity|lia|intros ->; reflexivity|intros _; cbn; rewrite H4; reflexivity].
    rewrite merge_conts by assumption. cbn [app].
    rewrite (merge_string _ _ (Action x t f g c k 0 false 0 false false)); [|reflexivity|lia|intros ->; reflexivity|intros _; cbn; rewrite H6; reflexivity].
    rewrite (merge_int _ _ (Action x t f g c k lo false 0 false false)); [|reflexivity|intros ->; reflexivity|cbn; rewrite signed_u64 by (auto; lia); reflexivity].
    rewrite (merge_bool _ _ (Action x t f g c k lo il 0 false false)); [|reflexivity|intros ->; reflexivity|intros ->; reflexivity].
    rewrite (merge_int _ _ (Action x t f g c k lo il u false false)); [|reflexivity|intros ->; reflexivity|cbn; rewrite signed_u64 by (auto; lia); reflexivity].
    rewrite (merge_bool _ _ (Action x t f g c k lo il u iu false)); [|reflexivity|intros ->; reflexivity|intros ->; reflexivity].
    rewrite <- (app_nil_r (write_bool 11 r)).
    rewrite (merge_bool _ _ (Action x t f g c k lo il u iu r)); [reflexivity|reflexivity|intros ->; reflexivity|intros ->; reflexivity].
  Qed.

  Lemma merge_actions : forall l s c, Forall held_action l -> Forall (fun a => action_size a < 2 ^ 32) l ->
    merge (set_global utf8) (Global s c) (concat (map (fun a => write_message 2 (action_size a) (write_action a)) l)) = Some (Global s (c ++ l)).
  Proof.
    induction l as [|a l IH]; intros s c H Hs; [rewrite app_nil_r; reflexivity|].
    inversion_clear H as [|? ? Ha Hl]. inversion_clear Hs as [|? ? Sa Sl].
    cbn [map concat]. unfold write_message at 1. rewrite <- !app_assoc. rewrite <- (action_sized a Sa) at 1.
    rewrite (merge_bytes _ _ (Global s (c ++ [a]))).
    - rewrite IH by assumption. rewrite <- app_assoc. reflexivity.
    - reflexivity.
    - rewrite action_sized; exact Sa.
    - change (8 * 2 + 2) with 18. cbn [set_global g_start g_actions]. change (merge (set_action utf8) action0 (write_action a)) with (parse_action utf8 (write_action a)).
      rewrite action_trip by assumption. reflexivity.
  Qed.
  Lemma global_trip : forall g, held_global g -> global_size g < 2 ^ 32 -> parse_global utf8 (write_global g) = Some g.
  Proof.
    intros g H Hs. pose proof (actions_sized g Hs) as Ha. destruct g as [s l]. destruct H as [H1 H2]. cbn [g_start g_actions] in *.
    unfold parse_global, write_global. cbn [g_start g_actions].
    rewrite (merge_int _ global0 (Global s [])); [|reflexivity|intros ->; reflexivity|cbn; rewrite signed_u64 by (auto; lia); reflexivity].
    rewrite merge_actions by assumption. reflexivity.
  Qed.

  (** ** A GlobalType read as an Action *)
  Lemma skip_actions : forall l a, Forall (fun a => action_size a < 2 ^ 32) l ->
    merge (set_action utf8) a (concat (map (fun a => write_message 2 (action_size a) (write_action a)) l)) = Some a.
  Proof.
    induction l as [|x l IH]; intros a Hs; [reflexivity|]. inversion_clear Hs as [|? ? Sx Sl].
    cbn [map concat]. unfold write_message at 1. rewrite <- !app_assoc. rewrite <- (action_sized x Sx) at 1.
    rewrite (merge_bytes _ _ a); [apply IH, Sl|reflexivity|rewrite action_sized; exact Sx|]. destruct a. reflexivity.
  Qed.
  Lemma global_as_action : forall g, ranged 32 (g_start g) -> global_size g < 2 ^ 32 ->
    parse_action utf8 (write_global g) = Some (Action (g_start g) 0 [] [] [] [] 0 false 0 false false).
  Proof.
    intros g H Hs. pose proof (actions_sized g Hs) as Ha. unfold parse_action, write_global.
    rewrite (merge_int _ action0 (Action (g_start g) 0 [] [] [] [] 0 false 0 false false));
      [apply skip_actions, Ha|reflexivity|intros ->; reflexivity|cbn; rewrite signed_u64 by (auto; lia); reflexivity].
  Qed.
End Trip.

(** ** Bytes *)
(** Specification only. *)
Definition bytes (l : list N) : Prop := Forall (fun b => b < 256) l.
Lemma bytes_app : forall a b, bytes a -> bytes b -> bytes (a ++ b).
Proof. intros a b Ha Hb. apply Forall_app. auto. Qed.
Lemma key_bytes : forall f w, f < 16 -> w < 8 -> bytes (key f w).
Proof. intros f w Hf Hw. apply enc_bytes. apply N.lt_trans with 136; [lia|reflexivity]. Qed.
Lemma mod32 : forall v, v mod 2 ^ 32 < 2 ^ 64.
Proof. intros v. eapply N.lt_trans; [apply N.mod_lt; discriminate|reflexivity]. Qed.
Lemma int_bytes : forall f z, f < 16 -> bytes (write_int f z).
Proof.
  intros f z H. unfold write_int. destruct (z =? 0)%Z; [constructor|]. apply bytes_app; [apply key_bytes; lia|apply enc_bytes, to_u64_lt].
Qed.
Lemma string_bytes : forall f s, f < 16 -> bytes s -> bytes (write_string f s).
Proof.
  intros f [|x s] H B; [constructor|]. unfold write_string. apply bytes_app; [apply key_bytes; lia|]. apply bytes_app; [apply enc_bytes, mod32|exact B].
Qed.
Lemma bool_bytes : forall f b, f < 16 -> bytes (write_bool f b).
Proof. intros f [|] H; [|constructor]. apply bytes_app; [apply key_bytes; lia|repeat constructor]. Qed.
Lemma messages_bytes : forall A f (size : A -> N) (write : A -> list N) l, f < 16 -> Forall (fun x => bytes (write x)) l ->
  bytes (concat (map (fun x => write_message f (size x) (write x)) l)).
Proof.
  intros A f size write l Hf H. induction H as [|x l Hx Hl IH]; [constructor|]. cbn [map concat]. apply bytes_app; [|exact IH].
  unfold write_message. apply bytes_app; [apply key_bytes; lia|]. apply bytes_app; [apply enc_bytes, mod32|exact Hx].
Qed.
(** Specification only: the strings of an action are made of bytes. *)
Definition plain_action (a : action) : Prop :=
  bytes (a_from a) /\ bytes (a_to a) /\ bytes (a_clock a) /\ Forall (fun i => bytes (i_label i)) (a_conts a).
Lemma action_bytes : forall a, plain_action a -> bytes (write_action a).
Proof.
  intros a (H1 & H2 & H3 & H4). unfold write_action.
  repeat (apply bytes_app; [solve [apply int_bytes; lia|apply bool_bytes; lia|apply string_bytes; [lia|assumption]|
    apply messages_bytes; [lia|]; eapply Forall_impl; [|exact H4]; intros i Hi; apply bytes_app; [apply string_bytes; [lia|exact Hi]|apply int_bytes; lia]]|]).
  apply bool_bytes. lia.
Qed.
Lemma global_bytes : forall g, Forall plain_action (g_actions g) -> bytes (write_global g).
Proof.
  intros g H. unfold write_global. apply bytes_app; [apply int_bytes; lia|]. apply messages_bytes; [lia|].
  eapply Forall_impl; [|exact H]. apply action_bytes.
Qed.

(** ** Other fields *)
Lemma other_tag : forall utf8 tag v a, 96 <= tag -> set_action utf8 tag v a = Some a.
Proof.
  intros utf8 tag v a H. assert (U : unknown tag a = Some a).
  { unfold unknown. replace (tag / 8 =? 0) with false; [reflexivity|]. symmetry. apply N.eqb_neq.
    pose proof (N.div_le_mono 96 tag 8 ltac:(discriminate) H) as Q. change (96 / 8) with 12 in Q. lia. }
  rewrite <- U. destruct a. destruct tag as [|q]; [lia|].
  do 7 (try (destruct q as [q|q|]; [| |solve [lia|reflexivity]])); try reflexivity; destruct v; try reflexivity; lia.
Qed.
Lemma other_field : forall utf8 a f v, 12 <= f < 2 ^ 29 -> v < 2 ^ 64 ->
  merge (set_action utf8) a (enc (8 * f) ++ enc v) = Some a.
Proof.
  intros utf8 a f v Hf Hv. change (2 ^ 29) with 536870912 in Hf.
  erewrite merge_field with (t := 8 * f) (r := enc v) (v := VVarint v) (r' := []).
  - rewrite other_tag by lia. reflexivity.
  - unfold read_tag. rewrite enc_dec by (apply N.lt_trans with 4294967296; [lia|reflexivity]).
    rewrite N.mod_small by (change (2 ^ 32) with 4294967296; lia). reflexivity.
  - rewrite N.mul_comm, N.mod_mul by discriminate. cbn [read_value]. rewrite <- (app_nil_r (enc v)), enc_dec by exact Hv. reflexivity.
Qed.

(** ** The length of a string is cut to 32 bits *)
Lemma cut_label : forall utf8 rest, N.of_nat (length (0 :: 0 :: rest)) = 2 ^ 32 ->
  parse_index utf8 (write_index (Index (0 :: 0 :: rest) 0)) = None.
Proof.
  intros utf8 rest H. unfold write_index, write_string. cbn [i_label i_next]. rewrite H, N.mod_same by discriminate.
  unfold write_int. cbn [Z.eqb]. rewrite app_nil_r. unfold parse_index.
  rewrite merge_field with (t := 10) (r := 0 :: 0 :: 0 :: rest) (v := VBytes []) (r' := 0 :: 0 :: rest); [|reflexivity|reflexivity].
  unfold set_index. destruct (utf8 []); [|reflexivity].
  rewrite merge_field with (t := 0) (r := 0 :: rest) (v := VVarint 0) (r' := rest); reflexivity.
Qed.
