(** C76: the aliases for binary choices and offers are dual to each other. *)
From Coq Require Import List Arith Bool Lia.
From Verif Require Import AliasTypes.
Import ListNotations.

Lemma ty_ind' : forall P : ty -> Prop, P TEnd -> (forall p s, P s -> P (TSend p s)) -> (forall p s, P s -> P (TRecv p s)) ->
  (forall a b, P (TEither a b)) -> (forall id ss r nm, Forall P ss -> P r -> P (TMesh id ss r nm)) ->
  (forall id b rs, Forall P rs -> P (TRole id b rs)) -> (forall id, P (TPlain id)) -> forall t, P t.
Proof.
  intros P H1 H2 H3 H4 H5 H6 H7. fix F 1. intros [|p s|p s|a b|id ss r nm|id b rs|id].
  - exact H1.
  - apply H2, F.
  - apply H3, F.
  - apply H4.
  - apply H5; [|apply F]. induction ss; constructor; [apply F|assumption].
  - apply H6. induction rs; constructor; [apply F|assumption].
  - apply H7.
Qed.
Lemma dual_dual : forall t, dual (dual t) = t.
Proof.
  induction t using ty_ind'; cbn; try congruence.
  - rewrite map_map. f_equal; [|assumption]. rewrite <- (map_id ss) at 2. apply map_ext_in. rewrite Forall_forall in H. exact H.
  - rewrite map_map, negb_involutive. f_equal. rewrite <- (map_id rs) at 2. apply map_ext_in. rewrite Forall_forall in H. exact H.
Qed.
Lemma arg_map : forall ss i, arg (map dual ss) i = option_map dual (arg ss i).
Proof. intros ss [|i]; [reflexivity|]. cbn. apply nth_error_map. Qed.
Lemma args_map : forall ss is, args (map dual ss) is = option_map (map dual) (args ss is).
Proof.
  intros ss is. induction is as [|i is IH]; [reflexivity|]. cbn [args]. rewrite arg_map, IH.
  destruct (arg ss i); cbn; [|reflexivity]. destruct (args ss is); reflexivity.
Qed.
Lemma branches_dual : forall id n ss r0 r1 nm, branches id n (map dual ss) (dual r0) (dual r1) nm =
  option_map (fun '(a, b) => (dual a, dual b)) (branches id n ss r0 r1 nm).
Proof.
  intros. unfold branches. rewrite map_length, !args_map. destruct (_ && _); [|reflexivity].
  destruct (args ss (seq 1 (n - 1))) as [l|]; [|reflexivity]. destruct (args ss (seq n (2 * n - 1 - n))) as [l'|]; reflexivity.
Qed.

(** The dual of the type for choosing is the type for offering the duals. *)
Theorem choose_dual_offer : forall id n ss r0 r1 nm,
  option_map dual (choose_type id n ss r0 r1 nm) = offer_type id n (map dual ss) (dual r0) (dual r1) nm.
Proof.
  intros. unfold choose_type, offer_type. rewrite branches_dual. destruct (branches id n ss r0 r1 nm) as [[a b]|]; reflexivity.
Qed.
Print Assumptions choose_dual_offer.
(** And the other way round. *)
Theorem offer_dual_choose : forall id n ss r0 r1 nm,
  option_map dual (offer_type id n ss r0 r1 nm) = choose_type id n (map dual ss) (dual r0) (dual r1) nm.
Proof.
  intros. unfold choose_type, offer_type. rewrite branches_dual. destruct (branches id n ss r0 r1 nm) as [[a b]|]; [|reflexivity].
  cbn. rewrite !dual_dual. reflexivity.
Qed.
Print Assumptions offer_dual_choose.

Lemma args_app : forall b a c, args (a ++ b ++ c) (seq (S (length a)) (length b)) = Some b.
Proof.
  induction b as [|x b IH]; intros a c; [reflexivity|]. cbn [length seq args arg].
  rewrite nth_error_app2, Nat.sub_diag by lia. cbn. specialize (IH (a ++ [x]) c). rewrite app_length, <- app_assoc in IH. cbn in IH.
  rewrite Nat.add_1_r in IH. rewrite IH. reflexivity.
Qed.
(** The first half of the sessions goes to the left branch, the second half to the right one, each once and in order. *)
Theorem offer_type_exact : forall id sl sr r0 r1 nm, length sl = length sr ->
  offer_type id (S (length sl)) (sl ++ sr) r0 r1 nm =
  Some (TRecv (TEither (TMesh id sl r0 nm) (TMesh id sr r1 nm)) TEnd).
Proof.
  intros id sl sr r0 r1 nm E. unfold offer_type, branches. rewrite seq_length, app_length.
  replace (length sl + length sr =? 2 * S (length sl) - 1 - 1) with true by (symmetry; apply Nat.eqb_eq; lia).
  replace (S (length sl) - 1) with (length sl) by lia. replace (2 * S (length sl) - 1 - S (length sl)) with (length sr) by lia.
  pose proof (args_app sl [] sr) as L. pose proof (args_app sr sl []) as R. cbn [app length] in L. rewrite app_nil_r in R.
  rewrite L, R. reflexivity.
Qed.
Print Assumptions offer_type_exact.
(** Any other number of sessions is refused. *)
Theorem offer_type_refused : forall id n ss r0 r1 nm,
  offer_type id n ss r0 r1 nm = None <-> n = 0 \/ length ss <> 2 * (n - 1).
Proof.
  intros id n ss r0 r1 nm. split.
  - intros H. destruct n as [|n]; [auto|]. right. intros L.
    assert (E : ss = firstn n ss ++ skipn n ss) by (symmetry; apply firstn_skipn).
    assert (L1 : length (firstn n ss) = n) by (rewrite firstn_length; lia).
    assert (L2 : length (firstn n ss) = length (skipn n ss)) by (rewrite L1, skipn_length; lia).
    pose proof (offer_type_exact id _ _ r0 r1 nm L2) as Q. rewrite L1, <- E in Q. congruence.
  - intros H. unfold offer_type, branches. rewrite seq_length. destruct n as [|n]; [reflexivity|]. destruct H as [H|H]; [discriminate|].
    replace (length ss =? 2 * S n - 1 - 1) with false by (symmetry; apply Nat.eqb_neq; lia). rewrite andb_false_r. reflexivity.
Qed.
Print Assumptions offer_type_refused.

(** Three roles: on the left a value is sent on the first channel, on the right nothing. *)
Example alias_example :
  choose_type 7 3 [TSend (TPlain 0) TEnd; TEnd; TEnd; TEnd] (TRole 1 false [TPlain 1]) (TPlain 1) (TPlain 9) =
  Some (TSend (TEither (TMesh 7 [TRecv (TPlain 0) TEnd; TEnd] (TRole 1 true [TPlain 1]) (TPlain 9))
                       (TMesh 7 [TEnd; TEnd] (TPlain 1) (TPlain 9))) TEnd) /\
  offer_type 7 3 [TEnd; TEnd; TEnd] TEnd TEnd TEnd = None.
Proof. split; reflexivity. Qed.
