(** Proofs about the generated [impl] blocks (Methods.v, MethodsSpec.v). *)
From Coq Require Import List Arith Bool String ZArith Lia.
From Verif Require Import Types Diag DiagProofs Wiring WiringProofs Session Mesh Methods MethodsSpec.
Import ListNotations.
Open Scope nat_scope.
Open Scope list_scope.

(** * Lists *)
Lemma all_some_nth : forall A (l : list (option A)) l', all_some l = Some l' ->
  forall a, nth_error l a = option_map Some (nth_error l' a).
Proof.
  induction l as [|o l IH]; intros l' E a; cbn in E.
  - injection E as <-. destruct a; reflexivity.
  - destruct o as [x|]; [|discriminate]. destruct (all_some l) as [r|]; [|discriminate]. injection E as <-.
    destruct a; [reflexivity|]. apply (IH _ eq_refl).
Qed.
Lemma all_some_total : forall A (l : list (option A)), (forall o, In o l -> o <> None) -> exists l', all_some l = Some l'.
Proof.
  induction l as [|o l IH]; intros H; cbn; [eauto|].
  destruct o as [x|]; [|exfalso; apply (H None); cbn; auto]. destruct IH as [r ->]; [intros o Ho; apply H; cbn; auto|]. eauto.
Qed.
Lemma map_seq_eq : forall A (f g : nat -> A) a len,
  map f (seq a len) = map g (seq a len) <-> forall k, a <= k < a + len -> f k = g k.
Proof.
  intros A f g a len. split.
  - revert a. induction len as [|len IH]; intros a E k Hk; [lia|]. cbn in E. injection E as E1 E2.
    destruct (Nat.eq_dec k a) as [->|]; [exact E1|]. apply (IH (S a) E2). lia.
  - intros H. apply map_ext_in. intros k Hk. apply in_seq in Hk. apply H. exact Hk.
Qed.

(** * Roles and fields *)
Lemma others_peers : forall n p, 1 <= p <= n -> others n p = map (peer p) (seq 1 (n - 1)).
Proof.
  intros n p Hp. rewrite <- filter_not by exact Hp. unfold others. apply filter_ext. intros q. rewrite (Nat.eqb_sym p q). reflexivity.
Qed.
Lemma wrapped_peer : forall n p q k, 1 <= p <= n -> 1 <= q <= n -> p <> q -> 1 <= k <= n - 1 ->
  comm_wrapped p q k = (peer p k =? q).
Proof.
  intros n p q k Hp Hq Hne Hk. unfold comm_wrapped, peer.
  destruct (Nat.leb_spec p k), (Nat.ltb_spec k p); try lia;
    match goal with |- (?a =? ?b) = (?c =? ?d) => destruct (Nat.eqb_spec a b), (Nat.eqb_spec c d) end; try reflexivity; lia.
Qed.
Lemma peer_onto : forall n p q, 1 <= p <= n -> 1 <= q <= n -> p <> q -> exists k, 1 <= k <= n - 1 /\ peer p k = q.
Proof.
  intros n p q Hp Hq Hne. unfold peer. destruct (Nat.lt_ge_cases q p).
  - exists q. split; [lia|]. destruct (Nat.ltb_spec q p); lia.
  - exists (q - 1). split; [lia|]. destruct (Nat.ltb_spec (q - 1) p); lia.
Qed.
Lemma peer_one : forall p k k', peer p k = peer p k' -> k = k'.
Proof. intros p k k'. unfold peer. destruct (Nat.ltb_spec k p), (Nat.ltb_spec k' p); lia. Qed.

Lemma role_at_name : forall roles p, 1 <= p <= List.length roles -> role_at roles p = Some (role_name roles p).
Proof.
  intros roles p Hp. unfold role_at, role_name. destruct p as [|p]; [lia|]. cbn. rewrite Nat.sub_0_r.
  apply nth_error_nth'. lia.
Qed.
Lemma role_name_inj : forall roles p q, NoDup roles -> 1 <= p <= List.length roles -> 1 <= q <= List.length roles ->
  role_name roles p = role_name roles q -> p = q.
Proof.
  intros roles p q H Hp Hq E. unfold role_name in E.
  assert (p - 1 = q - 1) by (apply (proj1 (NoDup_nth roles EmptyString) H); [lia|lia|exact E]). lia.
Qed.

(** * Types *)
Lemma mesh_t_inj : forall m f s x m' f' s' x', mesh_t m f s x = mesh_t m' f' s' x' <-> m = m' /\ f = f' /\ s = s' /\ x = x'.
Proof.
  intros. unfold mesh_t. split.
  - intros E. injection E as <- E. replace (f ++ [s; x]) with ((f ++ [s]) ++ [x]) in E by (rewrite <- app_assoc; reflexivity).
    replace (f' ++ [s'; x']) with ((f' ++ [s']) ++ [x']) in E by (rewrite <- app_assoc; reflexivity).
    apply app_inj_tail in E as [E <-]. apply app_inj_tail in E as [<- <-]. auto.
  - intros (-> & -> & -> & ->). reflexivity.
Qed.
Lemma inst_mesh : forall sg m f s x, inst sg (mesh_t m f s x) = mesh_t m (map (inst sg) f) (inst sg s) (inst sg x).
Proof. intros. unfold mesh_t. cbn. rewrite map_app. reflexivity. Qed.
Lemma inst_svars : forall sg a len, map (inst sg) (svars a len) = map (fun k => sg (PS k)) (seq a len).
Proof. intros. unfold svars. rewrite map_map. reflexivity. Qed.

Lemma gdual_session : forall t, is_session t = true -> is_session (gdual t) = true /\ gdual (gdual t) = t.
Proof.
  fix IH 1. intros t H. destruct t as [v|c args|t]; [discriminate H| |discriminate H].
  destruct c; try discriminate H.
  - destruct args; [split; reflexivity|discriminate H].
  - destruct args as [|p [|s [|]]]; try discriminate H. cbn in H. destruct (IH s H) as [A B]. split; [exact A|]. cbn. rewrite B. reflexivity.
  - destruct args as [|p [|s [|]]]; try discriminate H. cbn in H. destruct (IH s H) as [A B]. split; [exact A|]. cbn. rewrite B. reflexivity.
  - destruct args as [|p [|k1 [|k2 [|k3 [|k4 [|k5 [|k6 [|s [|]]]]]]]]]; try discriminate H. cbn in H.
    apply andb_prop in H as [K H]. destruct (IH s H) as [A B]. split; [cbn; rewrite K; exact A|]. cbn. rewrite B. reflexivity.
  - destruct args as [|p [|k1 [|k2 [|k3 [|k4 [|k5 [|k6 [|s [|]]]]]]]]]; try discriminate H. cbn in H.
    apply andb_prop in H as [K H]. destruct (IH s H) as [A B]. split; [cbn; rewrite K; exact A|]. cbn. rewrite B. reflexivity.
Qed.

(** Instances that agree on the parameters that are used are equal; those that are fixed by the self type are determined. *)
Lemma inst_agree : forall sg sg' t, (forall v, In v (vars t) -> sg v = sg' v) -> inst sg t = inst sg' t.
Proof.
  intros sg sg'. fix IH 1. intros t H. destruct t as [v|c args|t]; cbn in *.
  - apply H. auto.
  - f_equal. induction args as [|a args IHa]; [reflexivity|]. cbn in *. f_equal.
    + apply IH. intros v Hv. apply H. apply in_or_app. auto.
    + apply IHa. intros v Hv. apply H. apply in_or_app. auto.
  - rewrite (IH t H). reflexivity.
Qed.
Lemma inst_fixed : forall sg sg' t, inst sg t = inst sg' t -> forall v, In v (fixed t) -> sg v = sg' v.
Proof.
  intros sg sg'. fix IH 1. intros t H v Hv. destruct t as [w|c args|t]; cbn in *.
  - destruct Hv as [<-|[]]. exact H.
  - injection H as H. induction args as [|a args IHa]; [destruct Hv|]. cbn in *. injection H as E1 E2.
    apply in_app_or in Hv as [Hv|Hv]; [exact (IH a E1 v Hv)|exact (IHa E2 Hv)].
  - destruct Hv.
Qed.

Lemma sess_windows : forall c p args, (c = CSendT \/ c = CRecvT) -> is_session (RApp c (p :: args)) = true ->
  exists w s, args = wargs w ++ [s] /\ is_session s = true.
Proof.
  intros c p args Hc H.
  assert (E : is_session (RApp CSendT (p :: args)) = true) by (destruct Hc as [-> | ->]; exact H). clear Hc H.
  destruct args as [|k1 [|k2 [|k3 [|k4 [|k5 [|k6 [|s [|]]]]]]]]; try discriminate E. cbn [is_session] in E.
  repeat (apply andb_prop in E as [E ?]). cbn [const_ok] in *.
  destruct k1 as [|[] []|]; try discriminate. destruct k2 as [|[] []|]; try discriminate. destruct k3 as [|[] []|]; try discriminate.
  destruct k4 as [|[] []|]; try discriminate. destruct k5 as [|[] []|]; try discriminate. destruct k6 as [|[] []|]; try discriminate.
  match goal with |- context [RApp (CChar ?a) [] :: RApp (CInt ?b) [] :: RApp (CBool ?x) [] :: RApp (CInt ?d) [] :: RApp (CBool ?e) [] :: RApp (CChar ?g) [] :: _] =>
    exists (Window a b x d e g), s end.
  split; [reflexivity|assumption].
Qed.

(** * Transfers *)
Definition comm_t (snd timed : bool) (p s : rty) : rty := if snd then send_t timed p s else recv_t timed p s.
Definition comm_ty (snd timed : bool) (w : window) (V S : rty) : rty := if snd then sending timed w V S else receiving timed w V S.
Definition kval (w : window) (i : nat) : rty := nth (i - 1) (wargs w) end_t.

Lemma kval_ok : forall w i, 1 <= i <= 6 -> const_ok i (kval w i) = true.
Proof.
  intros w i Hi. assert (i = 1 \/ i = 2 \/ i = 3 \/ i = 4 \/ i = 5 \/ i = 6) as [-> |[-> |[-> |[-> |[-> | ->]]]]] by lia; reflexivity.
Qed.
Lemma consts_ok : forall timed w sg, (forall i, sg (PK i) = kval w i) -> forall v, In v (kparams timed) -> ok_for v (sg v) = true.
Proof.
  intros timed w sg H v Hv. unfold kparams in Hv. destruct timed; [|destruct Hv].
  unfold consts in Hv. apply in_map_iff in Hv as (i & <- & Hi). apply in_seq in Hi. rewrite H. apply kval_ok. lia.
Qed.
Lemma inst_comm : forall sg snd timed p s, inst sg (comm_t snd timed p s) =
  if timed then RApp (if snd then CSendT else CRecvT) (inst sg p :: map sg consts ++ [inst sg s])
  else RApp (if snd then CSend else CRecv) [inst sg p; inst sg s].
Proof. intros sg snd timed p s. unfold comm_t, send_t, recv_t. destruct snd, timed; reflexivity. Qed.
Lemma comm_inst : forall sg snd timed p s, is_session (inst sg (comm_t snd timed p s)) = true ->
  is_session (inst sg s) = true /\ exists w, inst sg (comm_t snd timed p s) = comm_ty snd timed w (inst sg p) (inst sg s) /\
    (timed = true -> map sg consts = wargs w).
Proof.
  intros sg snd timed p s H. rewrite inst_comm in *. destruct timed.
  - destruct (sess_windows (if snd then CSendT else CRecvT) (inst sg p) (map sg consts ++ [inst sg s])) as (w & s' & E & Hs);
      [destruct snd; auto|exact H|]. apply app_inj_tail in E as [E <-].
    split; [exact Hs|]. exists w. split; [|auto]. unfold comm_ty, sending, receiving. rewrite E. destruct snd; reflexivity.
  - split; [destruct snd; exact H|]. exists (Window 0 0 false 0 false 0). split; [destruct snd; reflexivity|discriminate].
Qed.
Lemma inst_comm_conv : forall sg snd timed w p s, (forall i, sg (PK i) = kval w i) ->
  inst sg (comm_t snd timed p s) = comm_ty snd timed w (inst sg p) (inst sg s).
Proof.
  intros sg snd timed w p s H. rewrite inst_comm. unfold comm_ty, sending, receiving.
  assert (E : map sg consts = wargs w) by (cbn; rewrite !H; reflexivity). rewrite E. destruct snd, timed; reflexivity.
Qed.
Lemma comm_session : forall snd timed w V S, is_session (comm_ty snd timed w V S) = is_session S.
Proof. intros snd timed w V S. destruct snd, timed; reflexivity. Qed.

Definition comm_fields (snd timed : bool) (n p q : nat) : list rty :=
  map (fun k => if comm_wrapped p q k then comm_t snd timed (RVar PT) (RVar (PS k)) else RVar (PS k)) (seq 1 (n - 1)).

Lemma comm_match : forall snd timed n p q sg F, 1 <= p <= n -> 1 <= q <= n -> p <> q ->
  (forall x, 1 <= x <= n -> x <> p -> is_session (F x) = true) ->
  map (inst sg) (comm_fields snd timed n p q) = map F (others n p) ->
  exists w s, F q = comm_ty snd timed w (sg PT) s /\ map (fun k => sg (PS k)) (seq 1 (n - 1)) = map (update F q s) (others n p).
Proof.
  intros snd timed n p q sg F Hp Hq Hne HF E.
  rewrite others_peers in E by exact Hp. unfold comm_fields in E. rewrite !map_map in E. rewrite map_seq_eq in E.
  assert (E' : forall k, 1 <= k <= n - 1 ->
    (if peer p k =? q then inst sg (comm_t snd timed (RVar PT) (RVar (PS k))) else sg (PS k)) = F (peer p k)).
  { intros k Hk. rewrite <- (E k ltac:(lia)), (wrapped_peer n p q k Hp Hq Hne Hk). destruct (peer p k =? q); reflexivity. }
  destruct (peer_onto n p q Hp Hq Hne) as (k0 & Hk0 & Ek0).
  pose proof (E' k0 Hk0) as E0. rewrite Ek0, Nat.eqb_refl in E0.
  assert (HS : is_session (F q) = true) by (apply HF; [exact Hq|auto]). rewrite <- E0 in HS.
  destruct (comm_inst _ _ _ _ _ HS) as (_ & w & Ew & _).
  exists w, (sg (PS k0)). split; [rewrite <- E0, Ew; reflexivity|].
  rewrite others_peers by exact Hp. rewrite map_map, map_seq_eq. intros k Hk. unfold update. specialize (E' k ltac:(lia)).
  destruct (Nat.eqb_spec (peer p k) q) as [Eq|Ne].
  - rewrite (peer_one p k k0); [reflexivity|congruence].
  - exact E'.
Qed.

Definition comm_sub (p q : nat) (F : nat -> rty) (V s R : rty) (w : window) (v : param) : rty :=
  match v with
  | PS k => update F q s (peer p k)
  | PRole => R
  | PT => V
  | PK i => kval w i
  | _ => end_t
  end.
Lemma comm_unmatch : forall snd timed n p q F V s R w, 1 <= p <= n -> 1 <= q <= n -> p <> q ->
  F q = comm_ty snd timed w V s ->
  map (inst (comm_sub p q F V s R w)) (comm_fields snd timed n p q) = map F (others n p) /\
  map (fun k => comm_sub p q F V s R w (PS k)) (seq 1 (n - 1)) = map (update F q s) (others n p).
Proof.
  intros snd timed n p q F V s R w Hp Hq Hne E.
  rewrite others_peers by exact Hp. unfold comm_fields. rewrite !map_map, !map_seq_eq. split; [|reflexivity].
  intros k Hk. rewrite (wrapped_peer n p q k Hp Hq Hne ltac:(lia)). destruct (Nat.eqb_spec (peer p k) q) as [Eq|Ne].
  - rewrite (inst_comm_conv _ snd timed w) by reflexivity. cbn. unfold update. rewrite Eq, Nat.eqb_refl. symmetry. exact E.
  - cbn. unfold update. destruct (Nat.eqb_spec (peer p k) q); [contradiction|reflexivity].
Qed.
Lemma sub_sessions : forall timed n p q F V s R w, 1 <= p <= n ->
  (forall x, 1 <= x <= n -> x <> p -> is_session (F x) = true) -> is_session s = true ->
  forall v, In v (map PS (seq 1 (n - 1)) ++ [PRole; PT] ++ kparams timed) -> is_role R = true ->
  ok_for v (comm_sub p q F V s R w v) = true.
Proof.
  intros timed n p q F V s R w Hp HF Hs v Hv HR. apply in_app_or in Hv as [Hv|Hv].
  - apply in_map_iff in Hv as (k & <- & Hk). apply in_seq in Hk. cbn. unfold update.
    destruct (peer p k =? q); [exact Hs|]. apply HF; [apply peer_range; lia|apply peer_neq].
  - cbn in Hv. destruct Hv as [<-|[<-|Hv]]; [exact HR|reflexivity|].
    apply (consts_ok timed w); [reflexivity|exact Hv].
Qed.

(** * The blocks, one by one *)
Inductive tag := GSend (a b : nat) | GRecv (a b : nat) | GRecvAll (a b : nat) | GOffer (a b : nat) | GChoose (a : nat) | GClose | GCancel.
Definition pairs (n : nat) : list (nat * nat) :=
  flat_map (fun a => flat_map (fun b => if negb (a =? b) then [(a, b)] else []) (seq 1 n)) (seq 1 n).
Definition tags (n : nat) : list tag :=
  map (fun x => GSend (fst x) (snd x)) (pairs n) ++ map (fun x => GRecv (fst x) (snd x)) (pairs n) ++
  map (fun x => GRecvAll (fst x) (snd x)) (pairs n) ++ map (fun x => GOffer (fst x) (snd x)) (pairs n) ++
  map GChoose (seq 1 n) ++ [GClose; GCancel].
Definition gen (timed : bool) (mesh : string) (roles : list string) (t : tag) : option impl :=
  match t with
  | GSend a b => send_impl timed mesh roles a b
  | GRecv a b => recv_impl timed mesh roles a b
  | GRecvAll a b => recv_all_impl timed mesh roles a b
  | GOffer a b => offer_impl timed mesh roles b a
  | GChoose a => choose_impl timed mesh roles a
  | GClose => Some (close_impl mesh roles)
  | GCancel => Some (cancel_impl mesh roles)
  end.

Lemma in_pairs : forall n a b, In (a, b) (pairs n) <-> 1 <= a <= n /\ 1 <= b <= n /\ a <> b.
Proof.
  intros n a b. unfold pairs. rewrite in_flat_map. split.
  - intros (a' & Ha & H). apply in_flat_map in H as (b' & Hb & H). apply in_seq in Ha, Hb.
    destruct (Nat.eqb_spec a' b'); [destruct H|]. cbn in H. destruct H as [H|[]]. injection H as -> ->. lia.
  - intros (Ha & Hb & Hne). exists a. split; [apply in_seq; lia|]. apply in_flat_map. exists b. split; [apply in_seq; lia|].
    destruct (Nat.eqb_spec a b); [contradiction|]. cbn. auto.
Qed.
Lemma NoDup_pairs : forall n, NoDup (pairs n).
Proof.
  intros n. unfold pairs. apply NoDup_flat_map; [apply seq_NoDup| |].
  - intros a _. apply NoDup_flat_map; [apply seq_NoDup| |].
    + intros b _. destruct (negb (a =? b)); repeat constructor; auto.
    + intros b b' x _ _ H H'. destruct (negb (a =? b)), (negb (a =? b')); cbn in *; intuition congruence.
  - intros a a' x _ _ H H'. apply in_flat_map in H as (b & _ & H). apply in_flat_map in H' as (b' & _ & H').
    destruct (negb (a =? b)), (negb (a' =? b')); cbn in *; intuition congruence.
Qed.
Lemma NoDup_tags : forall n, NoDup (tags n).
Proof.
  intros n. unfold tags.
  assert (M : forall (f : nat * nat -> tag), (forall x y, f x = f y -> x = y) -> NoDup (map f (pairs n))).
  { intros f Hf. apply NoDup_map_inj; [apply NoDup_pairs|]. intros x y _ _ E. exact (Hf x y E). }
  repeat apply NoDup_app_intro.
  - apply M. intros [a b] [a' b'] E. cbn in E. congruence.
  - apply M. intros [a b] [a' b'] E. cbn in E. congruence.
  - apply M. intros [a b] [a' b'] E. cbn in E. congruence.
  - apply M. intros [a b] [a' b'] E. cbn in E. congruence.
  - apply NoDup_map_inj; [apply seq_NoDup|intros x y _ _ E; congruence].
  - repeat constructor; cbn; intuition discriminate.
  - intros t Ht Ht'. apply in_map_iff in Ht as (x & <- & _). cbn in Ht'. intuition discriminate.
  - intros t Ht Ht'. apply in_map_iff in Ht as (x & <- & _). rewrite in_app_iff, in_map_iff in Ht'. cbn in Ht'.
    destruct Ht' as [(y & E & _)|Ht']; [discriminate E|intuition discriminate].
  - intros t Ht Ht'. apply in_map_iff in Ht as (x & <- & _). rewrite !in_app_iff, !in_map_iff in Ht'. cbn in Ht'.
    destruct Ht' as [(y & E & _)|[(y & E & _)|Ht']]; [discriminate E|discriminate E|intuition discriminate].
  - intros t Ht Ht'. apply in_map_iff in Ht as (x & <- & _). rewrite !in_app_iff, !in_map_iff in Ht'. cbn in Ht'.
    destruct Ht' as [(y & E & _)|[(y & E & _)|[(y & E & _)|Ht']]]; [discriminate E|discriminate E|discriminate E|intuition discriminate].
  - intros t Ht Ht'. apply in_map_iff in Ht as (x & <- & _). rewrite !in_app_iff, !in_map_iff in Ht'. cbn in Ht'.
    destruct Ht' as [(y & E & _)|[(y & E & _)|[(y & E & _)|[(y & E & _)|Ht']]]];
      [discriminate E|discriminate E|discriminate E|discriminate E|intuition discriminate].
Qed.

Lemma for_pairs_map : forall roles f, for_pairs roles f = map (fun x => f (fst x) (snd x)) (pairs (List.length roles)).
Proof.
  intros roles f. unfold for_pairs, pairs.
  assert (G : forall l l', flat_map (fun a => flat_map (fun b => if negb (a =? b) then [f a b] else []) l') l =
    map (fun x => f (fst x) (snd x)) (flat_map (fun a => flat_map (fun b => if negb (a =? b) then [(a, b)] else []) l') l)).
  { intros l l'. induction l as [|a l IH]; [reflexivity|]. cbn. rewrite map_app, IH. f_equal. clear IH.
    induction l' as [|b l' IH]; [reflexivity|]. cbn. rewrite map_app, IH. destruct (negb (a =? b)); reflexivity. }
  apply G.
Qed.
Lemma impls_tags : forall timed mesh roles, impls timed mesh roles = all_some (map (gen timed mesh roles) (tags (List.length roles))).
Proof.
  intros timed mesh roles. unfold impls. rewrite !for_pairs_map. f_equal. unfold tags. rewrite !map_app, !map_map. cbn [map]. reflexivity.
Qed.

(** Which tags there are. *)
Definition valid (n : nat) (t : tag) : Prop :=
  match t with
  | GSend a b | GRecv a b | GRecvAll a b | GOffer a b => 1 <= a <= n /\ 1 <= b <= n /\ a <> b
  | GChoose a => 1 <= a <= n
  | GClose | GCancel => True
  end.
Lemma in_tags : forall n t, In t (tags n) <-> valid n t.
Proof.
  intros n t. unfold tags. rewrite !in_app_iff, !in_map_iff. split.
  - intros [([a b] & <- & H)|[([a b] & <- & H)|[([a b] & <- & H)|[([a b] & <- & H)|[(a & <- & H)|H]]]]]; cbn;
      try (apply in_pairs in H; exact H).
    + apply in_seq in H. lia.
    + cbn in H. destruct H as [<-|[<-|[]]]; exact Logic.I.
  - destruct t as [a b|a b|a b|a b|a| |]; cbn [valid]; intros H.
    + left. exists (a, b). split; [reflexivity|apply in_pairs; exact H].
    + right. left. exists (a, b). split; [reflexivity|apply in_pairs; exact H].
    + right. right. left. exists (a, b). split; [reflexivity|apply in_pairs; exact H].
    + right. right. right. left. exists (a, b). split; [reflexivity|apply in_pairs; exact H].
    + right. right. right. right. left. exists a. split; [reflexivity|apply in_seq; lia].
    + do 5 right. cbn. auto.
    + do 5 right. cbn. auto.
Qed.

(** Blocks in closed form. *)
Lemma send_eq : forall timed mesh roles a b, let n := List.length roles in 1 <= a <= n -> 1 <= b <= n ->
  send_impl timed mesh roles a b = Some (Impl (map PS (seq 1 (n - 1)) ++ [PRole; PT] ++ kparams timed)
    (mesh_t mesh (comm_fields true timed n a b) (RApp (CRole (role_name roles b)) [RVar PRole]) (name_t (role_name roles a)))
    [(MSend, [mesh_t mesh (svars 1 (n - 1)) (RVar PRole) (name_t (role_name roles a))])]).
Proof. intros timed mesh roles a b n Ha Hb. unfold send_impl. rewrite !role_at_name by assumption. reflexivity. Qed.
Lemma recv_eq : forall timed mesh roles a b, let n := List.length roles in 1 <= a <= n -> 1 <= b <= n ->
  recv_impl timed mesh roles a b = Some (Impl (map PS (seq 1 (n - 1)) ++ [PRole; PT] ++ kparams timed)
    (mesh_t mesh (comm_fields false timed n a b) (RApp (CRole (role_name roles b)) [RVar PRole]) (name_t (role_name roles a)))
    [(MRecv, [RVar PT; mesh_t mesh (svars 1 (n - 1)) (RVar PRole) (name_t (role_name roles a))])]).
Proof. intros timed mesh roles a b n Ha Hb. unfold recv_impl. rewrite !role_at_name by assumption. reflexivity. Qed.
Lemma recv_all_eq : forall timed mesh roles a b, let n := List.length roles in 1 <= a <= n -> 1 <= b <= n ->
  recv_all_impl timed mesh roles a b = Some (Impl (map PS (seq 1 (n - 1)) ++ [PT] ++ kparams timed)
    (mesh_t mesh (comm_fields false timed n a b) (RApp (CAllTo (role_name roles b)) [role_end_t; role_end_t]) (name_t (role_name roles a)))
    [(MRecvAll, [RVar PT; mesh_t mesh (svars 1 (n - 1)) role_end_t (name_t (role_name roles a))])]).
Proof. intros timed mesh roles a b n Ha Hb. unfold recv_all_impl. rewrite !role_at_name by assumption. reflexivity. Qed.
Definition offer_left (mesh : string) (roles : list string) (a : nat) : rty :=
  mesh_t mesh (svars 1 (List.length roles - 1)) (RVar (PR 1)) (name_t (role_name roles a)).
Definition offer_right (mesh : string) (roles : list string) (a : nat) : rty :=
  mesh_t mesh (svars (List.length roles) (2 * List.length roles - 1 - List.length roles)) (RVar (PR 2)) (name_t (role_name roles a)).
Definition offer_fields (timed : bool) (mesh : string) (roles : list string) (a b : nat) : list rty :=
  map (fun k => if comm_wrapped a b k then recv_t timed (RApp CEither [offer_left mesh roles a; offer_right mesh roles a]) end_t else end_t)
      (seq 1 (List.length roles - 1)).
Lemma offer_eq : forall timed mesh roles a b, let n := List.length roles in 1 <= a <= n -> 1 <= b <= n ->
  offer_impl timed mesh roles b a = Some (Impl (map PS (seq 1 (2 * n - 1 - 1)) ++ [PR 1; PR 2] ++ kparams timed)
    (mesh_t mesh (offer_fields timed mesh roles a b) (RApp (CAllTo (role_name roles b)) [role_end_t; role_end_t]) (name_t (role_name roles a)))
    [(MOffer, [offer_left mesh roles a; offer_right mesh roles a])]).
Proof. intros timed mesh roles a b n Ha Hb. unfold offer_impl. rewrite !role_at_name by assumption. reflexivity. Qed.

(** The field of the choice for receiver j, and the whole block. *)
Definition choice_field (timed : bool) (mesh : string) (roles : list string) (s j : nat) : rty :=
  let n := List.length roles in
  send_t timed (RApp CEither
    [mesh_t mesh (map (session_of 0) (mesh_of (b_choice s) n j)) (RVar (PR (bchoose_stack_decl s j))) (name_t (role_name roles j));
     mesh_t mesh (map (session_of (tri n)) (mesh_of (b_choice s) n j)) (RVar (PR (bchoose_stack_decl s j + 1))) (name_t (role_name roles j))]) end_t.
Lemma choose_eq : forall timed mesh roles s, let n := List.length roles in 1 <= s <= n ->
  choose_impl timed mesh roles s = Some (Impl (map PS (seq 1 ((n - 1) * n)) ++ map PR (seq 1 (2 * n)) ++ kparams timed)
    (mesh_t mesh (map (choice_field timed mesh roles s) (others n s))
       (RApp (CToAll (role_name roles s)) [RVar (PR (2 * n - 1)); RVar (PR (2 * n))]) (name_t (role_name roles s)))
    [(MChooseLeft, [mesh_t mesh (map (session_of 0) (mesh_of (b_choice s) n s)) (RVar (PR (2 * n - 1))) (name_t (role_name roles s))]);
     (MChooseRight, [mesh_t mesh (map (session_of (tri n)) (mesh_of (b_choice s) n s)) (RVar (PR (2 * n))) (name_t (role_name roles s))])]).
Proof.
  intros timed mesh roles s n Hs. unfold choose_impl. fold n. rewrite role_at_name by exact Hs.
  rewrite (bchoose_sender_decl_spec n s Hs).
  replace (filter (fun j => negb (s =? j)) (seq 1 n)) with (others n s)
    by (unfold others; apply filter_ext; intros q; rewrite (Nat.eqb_sym s q); reflexivity).
  assert (E : all_some (map (choose_field timed mesh roles s) (others n s)) = Some (map (choice_field timed mesh roles s) (others n s))).
  { apply all_some_map. intros j Hj. unfold others in Hj. apply filter_In in Hj as [Hj Hne]. apply in_seq in Hj.
    apply negb_true_iff, Nat.eqb_neq in Hne. unfold choose_field. fold n.
    rewrite (bchoose_receiver_decl_spec n s j Hs ltac:(lia) Hne), role_at_name by (fold n; lia).
    unfold choice_field. fold n. replace (if s <? j then 2 * (j - 1) else 2 * (j - 1) + 2) with (bchoose_stack_decl s j + 1); [reflexivity|].
    unfold bchoose_stack_decl. destruct (Nat.ltb_spec s j); lia. }
  rewrite E. reflexivity.
Qed.
Lemma gen_some : forall timed mesh roles t, valid (List.length roles) t -> gen timed mesh roles t <> None.
Proof.
  intros timed mesh roles t H. destruct t as [a b|a b|a b|a b|a| |]; cbn in *.
  - rewrite send_eq by lia. discriminate.
  - rewrite recv_eq by lia. discriminate.
  - rewrite recv_all_eq by lia. discriminate.
  - rewrite offer_eq by lia. discriminate.
  - rewrite choose_eq by lia. discriminate.
  - discriminate.
  - discriminate.
Qed.
Lemma impls_some : forall timed mesh roles, exists l, impls timed mesh roles = Some l.
Proof.
  intros timed mesh roles. rewrite impls_tags. apply all_some_total. intros o Ho. apply in_map_iff in Ho as (t & <- & Ht).
  apply gen_some, in_tags. exact Ht.
Qed.
Lemma impls_nth : forall timed mesh roles l a, impls timed mesh roles = Some l ->
  option_map Some (nth_error l a) = option_map (gen timed mesh roles) (nth_error (tags (List.length roles)) a).
Proof.
  intros timed mesh roles l a E. rewrite impls_tags in E. rewrite <- (all_some_nth _ _ _ E a). apply nth_error_map.
Qed.
Lemma in_impls : forall timed mesh roles l im, impls timed mesh roles = Some l ->
  (In im l <-> exists t, valid (List.length roles) t /\ gen timed mesh roles t = Some im).
Proof.
  intros timed mesh roles l im E. split.
  - intros H. apply In_nth_error in H as [a Ha]. pose proof (impls_nth _ _ _ _ a E) as X. rewrite Ha in X. cbn in X.
    destruct (nth_error (tags (List.length roles)) a) as [t|] eqn:Et; [|discriminate]. cbn in X. injection X as X.
    exists t. split; [apply in_tags; exact (nth_error_In _ _ Et)|auto].
  - intros (t & Ht & Eg). apply in_tags in Ht. apply In_nth_error in Ht as [a Ha].
    pose proof (impls_nth _ _ _ _ a E) as X. rewrite Ha in X. cbn in X. rewrite Eg in X.
    destruct (nth_error l a) as [im'|] eqn:El; [|discriminate]. cbn in X. injection X as ->. exact (nth_error_In _ _ El).
Qed.

(** * What the compiler asks of a block *)
Lemma vars_comm : forall snd timed p s v, In v (vars (comm_t snd timed p s)) <-> In v (vars p) \/ In v (kparams timed) \/ In v (vars s).
Proof.
  intros snd timed p s v. unfold comm_t, send_t, recv_t, kparams.
  destruct snd, timed; cbn [vars flat_map]; rewrite ?in_app_iff; cbn [consts map seq flat_map vars app In]; rewrite ?in_app_iff; cbn [In]; tauto.
Qed.
Lemma fixed_comm : forall snd timed p s v, In v (fixed (comm_t snd timed p s)) <-> In v (fixed p) \/ In v (kparams timed) \/ In v (fixed s).
Proof.
  intros snd timed p s v. unfold comm_t, send_t, recv_t, kparams.
  destruct snd, timed; cbn [fixed flat_map]; rewrite ?in_app_iff; cbn [consts map seq flat_map fixed app In]; rewrite ?in_app_iff; cbn [In]; tauto.
Qed.
Lemma vars_mesh : forall m f s x v, In v (vars (mesh_t m f s x)) <-> (exists t, In t f /\ In v (vars t)) \/ In v (vars s) \/ In v (vars x).
Proof.
  intros. unfold mesh_t. cbn [vars]. rewrite flat_map_app, in_app_iff, in_flat_map. cbn [flat_map]. rewrite !in_app_iff. cbn [In]. tauto.
Qed.
Lemma fixed_mesh : forall m f s x v, In v (fixed (mesh_t m f s x)) <-> (exists t, In t f /\ In v (fixed t)) \/ In v (fixed s) \/ In v (fixed x).
Proof.
  intros. unfold mesh_t. cbn [fixed]. rewrite flat_map_app, in_app_iff, in_flat_map. cbn [flat_map]. rewrite !in_app_iff. cbn [In]. tauto.
Qed.
Lemma vars_svars : forall a len t v, In t (svars a len) -> In v (vars t) -> In v (map PS (seq a len)).
Proof. intros a len t v Ht Hv. unfold svars in Ht. apply in_map_iff in Ht as (k & <- & Hk). cbn in Hv. destruct Hv as [<-|[]]. apply in_map. exact Hk. Qed.
Lemma NoDup_kparams : forall timed, NoDup (kparams timed).
Proof. intros []; cbn; repeat constructor; cbn; intuition discriminate. Qed.
Lemma kparams_K : forall timed v, In v (kparams timed) -> exists i, v = PK i.
Proof. intros timed v H. destruct timed; [|destruct H]. unfold kparams, consts in H. apply in_map_iff in H as (i & <- & _). eauto. Qed.
Lemma NoDup_params : forall a len rest timed, NoDup rest -> (forall v, In v rest -> match v with PS _ | PK _ => False | _ => True end) ->
  NoDup (map PS (seq a len) ++ rest ++ kparams timed).
Proof.
  intros a len rest timed Hr Hn. apply NoDup_app_intro; [|apply NoDup_app_intro|].
  - apply NoDup_map_inj; [apply seq_NoDup|congruence].
  - exact Hr.
  - apply NoDup_kparams.
  - intros v Hv Hk. apply kparams_K in Hk as [i ->]. exact (Hn _ Hv).
  - intros v Hv H. apply in_map_iff in Hv as (k & <- & _). apply in_app_or in H as [H|H]; [exact (Hn _ H)|].
    apply kparams_K in H as [i E]. discriminate E.
Qed.

Lemma comm_fields_vars : forall snd timed n p q t v, In t (comm_fields snd timed n p q) -> In v (vars t) ->
  In v (map PS (seq 1 (n - 1))) \/ v = PT \/ In v (kparams timed).
Proof.
  intros snd timed n p q t v Ht Hv. unfold comm_fields in Ht. apply in_map_iff in Ht as (k & <- & Hk).
  destruct (comm_wrapped p q k).
  - apply vars_comm in Hv as [Hv|[Hv|Hv]]; [|auto|].
    + cbn in Hv. destruct Hv as [<-|[]]. auto.
    + cbn in Hv. destruct Hv as [<-|[]]. left. apply in_map. exact Hk.
  - cbn in Hv. destruct Hv as [<-|[]]. left. apply in_map. exact Hk.
Qed.
Lemma comm_fields_fixed : forall snd timed n p q v, 1 <= p <= n -> 1 <= q <= n -> p <> q ->
  In v (map PS (seq 1 (n - 1))) \/ v = PT \/ In v (kparams timed) -> exists t, In t (comm_fields snd timed n p q) /\ In v (fixed t).
Proof.
  intros snd timed n p q v Hp Hq Hne H.
  assert (HW : v = PT \/ In v (kparams timed) -> exists t, In t (comm_fields snd timed n p q) /\ In v (fixed t)).
  { intros Hv. destruct (peer_onto n p q Hp Hq Hne) as (k & Hk & Ek).
    exists (comm_t snd timed (RVar PT) (RVar (PS k))). split.
    - unfold comm_fields. apply in_map_iff. exists k. split; [|apply in_seq; lia].
      rewrite (wrapped_peer n p q k Hp Hq Hne Hk), Ek, Nat.eqb_refl. reflexivity.
    - apply fixed_comm. destruct Hv as [-> |Hv]; [left; cbn; auto|auto]. }
  destruct H as [H|H]; [|exact (HW H)].
  apply in_map_iff in H as (k & <- & Hk).
  exists (if comm_wrapped p q k then comm_t snd timed (RVar PT) (RVar (PS k)) else RVar (PS k)). split.
  - unfold comm_fields. apply in_map_iff. exists k. split; [reflexivity|exact Hk].
  - destruct (comm_wrapped p q k); [apply fixed_comm; right; right|]; cbn; auto.
Qed.

Lemma two_tri : forall n, 1 <= n -> tri n + tri n = (n - 1) * n.
Proof.
  intros n Hn. unfold tri. replace (n - 1 + 1) with n by lia.
  assert (E : exists c, (n - 1) * n = c * 2).
  { destruct n as [|n]; [lia|]. clear Hn. cbn [Nat.sub]. rewrite Nat.sub_0_r. induction n as [|n [c IH]]; [exists 0; reflexivity|]. exists (c + S n). nia. }
  destruct E as [c ->]. rewrite Nat.div_mul by lia. lia.
Qed.
Lemma end_of_range : forall b n i p, 1 <= i <= n -> 1 <= p <= n -> i <> p -> 1 <= fst (end_of b n i p) <= tri n.
Proof. intros b n i p Hi Hp Hne. unfold end_of. cbn [fst]. apply idx_range; lia. Qed.
Lemma vars_sessions : forall add b n j t v, 1 <= j <= n -> In t (map (session_of add) (mesh_of b n j)) -> In v (vars t) ->
  exists m, v = PS m /\ add + 1 <= m <= add + tri n.
Proof.
  intros add b n j t v Hj Ht Hv. apply in_map_iff in Ht as (e & <- & He). unfold mesh_of in He.
  apply in_map_iff in He as (k & <- & Hk). apply in_seq in Hk.
  exists (add + fst (end_of b n j (peer j k))).
  split; [unfold session_of in Hv; destruct (snd (end_of b n j (peer j k))); cbn in Hv; destruct Hv as [<-|[]]; reflexivity|].
  pose proof (end_of_range b n j (peer j k) Hj (peer_range n j k Hj ltac:(lia)) (not_eq_sym (peer_neq j k))). lia.
Qed.
Lemma stack_decl_range : forall n s j, 1 <= s <= n -> 1 <= j <= n -> j <> s -> 1 <= bchoose_stack_decl s j /\ bchoose_stack_decl s j + 1 <= 2 * (n - 1).
Proof. intros n s j Hs Hj Hne. unfold bchoose_stack_decl. destruct (Nat.ltb_spec s j); lia. Qed.
Lemma in_others : forall n p q, In q (others n p) <-> 1 <= q <= n /\ q <> p.
Proof.
  intros n p q. unfold others. rewrite filter_In, in_seq. destruct (Nat.eqb_spec q p); cbn; split; intros H; intuition (try lia; try discriminate).
Qed.

Lemma some_inj : forall (A : Type) (x y : A), Some x = Some y -> x = y.
Proof. congruence. Qed.
Lemma gen_compiles : forall timed mesh roles t im, 2 <= List.length roles -> valid (List.length roles) t -> gen timed mesh roles t = Some im ->
  compiles im.
Proof.
  intros timed mesh roles t im Hn Ht E. set (n := List.length roles) in *. destruct t as [a b|a b|a b|a b|s| |]; cbn [gen valid] in *.
  - rewrite send_eq in E by (fold n; lia). apply some_inj in E. subst im. fold n. split; [|split; [|split]]; cbn [i_params i_self i_methods].
    + apply (NoDup_params 1 (n - 1) [PRole; PT]); [repeat constructor; cbn; intuition discriminate|intros v [<-|[<-|[]]]; exact Logic.I].
    + intros v Hv. apply vars_mesh in Hv as [(t & Ht' & Hv)|[Hv|[]]].
      * destruct (comm_fields_vars _ _ _ _ _ _ _ Ht' Hv) as [H|[-> |H]]; rewrite !in_app_iff; cbn; auto 6.
      * cbn in Hv. destruct Hv as [<-|[]]. rewrite !in_app_iff. cbn. auto.
    + intros v Hv. apply fixed_mesh. rewrite !in_app_iff in Hv.
      assert (C : v = PRole \/ (In v (map PS (seq 1 (n - 1))) \/ v = PT \/ In v (kparams timed))) by (cbn in Hv; intuition).
      destruct C as [-> |C]; [right; left; cbn; auto|left; apply comm_fields_fixed; [lia|lia|tauto|exact C]].
    + intros m outs t [E|[]] Ht'. injection E as <- <-. destruct Ht' as [<-|[]].
      intros v Hv. apply vars_mesh in Hv as [(t & Ht' & Hv)|[Hv|[]]].
      * apply in_or_app. left. exact (vars_svars _ _ _ _ Ht' Hv).
      * cbn in Hv. destruct Hv as [<-|[]]. rewrite !in_app_iff. cbn. auto.
  - rewrite recv_eq in E by (fold n; lia). apply some_inj in E. subst im. fold n. split; [|split; [|split]]; cbn [i_params i_self i_methods].
    + apply (NoDup_params 1 (n - 1) [PRole; PT]); [repeat constructor; cbn; intuition discriminate|intros v [<-|[<-|[]]]; exact Logic.I].
    + intros v Hv. apply vars_mesh in Hv as [(t & Ht' & Hv)|[Hv|[]]].
      * destruct (comm_fields_vars _ _ _ _ _ _ _ Ht' Hv) as [H|[-> |H]]; rewrite !in_app_iff; cbn; auto 6.
      * cbn in Hv. destruct Hv as [<-|[]]. rewrite !in_app_iff. cbn. auto.
    + intros v Hv. apply fixed_mesh. rewrite !in_app_iff in Hv.
      assert (C : v = PRole \/ (In v (map PS (seq 1 (n - 1))) \/ v = PT \/ In v (kparams timed))) by (cbn in Hv; intuition).
      destruct C as [-> |C]; [right; left; cbn; auto|left; apply comm_fields_fixed; [lia|lia|tauto|exact C]].
    + intros m outs t [E|[]] Ht'. injection E as <- <-. destruct Ht' as [<-|[<-|[]]].
      * intros v [<-|[]]. rewrite !in_app_iff. cbn. auto.
      * intros v Hv. apply vars_mesh in Hv as [(t & Ht' & Hv)|[Hv|[]]].
        -- apply in_or_app. left. exact (vars_svars _ _ _ _ Ht' Hv).
        -- cbn in Hv. destruct Hv as [<-|[]]. rewrite !in_app_iff. cbn. auto.
  - rewrite recv_all_eq in E by (fold n; lia). apply some_inj in E. subst im. fold n. split; [|split; [|split]]; cbn [i_params i_self i_methods].
    + apply (NoDup_params 1 (n - 1) [PT]); [repeat constructor; cbn; intuition discriminate|intros v [<-|[]]; exact Logic.I].
    + intros v Hv. apply vars_mesh in Hv as [(t & Ht' & Hv)|[Hv|[]]].
      * destruct (comm_fields_vars _ _ _ _ _ _ _ Ht' Hv) as [H|[-> |H]]; rewrite !in_app_iff; cbn; auto 6.
      * cbn in Hv. destruct Hv.
    + intros v Hv. apply fixed_mesh. rewrite !in_app_iff in Hv.
      left; apply comm_fields_fixed; [lia|lia|tauto|]. cbn in Hv; intuition.
    + intros m outs t [E|[]] Ht'. injection E as <- <-. destruct Ht' as [<-|[<-|[]]].
      * intros v [<-|[]]. rewrite !in_app_iff. cbn. auto.
      * intros v Hv. apply vars_mesh in Hv as [(t & Ht' & Hv)|[Hv|[]]].
        -- apply in_or_app. left. exact (vars_svars _ _ _ _ Ht' Hv).
        -- cbn in Hv. destruct Hv.
  - rewrite offer_eq in E by (fold n; lia). apply some_inj in E. subst im. fold n.
    assert (HL : forall v, In v (vars (offer_left mesh roles a)) -> In v (map PS (seq 1 (n - 1))) \/ v = PR 1).
    { intros v Hv. unfold offer_left in Hv. fold n in Hv. apply vars_mesh in Hv as [(t & Ht' & Hv)|[Hv|[]]].
      - left. exact (vars_svars _ _ _ _ Ht' Hv).
      - cbn in Hv. destruct Hv as [<-|[]]. auto. }
    assert (HR : forall v, In v (vars (offer_right mesh roles a)) -> In v (map PS (seq n (n - 1))) \/ v = PR 2).
    { intros v Hv. unfold offer_right in Hv. fold n in Hv. replace (2 * n - 1 - n) with (n - 1) in Hv by lia.
      apply vars_mesh in Hv as [(t & Ht' & Hv)|[Hv|[]]].
      - left. exact (vars_svars _ _ _ _ Ht' Hv).
      - cbn in Hv. destruct Hv as [<-|[]]. auto. }
    assert (HP : seq 1 (2 * n - 1 - 1) = seq 1 (n - 1) ++ seq n (n - 1)).
    { replace (2 * n - 1 - 1) with ((n - 1) + (n - 1)) by lia. rewrite seq_app. replace (1 + (n - 1)) with n by lia. reflexivity. }
    split; [|split; [|split]]; cbn [i_params i_self i_methods].
    + apply (NoDup_params 1 (2 * n - 1 - 1) [PR 1; PR 2]); [repeat constructor; cbn; intuition discriminate|intros v [<-|[<-|[]]]; exact Logic.I].
    + intros v Hv. rewrite HP, map_app, !in_app_iff. apply vars_mesh in Hv as [(t & Ht' & Hv)|[[]|[]]].
      unfold offer_fields in Ht'. apply in_map_iff in Ht' as (k & <- & Hk). destruct (comm_wrapped a b k); [|destruct Hv].
      change (recv_t timed) with (comm_t false timed) in Hv. apply vars_comm in Hv as [Hv|[Hv|[]]]; [|auto].
      cbn [vars flat_map] in Hv. rewrite !in_app_iff in Hv. destruct Hv as [Hv|[Hv|[]]].
      * destruct (HL v Hv) as [H| ->]; cbn; auto 6.
      * destruct (HR v Hv) as [H| ->]; cbn; auto 7.
    + intros v Hv. apply fixed_mesh. left. destruct (peer_onto n a b ltac:(lia) ltac:(lia) ltac:(tauto)) as (k & Hk & Ek).
      exists (comm_t false timed (RApp CEither [offer_left mesh roles a; offer_right mesh roles a]) end_t). split.
      * unfold offer_fields. fold n. apply in_map_iff. exists k. split; [|apply in_seq; lia].
        rewrite (wrapped_peer n a b k ltac:(lia) ltac:(lia) ltac:(tauto) Hk), Ek, Nat.eqb_refl. reflexivity.
      * apply fixed_comm. rewrite HP, map_app, !in_app_iff in Hv. cbn [fixed flat_map]. rewrite !in_app_iff.
        destruct Hv as [[Hv|Hv]|[Hv|Hv]]; [| | |auto].
        -- left. left. apply fixed_mesh. left. apply in_map_iff in Hv as (i & <- & Hi). exists (RVar (PS i)).
           split; [unfold svars; apply in_map_iff; exists i; split; [reflexivity|exact Hi]|cbn; auto].
        -- left. right. left. apply fixed_mesh. left. apply in_map_iff in Hv as (i & <- & Hi). exists (RVar (PS i)).
           split; [unfold svars; apply in_map_iff; exists i; split; [reflexivity|]|cbn; auto]. fold n. replace (2 * n - 1 - n) with (n - 1) by lia. exact Hi.
        -- destruct Hv as [<-|[<-|[]]]; left; [left|right; left]; apply fixed_mesh; right; left; cbn; auto.
    + intros m outs t [E|[]] Ht'. injection E as <- <-. intros v Hv. rewrite HP, map_app, !in_app_iff.
      destruct Ht' as [<-|[<-|[]]].
      * destruct (HL v Hv) as [H| ->]; cbn; auto 6.
      * destruct (HR v Hv) as [H| ->]; cbn; auto 7.
  - rewrite choose_eq in E by (fold n; lia). apply some_inj in E. subst im. fold n. pose proof (two_tri n ltac:(lia)) as H2.
    assert (HPS : forall m, 1 <= m <= tri n + tri n -> In (PS m) (map PS (seq 1 ((n - 1) * n)))) by (intros m Hm; apply in_map, in_seq; lia).
    assert (HPR : forall m, 1 <= m <= 2 * n -> In (PR m) (map PR (seq 1 (2 * n)))) by (intros m Hm; apply in_map, in_seq; lia).
    split; [|split; [|split]]; cbn [i_params i_self i_methods].
    + apply (NoDup_params 1 ((n - 1) * n) (map PR (seq 1 (2 * n)))).
      * apply NoDup_map_inj; [apply seq_NoDup|congruence].
      * intros v Hv. apply in_map_iff in Hv as (k & <- & _). exact Logic.I.
    + intros v Hv. rewrite !in_app_iff. apply vars_mesh in Hv as [(t & Ht' & Hv)|[Hv|[]]].
      * apply in_map_iff in Ht' as (j & <- & Hj). apply in_others in Hj as [Hj Hne]. unfold choice_field in Hv. fold n in Hv.
        change (send_t timed) with (comm_t true timed) in Hv. apply vars_comm in Hv as [Hv|[Hv|[]]]; [|auto].
        pose proof (stack_decl_range n s j ltac:(lia) Hj Hne) as HD.
        cbn [vars flat_map] in Hv. rewrite !in_app_iff in Hv. destruct Hv as [Hv|[Hv|[]]];
          apply vars_mesh in Hv as [(t & Ht' & Hv)|[Hv|[]]].
        -- destruct (vars_sessions _ _ _ _ _ _ Hj Ht' Hv) as (m & -> & Hm). left. apply HPS. lia.
        -- cbn in Hv. destruct Hv as [<-|[]]. right. left. apply HPR. lia.
        -- destruct (vars_sessions _ _ _ _ _ _ Hj Ht' Hv) as (m & -> & Hm). left. apply HPS. lia.
        -- cbn in Hv. destruct Hv as [<-|[]]. right. left. apply HPR. lia.
      * cbn [vars flat_map] in Hv. rewrite !in_app_iff in Hv. cbn in Hv. destruct Hv as [[<-|[]]|[[<-|[]]|[]]]; right; left; apply HPR; lia.
    + intros v Hv. apply fixed_mesh. rewrite !in_app_iff in Hv.
      assert (HF : forall j v, 1 <= j <= n -> j <> s ->
        In v (fixed (RApp CEither
         [mesh_t mesh (map (session_of 0) (mesh_of (b_choice s) n j)) (RVar (PR (bchoose_stack_decl s j))) (name_t (role_name roles j));
          mesh_t mesh (map (session_of (tri n)) (mesh_of (b_choice s) n j)) (RVar (PR (bchoose_stack_decl s j + 1))) (name_t (role_name roles j))])) \/
        In v (kparams timed) ->
        exists t, In t (map (choice_field timed mesh roles s) (others n s)) /\ In v (fixed t)).
      { intros j v' Hj Hne H. exists (choice_field timed mesh roles s j). split; [apply in_map, in_others; auto|].
        unfold choice_field. fold n. change (send_t timed) with (comm_t true timed). apply fixed_comm. tauto. }
      assert (HSS : forall add m, 1 <= m <= tri n -> exists j, 1 <= j <= n /\ j <> s /\
                exists t, In t (map (session_of add) (mesh_of (b_choice s) n j)) /\ In (PS (add + m)) (fixed t)).
      { intros add m Hm. destruct (idx_surj n m Hm) as (l & c & H1 & H3 & H4 & Em).
        assert (K : forall j p, 1 <= j <= n -> 1 <= p <= n -> j <> p -> j <> s -> b_choice s j p = true -> idx n (min j p) (max j p) = m ->
          exists t, In t (map (session_of add) (mesh_of (b_choice s) n j)) /\ In (PS (add + m)) (fixed t)).
        { intros j p Hj Hp Hjp Hjs Hb Ei. destruct (peer_onto n j p Hj Hp Hjp) as (k & Hk & Ek).
          exists (session_of add (end_of (b_choice s) n j p)). split.
          - apply in_map. unfold mesh_of. apply in_map_iff. exists k. split; [rewrite Ek; reflexivity|apply in_seq; lia].
          - unfold session_of, end_of. cbn [fst snd]. rewrite Hb, Ei. cbn. auto. }
        destruct (Nat.eq_dec l s) as [->|Hl].
        - exists c. split; [lia|]. split; [lia|]. apply (K c s); try lia.
          + unfold b_choice. destruct (Nat.eqb_spec c s); [lia|]. rewrite Nat.eqb_refl. reflexivity.
          + rewrite Nat.min_r, Nat.max_l by lia. exact Em.
        - exists l. split; [lia|]. split; [exact Hl|]. apply (K l c); try lia.
          + unfold b_choice. destruct (Nat.eqb_spec l s); [lia|]. destruct (c =? s); [reflexivity|]. apply Nat.ltb_lt. exact H3.
          + rewrite Nat.min_l, Nat.max_r by lia. exact Em. }
      destruct Hv as [Hv|[Hv|Hv]].
      * left. apply in_map_iff in Hv as (m & <- & Hm). apply in_seq in Hm.
        destruct (Nat.le_gt_cases m (tri n)) as [Hle|Hgt].
        -- destruct (HSS 0 m ltac:(lia)) as (j & Hj & Hne & t & Ht' & Hin). apply (HF j _ Hj Hne). left.
           cbn [fixed flat_map]. rewrite !in_app_iff. left. apply fixed_mesh. left. exists t. split; [exact Ht'|exact Hin].
        -- destruct (HSS (tri n) (m - tri n) ltac:(lia)) as (j & Hj & Hne & t & Ht' & Hin). apply (HF j _ Hj Hne). left.
           cbn [fixed flat_map]. rewrite !in_app_iff. right. left. apply fixed_mesh. left. exists t. split; [exact Ht'|].
           replace (tri n + (m - tri n)) with m in Hin by lia. exact Hin.
      * apply in_map_iff in Hv as (m & <- & Hm). apply in_seq in Hm.
        destruct (Nat.le_gt_cases m (2 * (n - 1))) as [Hle|Hgt].
        -- left. set (x := (m + 1) / 2). assert (Hx : m = 2 * x - 1 \/ m = 2 * x).
           { unfold x. pose proof (Nat.div_mod (m + 1) 2 ltac:(lia)). pose proof (Nat.mod_upper_bound (m + 1) 2 ltac:(lia)). lia. }
           clearbody x. assert (Hx1 : 1 <= x <= n - 1) by lia.
           pose proof (peer_range n s x ltac:(lia) ltac:(lia)) as Hj. pose proof (peer_neq s x) as Hne.
           assert (HD : bchoose_stack_decl s (peer s x) = 2 * x - 1).
           { unfold bchoose_stack_decl, peer. destruct (Nat.ltb_spec x s); [destruct (Nat.ltb_spec s x); lia|destruct (Nat.ltb_spec s (S x)); lia]. }
           apply (HF _ _ Hj Hne). left. cbn [fixed flat_map]. rewrite !in_app_iff. rewrite HD.
           destruct Hx as [Hx|Hx].
           ++ left. apply fixed_mesh. right. left. cbn [fixed In]. left. f_equal. lia.
           ++ right. left. apply fixed_mesh. right. left. cbn [fixed In]. left. f_equal. lia.
        -- right. left. cbn [fixed flat_map app In]. assert (m = 2 * n - 1 \/ m = 2 * n) as [-> | ->] by lia; auto.
      * left. pose proof (peer_range n s 1 ltac:(lia) ltac:(lia)) as Hj. pose proof (peer_neq s 1) as Hne.
        apply (HF _ _ Hj Hne). auto.
    + intros m outs t Hm Ht' v Hv. rewrite !in_app_iff. destruct Hm as [E|[E|[]]]; injection E as <- <-; destruct Ht' as [<-|[]];
        apply vars_mesh in Hv as [(t & Ht' & Hv)|[Hv|[]]].
      * destruct (vars_sessions _ _ _ _ _ _ Ht Ht' Hv) as (m & -> & Hm). left. apply HPS. lia.
      * cbn [vars In] in Hv. destruct Hv as [<-|[]]. right. left. apply HPR. lia.
      * destruct (vars_sessions _ _ _ _ _ _ Ht Ht' Hv) as (m & -> & Hm). left. apply HPS. lia.
      * cbn [vars In] in Hv. destruct Hv as [<-|[]]. right. left. apply HPR. lia.
  - apply some_inj in E. subst im. split; [|split; [|split]]; cbn [close_impl i_params i_self i_methods].
    + repeat constructor. intros [].
    + intros v Hv. apply vars_mesh in Hv as [(t & Ht' & Hv)|[[]|Hv]]; [|exact Hv].
      apply in_map_iff in Ht' as (k & <- & _). destruct Hv.
    + intros v Hv. apply fixed_mesh. right. right. exact Hv.
    + intros m outs t [E|[]] Ht'. injection E as <- <-. destruct Ht'.
  - apply some_inj in E. subst im. fold n. split; [|split; [|split]]; unfold cancel_impl; cbn [i_params i_self i_methods]; fold n.
    + apply (NoDup_params 1 (n - 1) [PRole; PName] false); [repeat constructor; cbn; intuition discriminate|intros v [<-|[<-|[]]]; exact Logic.I].
    + intros v Hv. rewrite in_app_iff. apply vars_mesh in Hv as [(t & Ht' & Hv)|[Hv|Hv]].
      * left. exact (vars_svars _ _ _ _ Ht' Hv).
      * cbn in Hv. destruct Hv as [<-|[]]. cbn. auto.
      * cbn in Hv. destruct Hv as [<-|[]]. cbn. auto.
    + intros v Hv. apply fixed_mesh. rewrite in_app_iff in Hv. destruct Hv as [Hv|[<-|[<-|[]]]]; [|right; left; cbn; auto|right; right; cbn; auto].
      left. apply in_map_iff in Hv as (k & <- & Hk). exists (RVar (PS k)). split; [unfold svars; apply in_map_iff; eauto|cbn; auto].
    + intros m outs t [E|[]] Ht'. injection E as <- <-. destruct Ht'.
Qed.

(** * Blocks of the same method differ in their self types *)
Definition shape (roles : list string) (t : tag) (m : meth) (st x : rty) : Prop :=
  match t with
  | GSend a b => m = MSend /\ (exists r, st = RApp (CRole (role_name roles b)) r) /\ x = name_t (role_name roles a)
  | GRecv a b => m = MRecv /\ (exists r, st = RApp (CRole (role_name roles b)) r) /\ x = name_t (role_name roles a)
  | GRecvAll a b => m = MRecvAll /\ st = RApp (CAllTo (role_name roles b)) [role_end_t; role_end_t] /\ x = name_t (role_name roles a)
  | GOffer a b => m = MOffer /\ st = RApp (CAllTo (role_name roles b)) [role_end_t; role_end_t] /\ x = name_t (role_name roles a)
  | GChoose a => (m = MChooseLeft \/ m = MChooseRight) /\ (exists r, st = RApp (CToAll (role_name roles a)) r) /\ x = name_t (role_name roles a)
  | GClose => m = MClose
  | GCancel => m = MCancel
  end.
Lemma gen_shape : forall timed mesh roles t im m outs sg T, valid (List.length roles) t -> gen timed mesh roles t = Some im ->
  In (m, outs) (i_methods im) -> fits im sg T -> exists f st x, T = mesh_t mesh f st x /\ shape roles t m st x.
Proof.
  intros timed mesh roles t im m outs sg T Ht E Hm [_ <-]. destruct t as [a b|a b|a b|a b|s| |]; cbn [gen valid] in *.
  - rewrite send_eq in E by lia. apply some_inj in E. subst im. cbn [i_methods i_self] in *. rewrite inst_mesh. destruct Hm as [Hm|[]].
    apply pair_equal_spec in Hm as [<- <-]. eexists _, _, _. split; [reflexivity|]. cbn. eauto.
  - rewrite recv_eq in E by lia. apply some_inj in E. subst im. cbn [i_methods i_self] in *. rewrite inst_mesh. destruct Hm as [Hm|[]].
    apply pair_equal_spec in Hm as [<- <-]. eexists _, _, _. split; [reflexivity|]. cbn. eauto.
  - rewrite recv_all_eq in E by lia. apply some_inj in E. subst im. cbn [i_methods i_self] in *. rewrite inst_mesh. destruct Hm as [Hm|[]].
    apply pair_equal_spec in Hm as [<- <-]. eexists _, _, _. split; [reflexivity|]. cbn. eauto.
  - rewrite offer_eq in E by lia. apply some_inj in E. subst im. cbn [i_methods i_self] in *. rewrite inst_mesh. destruct Hm as [Hm|[]].
    apply pair_equal_spec in Hm as [<- <-]. eexists _, _, _. split; [reflexivity|]. cbn. eauto.
  - rewrite choose_eq in E by lia. apply some_inj in E. subst im. cbn [i_methods i_self] in *. rewrite inst_mesh.
    eexists _, _, _. split; [reflexivity|]. cbn [shape inst name_t map]. split; [|eauto].
    destruct Hm as [Hm|[Hm|[]]]; apply pair_equal_spec in Hm as [<- _]; auto.
  - apply some_inj in E. subst im. cbn [close_impl i_methods i_self] in *. rewrite inst_mesh. destruct Hm as [Hm|[]].
    apply pair_equal_spec in Hm as [<- <-]. eexists _, _, _. split; [reflexivity|]. reflexivity.
  - apply some_inj in E. subst im. cbn [cancel_impl i_methods i_self] in *. rewrite inst_mesh. destruct Hm as [Hm|[]].
    apply pair_equal_spec in Hm as [<- <-]. eexists _, _, _. split; [reflexivity|]. reflexivity.
Qed.
Lemma shape_tag : forall roles t t' m st x, NoDup roles -> valid (List.length roles) t -> valid (List.length roles) t' ->
  shape roles t m st x -> shape roles t' m st x -> t = t'.
Proof.
  intros roles t t' m st x Hn Ht Ht' H H'.
  assert (R : forall p q, 1 <= p <= List.length roles -> 1 <= q <= List.length roles -> role_name roles p = role_name roles q -> p = q).
  { intros p q. apply role_name_inj. exact Hn. }
  destruct t as [a b|a b|a b|a b|s| |], t' as [a' b'|a' b'|a' b'|a' b'|s'| |]; cbn [shape valid] in *;
    try (exfalso; intuition congruence); try reflexivity.
  - destruct H as (_ & [r ->] & ->), H' as (_ & [r' E1] & E2). injection E1 as E1 _. injection E2 as E2. rewrite (R a a'), (R b b') by tauto. reflexivity.
  - destruct H as (_ & [r ->] & ->), H' as (_ & [r' E1] & E2). injection E1 as E1 _. injection E2 as E2. rewrite (R a a'), (R b b') by tauto. reflexivity.
  - destruct H as (_ & -> & ->), H' as (_ & E1 & E2). injection E1 as E1. injection E2 as E2. rewrite (R a a'), (R b b') by tauto. reflexivity.
  - destruct H as (_ & -> & ->), H' as (_ & E1 & E2). injection E1 as E1. injection E2 as E2. rewrite (R a a'), (R b b') by tauto. reflexivity.
  - destruct H as (_ & [r ->] & ->), H' as (_ & [r' E1] & E2). injection E2 as E2. rewrite (R s s') by tauto. reflexivity.
Qed.
Lemma impls_tag_at : forall timed mesh roles l a im, impls timed mesh roles = Some l -> nth_error l a = Some im ->
  exists t, nth_error (tags (List.length roles)) a = Some t /\ valid (List.length roles) t /\ gen timed mesh roles t = Some im.
Proof.
  intros timed mesh roles l a im E Ha. pose proof (impls_nth _ _ _ _ a E) as X. rewrite Ha in X. cbn in X.
  destruct (nth_error (tags (List.length roles)) a) as [t|] eqn:Et; [|discriminate]. cbn in X. injection X as X.
  exists t. split; [reflexivity|]. split; [apply in_tags; exact (nth_error_In _ _ Et)|auto].
Qed.
Lemma impls_apart : forall timed mesh roles l, NoDup roles -> impls timed mesh roles = Some l -> apart l.
Proof.
  intros timed mesh roles l Hn E a b im1 im2 m outs1 outs2 sg1 sg2 T Ha Hb Hm1 Hm2 F1 F2.
  destruct (impls_tag_at _ _ _ _ _ _ E Ha) as (t1 & Et1 & V1 & G1). destruct (impls_tag_at _ _ _ _ _ _ E Hb) as (t2 & Et2 & V2 & G2).
  destruct (gen_shape _ _ _ _ _ _ _ _ _ V1 G1 Hm1 F1) as (f1 & st1 & x1 & -> & S1).
  destruct (gen_shape _ _ _ _ _ _ _ _ _ V2 G2 Hm2 F2) as (f2 & st2 & x2 & ET & S2).
  apply mesh_t_inj in ET as (_ & _ & <- & <-).
  pose proof (shape_tag _ _ _ _ _ _ Hn V1 V2 S1 S2) as <-.
  apply (proj1 (NoDup_nth_error _) (NoDup_tags (List.length roles))); [apply nth_error_Some; rewrite Et1; discriminate|congruence].
Qed.
Lemma impls_mesh : forall timed mesh roles l im m outs sg T, impls timed mesh roles = Some l -> In im l -> In (m, outs) (i_methods im) ->
  fits im sg T -> exists f st x, T = mesh_t mesh f st x.
Proof.
  intros timed mesh roles l im m outs sg T E Hin Hm Hf. apply (in_impls _ _ _ _ _ E) in Hin as (t & V & G).
  destruct (gen_shape _ _ _ _ _ _ _ _ _ V G Hm Hf) as (f & st & x & -> & _). eauto.
Qed.
Lemma two_apart_lemma : forall timed mesh1 mesh2 roles1 roles2 l, mesh1 <> mesh2 -> NoDup roles1 -> NoDup roles2 ->
  impls_two timed mesh1 mesh2 roles1 roles2 = Some l -> apart l.
Proof.
  intros timed mesh1 mesh2 roles1 roles2 l Hne N1 N2 E. unfold impls_two in E.
  destruct (impls timed mesh1 roles1) as [l1|] eqn:E1; [|discriminate]. destruct (impls timed mesh2 roles2) as [l2|] eqn:E2; [|discriminate].
  injection E as <-. intros a b im1 im2 m outs1 outs2 sg1 sg2 T Ha Hb Hm1 Hm2 F1 F2.
  assert (X : forall im im', In im l1 -> In im' l2 -> forall o o' sg sg', In (m, o) (i_methods im) -> In (m, o') (i_methods im') ->
     fits im sg T -> fits im' sg' T -> False).
  { intros im im' Hi Hi' o o' sg sg' Ho Ho' Hf Hf'. destruct (impls_mesh _ _ _ _ _ _ _ _ _ E1 Hi Ho Hf) as (f & st & x & ->).
    destruct (impls_mesh _ _ _ _ _ _ _ _ _ E2 Hi' Ho' Hf') as (f' & st' & x' & ET). apply mesh_t_inj in ET as (ET & _). contradiction. }
  destruct (Nat.lt_ge_cases a (List.length l1)) as [La|La], (Nat.lt_ge_cases b (List.length l1)) as [Lb|Lb].
  - rewrite nth_error_app1 in Ha, Hb by assumption.
    exact (impls_apart _ _ _ _ N1 E1 _ _ _ _ _ _ _ _ _ _ Ha Hb Hm1 Hm2 F1 F2).
  - exfalso. rewrite nth_error_app1 in Ha by assumption. rewrite nth_error_app2 in Hb by assumption.
    exact (X _ _ (nth_error_In _ _ Ha) (nth_error_In _ _ Hb) _ _ _ _ Hm1 Hm2 F1 F2).
  - exfalso. rewrite nth_error_app2 in Ha by assumption. rewrite nth_error_app1 in Hb by assumption.
    exact (X _ _ (nth_error_In _ _ Hb) (nth_error_In _ _ Ha) _ _ _ _ Hm2 Hm1 F2 F1).
  - rewrite nth_error_app2 in Ha, Hb by assumption.
    pose proof (impls_apart _ _ _ _ N2 E2 _ _ _ _ _ _ _ _ _ _ Ha Hb Hm1 Hm2 F1 F2). lia.
Qed.

(** A call has at most one answer. *)
Lemma resolves_once : forall l m T outs outs', Forall compiles l -> apart l ->
  (forall im o o', In im l -> In (m, o) (i_methods im) -> In (m, o') (i_methods im) -> o = o') ->
  resolves l m T outs -> resolves l m T outs' -> outs = outs'.
Proof.
  intros l m T outs outs' Hc Ha Hm (im & sg & o & Hin & Hf & Ho & ->) (im' & sg' & o' & Hin' & Hf' & Ho' & ->).
  apply In_nth_error in Hin as [a Ea]. apply In_nth_error in Hin' as [b Eb].
  pose proof (Ha _ _ _ _ _ _ _ _ _ _ Ea Eb Ho Ho' Hf Hf') as ->. rewrite Ea in Eb. injection Eb as <-.
  pose proof (Hm _ _ _ (nth_error_In _ _ Ea) Ho Ho') as <-.
  rewrite Forall_forall in Hc. destruct (Hc _ (nth_error_In _ _ Ea)) as (_ & _ & Hfix & Hv).
  apply map_ext_in. intros t Ht. apply inst_agree. intros v Hiv. apply (Hv _ _ _ Ho Ht) in Hiv. apply Hfix in Hiv.
  destruct Hf as [_ E1], Hf' as [_ E2]. apply (inst_fixed sg sg' (i_self im)); [congruence|exact Hiv].
Qed.
Lemma impls_methods : forall timed mesh roles l im m o o', impls timed mesh roles = Some l -> In im l ->
  In (m, o) (i_methods im) -> In (m, o') (i_methods im) -> o = o'.
Proof.
  intros timed mesh roles l im m o o' E Hin H H'. apply (in_impls _ _ _ _ _ E) in Hin as (t & V & G).
  destruct t as [a b|a b|a b|a b|s| |]; cbn [gen valid] in *.
  - rewrite send_eq in G by lia. apply some_inj in G. subst im. cbn [i_methods] in *. destruct H as [H|[]], H' as [H'|[]]. congruence.
  - rewrite recv_eq in G by lia. apply some_inj in G. subst im. cbn [i_methods] in *. destruct H as [H|[]], H' as [H'|[]]. congruence.
  - rewrite recv_all_eq in G by lia. apply some_inj in G. subst im. cbn [i_methods] in *. destruct H as [H|[]], H' as [H'|[]]. congruence.
  - rewrite offer_eq in G by lia. apply some_inj in G. subst im. cbn [i_methods] in *. destruct H as [H|[]], H' as [H'|[]]. congruence.
  - rewrite choose_eq in G by lia. apply some_inj in G. subst im. cbn [i_methods] in *. destruct H as [H|[H|[]]], H' as [H'|[H'|[]]]; congruence.
  - apply some_inj in G. subst im. cbn [close_impl i_methods] in *. destruct H as [H|[]], H' as [H'|[]]. congruence.
  - apply some_inj in G. subst im. cbn [cancel_impl i_methods] in *. destruct H as [H|[]], H' as [H'|[]]. congruence.
Qed.

(** * Which types answer a call *)
Section Exact.
  Variables (timed : bool) (mesh : string) (roles : list string) (l : list impl).
  Let n := List.length roles.
  Hypothesis Hroles : NoDup roles.
  Hypothesis Hl : impls timed mesh roles = Some l.

  Variables (p : nat) (F : nat -> rty) (stack : rty).
  Hypothesis Hp : 1 <= p <= n.
  Hypothesis HF : forall q, 1 <= q <= n -> q <> p -> is_session (F q) = true.
  Hypothesis Hstack : is_role stack = true.
  Let T := endpoint mesh roles p F stack.

  Lemma exact_tag : forall m outs, resolves l m T outs <->
    exists t im sg outs0, valid n t /\ gen timed mesh roles t = Some im /\ fits im sg T /\ In (m, outs0) (i_methods im) /\ outs = map (inst sg) outs0.
  Proof.
    intros m outs. split.
    - intros (im & sg & o & Hin & Hf & Ho & ->). apply (in_impls _ _ _ _ _ Hl) in Hin as (t & V & G). exists t, im, sg, o. auto.
    - intros (t & im & sg & o & V & G & Hf & Ho & ->). exists im, sg, o. split; [apply (in_impls _ _ _ _ _ Hl); eauto|auto].
  Qed.
  Lemma endpoint_ne : forall q, q <> p <-> p <> q.
  Proof. intros q. split; congruence. Qed.

  Lemma name_eq : forall a, 1 <= a <= n -> name_t (role_name roles a) = name_t (role_name roles p) -> a = p.
  Proof. intros a Ha E. injection E as E. exact (role_name_inj roles a p Hroles Ha Hp E). Qed.

  Lemma exact_send : forall outs, resolves l MSend T outs <->
    exists q V s R w, (1 <= q <= n /\ q <> p) /\ stack = RApp (CRole (role_name roles q)) [R] /\ F q = sending timed w V s /\
      outs = [endpoint mesh roles p (update F q s) R].
  Proof.
    intros outs. rewrite exact_tag. split.
    - intros (t & im & sg & o & V & G & Hf & Ho & ->).
      destruct (gen_shape _ _ _ _ _ _ _ _ _ V G Ho Hf) as (f & st & x & _ & SH).
      destruct t as [a b|a b|a b|a b|s| |]; cbn [shape valid gen] in *; try (exfalso; intuition congruence). clear SH.
      rewrite send_eq in G by (fold n; lia). fold n in G. apply some_inj in G. subst im. destruct Hf as [Hok HT]. cbn [i_self i_methods i_params] in *.
      destruct Ho as [Ho|[]]. apply pair_equal_spec in Ho as [_ <-].
      rewrite inst_mesh in HT. unfold T, endpoint in HT. fold n in HT. apply mesh_t_inj in HT as (_ & Hfi & Hst & Hna). cbn [inst map name_t] in Hna.
      apply name_eq in Hna; [|lia]. subst a.
      destruct (comm_match true timed n p b sg F Hp ltac:(lia) ltac:(tauto) HF Hfi) as (w & s & Eq & Em).
      exists b, (sg PT), s, (sg PRole), w. split; [split; [lia|]; apply endpoint_ne; tauto|]. split; [symmetry; exact Hst|]. split; [exact Eq|].
      cbn [map]. f_equal. rewrite inst_mesh, inst_svars, Em. reflexivity.
    - intros (q & V & s & R & w & (Hq & Hne) & Est & Eq & ->). apply endpoint_ne in Hne.
      exists (GSend p q). eexists _, (comm_sub p q F V s R w), _. cbn [valid gen]. split; [auto|].
      rewrite send_eq by (fold n; lia). split; [reflexivity|]. fold n. cbn [i_methods].
      destruct (comm_unmatch true timed n p q F V s R w Hp Hq Hne Eq) as [M1 M2].
      split; [split|split; [left; reflexivity|]].
      + intros v Hv. apply (sub_sessions timed n p q F V s R w Hp HF); [|exact Hv|].
        * rewrite <- (comm_session true timed w V s). change (is_session (sending timed w V s) = true). rewrite <- Eq. apply HF; [exact Hq|congruence].
        * rewrite Est in Hstack. exact Hstack.
      + cbn [i_self]. rewrite inst_mesh, M1. unfold T, endpoint. fold n. rewrite Est. reflexivity.
      + cbn [map]. f_equal. rewrite inst_mesh, inst_svars, M2. reflexivity.
  Qed.

  Lemma exact_recv : forall outs, resolves l MRecv T outs <->
    exists q V s R w, (1 <= q <= n /\ q <> p) /\ stack = RApp (CRole (role_name roles q)) [R] /\ F q = receiving timed w V s /\
      outs = [V; endpoint mesh roles p (update F q s) R].
  Proof.
    intros outs. rewrite exact_tag. split.
    - intros (t & im & sg & o & V & G & Hf & Ho & ->).
      destruct (gen_shape _ _ _ _ _ _ _ _ _ V G Ho Hf) as (f & st & x & _ & SH).
      destruct t as [a b|a b|a b|a b|s| |]; cbn [shape valid gen] in *; try (exfalso; intuition congruence). clear SH.
      rewrite recv_eq in G by (fold n; lia). fold n in G. apply some_inj in G. subst im. destruct Hf as [Hok HT]. cbn [i_self i_methods i_params] in *.
      destruct Ho as [Ho|[]]. apply pair_equal_spec in Ho as [_ <-].
      rewrite inst_mesh in HT. unfold T, endpoint in HT. fold n in HT. apply mesh_t_inj in HT as (_ & Hfi & Hst & Hna). cbn [inst map name_t] in Hna.
      apply name_eq in Hna; [|lia]. subst a.
      destruct (comm_match false timed n p b sg F Hp ltac:(lia) ltac:(tauto) HF Hfi) as (w & s & Eq & Em).
      exists b, (sg PT), s, (sg PRole), w. split; [split; [lia|]; apply endpoint_ne; tauto|]. split; [symmetry; exact Hst|]. split; [exact Eq|].
      cbn [map]. f_equal. f_equal. rewrite inst_mesh, inst_svars, Em. reflexivity.
    - intros (q & V & s & R & w & (Hq & Hne) & Est & Eq & ->). apply endpoint_ne in Hne.
      exists (GRecv p q). eexists _, (comm_sub p q F V s R w), _. cbn [valid gen]. split; [auto|].
      rewrite recv_eq by (fold n; lia). split; [reflexivity|]. fold n. cbn [i_methods].
      destruct (comm_unmatch false timed n p q F V s R w Hp Hq Hne Eq) as [M1 M2].
      split; [split|split; [left; reflexivity|]].
      + intros v Hv. apply (sub_sessions timed n p q F V s R w Hp HF); [|exact Hv|].
        * rewrite <- (comm_session false timed w V s). change (is_session (receiving timed w V s) = true). rewrite <- Eq. apply HF; [exact Hq|congruence].
        * rewrite Est in Hstack. exact Hstack.
      + cbn [i_self]. rewrite inst_mesh, M1. unfold T, endpoint. fold n. rewrite Est. reflexivity.
      + cbn [map]. f_equal. f_equal. rewrite inst_mesh, inst_svars, M2. reflexivity.
  Qed.

  Lemma exact_recv_all : forall outs, resolves l MRecvAll T outs <->
    exists q V s w, (1 <= q <= n /\ q <> p) /\ stack = RApp (CAllTo (role_name roles q)) [role_end_t; role_end_t] /\
      F q = receiving timed w V s /\ outs = [V; endpoint mesh roles p (update F q s) role_end_t].
  Proof.
    intros outs. rewrite exact_tag. split.
    - intros (t & im & sg & o & V & G & Hf & Ho & ->).
      destruct (gen_shape _ _ _ _ _ _ _ _ _ V G Ho Hf) as (f & st & x & _ & SH).
      destruct t as [a b|a b|a b|a b|s| |]; cbn [shape valid gen] in *; try (exfalso; intuition congruence). clear SH.
      rewrite recv_all_eq in G by (fold n; lia). fold n in G. apply some_inj in G. subst im. destruct Hf as [Hok HT]. cbn [i_self i_methods i_params] in *.
      destruct Ho as [Ho|[]]. apply pair_equal_spec in Ho as [_ <-].
      rewrite inst_mesh in HT. unfold T, endpoint in HT. fold n in HT. apply mesh_t_inj in HT as (_ & Hfi & Hst & Hna). cbn [inst map name_t] in Hna.
      apply name_eq in Hna; [|lia]. subst a.
      destruct (comm_match false timed n p b sg F Hp ltac:(lia) ltac:(tauto) HF Hfi) as (w & s & Eq & Em).
      exists b, (sg PT), s, w. split; [split; [lia|]; apply endpoint_ne; tauto|]. split; [symmetry; exact Hst|]. split; [exact Eq|].
      cbn [map]. f_equal. f_equal. rewrite inst_mesh, inst_svars, Em. reflexivity.
    - intros (q & V & s & w & (Hq & Hne) & Est & Eq & ->). apply endpoint_ne in Hne.
      exists (GRecvAll p q). eexists _, (comm_sub p q F V s role_end_t w), _. cbn [valid gen]. split; [auto|].
      rewrite recv_all_eq by (fold n; lia). split; [reflexivity|]. fold n. cbn [i_methods].
      destruct (comm_unmatch false timed n p q F V s role_end_t w Hp Hq Hne Eq) as [M1 M2].
      split; [split|split; [left; reflexivity|]].
      + intros v Hv. apply (sub_sessions timed n p q F V s role_end_t w Hp HF).
        * rewrite <- (comm_session false timed w V s). change (is_session (receiving timed w V s) = true). rewrite <- Eq. apply HF; [exact Hq|congruence].
        * cbn [i_params] in Hv. rewrite !in_app_iff in *. cbn in *. tauto.
        * reflexivity.
      + cbn [i_self]. rewrite inst_mesh, M1. unfold T, endpoint. fold n. rewrite Est. reflexivity.
      + cbn [map]. f_equal. f_equal. rewrite inst_mesh, inst_svars, M2. reflexivity.
  Qed.

  Lemma exact_close : forall outs, resolves l MClose T outs <->
    (forall q, 1 <= q <= n -> q <> p -> F q = end_t) /\ stack = role_end_t /\ outs = [].
  Proof.
    intros outs. rewrite exact_tag. split.
    - intros (t & im & sg & o & V & G & Hf & Ho & ->).
      destruct (gen_shape _ _ _ _ _ _ _ _ _ V G Ho Hf) as (f & st & x & _ & SH).
      destruct t as [a b|a b|a b|a b|s| |]; cbn [shape valid gen] in *; try (exfalso; intuition congruence). clear SH.
      apply some_inj in G. subst im. destruct Hf as [Hok HT]. cbn [close_impl i_self i_methods i_params] in *.
      destruct Ho as [Ho|[]]. apply pair_equal_spec in Ho as [_ <-].
      rewrite inst_mesh in HT. unfold T, endpoint in HT. fold n in HT. apply mesh_t_inj in HT as (_ & Hfi & Hst & Hna).
      split; [|split; [symmetry; exact Hst|reflexivity]]. intros q Hq Hne. apply endpoint_ne in Hne.
      destruct (peer_onto n p q Hp Hq Hne) as (k & Hk & Ek). rewrite others_peers, !map_map, map_seq_eq in Hfi by exact Hp.
      specialize (Hfi k ltac:(lia)). rewrite Ek in Hfi. symmetry. exact Hfi.
    - intros (HE & Est & ->). exists GClose. eexists _, (fun _ => name_t (role_name roles p)), _. split; [exact Logic.I|]. split; [reflexivity|].
      cbn [close_impl i_methods]. split; [split|split; [left; reflexivity|reflexivity]].
      + intros v [<-|[]]. reflexivity.
      + cbn [close_impl i_self]. rewrite inst_mesh. unfold T, endpoint. fold n. rewrite Est, others_peers, !map_map by exact Hp. f_equal.
        apply map_seq_eq. intros k Hk. cbn [inst end_t map]. symmetry. apply HE; [apply peer_range; lia|apply peer_neq].
  Qed.

  Lemma exact_cancel : resolves l MCancel T [].
  Proof.
    apply exact_tag. exists GCancel. eexists _, (fun v => match v with PS k => F (peer p k) | PRole => stack | _ => name_t (role_name roles p) end), _.
    split; [exact Logic.I|]. split; [reflexivity|]. unfold cancel_impl. fold n. cbn [i_methods]. split; [split|split; [left; reflexivity|reflexivity]].
    - cbn [i_params]. intros v Hv. apply in_app_or in Hv as [Hv|[<-|[<-|[]]]]; [|exact Hstack|reflexivity].
      apply in_map_iff in Hv as (k & <- & Hk). apply in_seq in Hk. cbn. apply HF; [apply peer_range; lia|apply peer_neq].
    - cbn [i_self]. rewrite inst_mesh, inst_svars. unfold T, endpoint. fold n. rewrite others_peers, map_map by exact Hp. reflexivity.
  Qed.

  Definition unpeer (x : nat) : nat := if x <? p then x else x - 1.
  Lemma unpeer_peer : forall k, unpeer (peer p k) = k.
  Proof. intros k. unfold unpeer, peer. destruct (Nat.ltb_spec k p); [|destruct (Nat.ltb_spec (S k) p)]; destruct (Nat.ltb_spec k p); lia. Qed.
  Lemma unpeer_range : forall x, 1 <= x <= n -> x <> p -> 1 <= unpeer x <= n - 1.
  Proof. intros x Hx Hne. unfold unpeer. destruct (Nat.ltb_spec x p); lia. Qed.
  Lemma map_others : forall (g : nat -> rty), map (fun k => g (peer p k)) (seq 1 (n - 1)) = map g (others n p).
  Proof. intros g. rewrite others_peers, map_map by exact Hp. reflexivity. Qed.

  Definition offer_sub (GL GR : nat -> rty) (R1 R2 : rty) (w : window) (v : param) : rty :=
    match v with
    | PS k => if k <? n then GL (peer p k) else GR (peer p (k - (n - 1)))
    | PR 1 => R1
    | PR _ => R2
    | PK i => kval w i
    | _ => end_t
    end.
  Lemma exact_offer : forall outs, resolves l MOffer T outs <->
    exists q w GL GR R1 R2, (1 <= q <= n /\ q <> p) /\ stack = RApp (CAllTo (role_name roles q)) [role_end_t; role_end_t] /\
      (forall x, 1 <= x <= n -> x <> p -> is_session (GL x) = true /\ is_session (GR x) = true) /\ is_role R1 = true /\ is_role R2 = true /\
      F q = receiving timed w (RApp CEither [endpoint mesh roles p GL R1; endpoint mesh roles p GR R2]) end_t /\
      (forall x, 1 <= x <= n -> x <> p -> x <> q -> F x = end_t) /\
      outs = [endpoint mesh roles p GL R1; endpoint mesh roles p GR R2].
  Proof.
    intros outs. rewrite exact_tag. split.
    - intros (t & im & sg & o & V & G & Hf & Ho & ->).
      destruct (gen_shape _ _ _ _ _ _ _ _ _ V G Ho Hf) as (f & st & x & _ & SH).
      destruct t as [a b|a b|a b|a b|s| |]; cbn [shape valid gen] in *; try (exfalso; intuition congruence). clear SH f st x.
      rewrite offer_eq in G by (fold n; lia). fold n in G. apply some_inj in G. subst im. destruct Hf as [Hok HT]. cbn [i_self i_methods i_params] in *.
      destruct Ho as [Ho|[]]. apply pair_equal_spec in Ho as [_ <-].
      rewrite inst_mesh in HT. unfold T, endpoint in HT. fold n in HT. apply mesh_t_inj in HT as (_ & Hfi & Hst & Hna). cbn [inst map name_t] in Hna.
      apply name_eq in Hna; [|lia]. subst a.
      pose (GL := fun x => sg (PS (unpeer x))). pose (GR := fun x => sg (PS (unpeer x + (n - 1)))).
      assert (EL : inst sg (offer_left mesh roles p) = endpoint mesh roles p GL (sg (PR 1))).
      { unfold offer_left, endpoint. fold n. rewrite inst_mesh, inst_svars, <- map_others. f_equal. apply map_seq_eq.
        intros k Hk. unfold GL. rewrite unpeer_peer. reflexivity. }
      assert (ER : inst sg (offer_right mesh roles p) = endpoint mesh roles p GR (sg (PR 2))).
      { unfold offer_right, endpoint. fold n. rewrite inst_mesh, inst_svars, <- map_others. f_equal.
        replace (2 * n - 1 - n) with (n - 1) by lia. replace (seq n (n - 1)) with (map (fun k => k + (n - 1)) (seq 1 (n - 1))).
        - rewrite map_map. apply map_seq_eq. intros k Hk. unfold GR. rewrite unpeer_peer. reflexivity.
        - clear -Hp. assert (Y : forall m a c, map (fun k => k + c) (seq a m) = seq (a + c) m).
          { induction m as [|m IH]; intros a c; [reflexivity|]. cbn. rewrite IH. reflexivity. }
          rewrite Y. f_equal. lia. }
      unfold offer_fields in Hfi. fold n in Hfi. rewrite <- (map_others F), !map_map in Hfi. rewrite map_seq_eq in Hfi.
      assert (HFI : forall x, 1 <= x <= n -> x <> p -> F x = if x =? b
         then inst sg (comm_t false timed (RApp CEither [offer_left mesh roles p; offer_right mesh roles p]) end_t) else end_t).
      { intros x Hx Hne. destruct (peer_onto n p x Hp Hx (not_eq_sym Hne)) as (k & Hk & <-). rewrite <- (Hfi k ltac:(lia)).
        rewrite (wrapped_peer n p b k Hp ltac:(lia) ltac:(tauto) Hk). destruct (peer p k =? b); reflexivity. }
      assert (Hb : F b = inst sg (comm_t false timed (RApp CEither [offer_left mesh roles p; offer_right mesh roles p]) end_t)).
      { rewrite HFI by (try lia; intuition congruence). rewrite Nat.eqb_refl. reflexivity. }
      assert (Hbs : is_session (F b) = true) by (apply HF; [lia|intuition congruence]). rewrite Hb in Hbs.
      destruct (comm_inst _ _ _ _ _ Hbs) as (_ & w & Ew & _). rewrite <- Hb in Ew.
      exists b, w, GL, GR, (sg (PR 1)), (sg (PR 2)). split; [split; [lia|intuition congruence]|]. split; [symmetry; exact Hst|].
      assert (HokS : forall k, 1 <= k <= 2 * n - 2 -> is_session (sg (PS k)) = true).
      { intros k Hk. apply (Hok (PS k)). apply in_or_app. left. apply in_map, in_seq. lia. }
      split; [|split; [|split; [|split; [|split]]]].
      + intros x Hx Hne. pose proof (unpeer_range x Hx Hne). split; apply HokS; lia.
      + apply (Hok (PR 1)). apply in_or_app. right. cbn. auto.
      + apply (Hok (PR 2)). apply in_or_app. right. cbn. auto.
      + rewrite Ew. cbn [inst map]. rewrite EL, ER. reflexivity.
      + intros x Hx Hne Hxb. rewrite (HFI x Hx Hne). destruct (Nat.eqb_spec x b); [contradiction|reflexivity].
      + cbn [map]. rewrite EL, ER. reflexivity.
    - intros (q & w & GL & GR & R1 & R2 & (Hq & Hne) & Est & HG & HR1 & HR2 & Eq & HE & ->).
      set (sg := offer_sub GL GR R1 R2 w).
      assert (EL : inst sg (offer_left mesh roles p) = endpoint mesh roles p GL R1).
      { unfold offer_left, endpoint. fold n. rewrite inst_mesh, inst_svars, <- map_others. f_equal. apply map_seq_eq.
        intros k Hk. unfold sg. cbn [offer_sub]. destruct (Nat.ltb_spec k n); [reflexivity|lia]. }
      assert (ER : inst sg (offer_right mesh roles p) = endpoint mesh roles p GR R2).
      { unfold offer_right, endpoint. fold n. rewrite inst_mesh, inst_svars, <- map_others. f_equal.
        replace (2 * n - 1 - n) with (n - 1) by lia. replace (seq n (n - 1)) with (map (fun k => k + (n - 1)) (seq 1 (n - 1))).
        - rewrite map_map. apply map_seq_eq. intros k Hk. unfold sg. cbn [offer_sub]. destruct (Nat.ltb_spec (k + (n - 1)) n); [lia|].
          f_equal. f_equal. lia.
        - clear -Hp. assert (Y : forall m a c, map (fun k => k + c) (seq a m) = seq (a + c) m).
          { induction m as [|m IH]; intros a c; [reflexivity|]. cbn. rewrite IH. reflexivity. }
          rewrite Y. f_equal. lia. }
      exists (GOffer p q). eexists _, sg, _. cbn [valid gen]. split; [split; [lia|split; [lia|congruence]]|].
      rewrite offer_eq by (fold n; lia). split; [reflexivity|]. fold n. cbn [i_methods].
      split; [split|split; [left; reflexivity|]].
      + cbn [i_params]. intros v Hv. apply in_app_or in Hv as [Hv|Hv].
        * apply in_map_iff in Hv as (k & <- & Hk). apply in_seq in Hk. unfold sg. cbn [offer_sub ok_for].
          destruct (Nat.ltb_spec k n); apply HG; try apply peer_neq; apply peer_range; lia.
        * cbn in Hv. destruct Hv as [<-|[<-|Hv]]; [exact HR1|exact HR2|]. apply (consts_ok timed w); [reflexivity|exact Hv].
      + cbn [i_self]. rewrite inst_mesh. unfold T, endpoint. fold n. rewrite Est. f_equal. unfold offer_fields. fold n. rewrite <- (map_others F), map_map.
        apply map_seq_eq. intros k Hk. rewrite (wrapped_peer n p q k Hp Hq (not_eq_sym Hne) ltac:(lia)).
        destruct (Nat.eqb_spec (peer p k) q) as [E|E].
        * change (recv_t timed) with (comm_t false timed). rewrite (inst_comm_conv sg false timed w) by reflexivity.
          cbn [inst map]. rewrite EL, ER, E. symmetry. exact Eq.
        * symmetry. apply HE; [apply peer_range; lia|apply peer_neq|exact E].
      + cbn [map]. rewrite EL, ER. reflexivity.
  Qed.

  (** The pair of roles of a session number, and back. *)
  Definition pair_at (m : nat) : nat * nat :=
    match find (fun x => idx n (fst x) (snd x) =? m) (filter (fun x => fst x <? snd x) (pairs n)) with Some x => x | None => (1, 2) end.
  Lemma pair_at_idx : forall a c, 1 <= a -> a < c -> c <= n -> pair_at (idx n a c) = (a, c).
  Proof.
    intros a c H1 H2 H3. unfold pair_at. destruct (find _ _) as [[a' c']|] eqn:E.
    - apply find_some in E as [Hin Ei]. apply filter_In in Hin as [Hin Hlt]. apply in_pairs in Hin. cbn [fst snd] in *.
      apply Nat.ltb_lt in Hlt. apply Nat.eqb_eq in Ei. destruct (idx_inj n a' c' a c) as [-> ->]; try lia. reflexivity.
    - exfalso. pose proof (find_none _ _ E (a, c)) as N. cbn [fst snd] in N. rewrite Nat.eqb_refl in N. discriminate N.
      apply filter_In. split; [apply in_pairs; lia|apply Nat.ltb_lt; exact H2].
  Qed.
  Definition fam_at (G : nat -> nat -> rty) (m : nat) : rty :=
    let (a, c) := pair_at m in if b_choice p a c then G a c else G c a.
  Lemma fam_session : forall G m, dual_family n G -> 1 <= m <= tri n -> is_session (fam_at G m) = true.
  Proof.
    intros G m HG Hm. destruct (idx_surj n m Hm) as (a & c & H1 & H2 & H3 & <-). unfold fam_at. rewrite pair_at_idx by lia.
    destruct (b_choice p a c); apply HG; lia.
  Qed.
  Lemma fam_inst : forall G i j, dual_family n G -> 1 <= i <= n -> 1 <= j <= n -> i <> j ->
    (if b_choice p i j then fam_at G (idx n (min i j) (max i j)) else gdual (fam_at G (idx n (min i j) (max i j)))) = G i j.
  Proof.
    intros G i j HG Hi Hj Hne. destruct (HG i j Hi Hj Hne) as [Hs Hd]. unfold fam_at. rewrite pair_at_idx by lia.
    destruct (Nat.lt_ge_cases i j) as [H|H].
    - rewrite Nat.min_l, Nat.max_r by lia. destruct (b_choice p i j); [reflexivity|]. symmetry. exact Hd.
    - rewrite Nat.min_r, Nat.max_l by lia. rewrite (b_choice_antisym n p i j Hi Hj Hne). destruct (b_choice p i j); cbn [negb]; [reflexivity|].
      symmetry. exact Hd.
  Qed.

  (** From an instance of the block to families, and from families to an instance. *)
  Definition family_of (sg : param -> rty) (add i j : nat) : rty := inst sg (session_of add (end_of (b_choice p) n i j)).
  Lemma family_dual : forall sg add, (forall m, 1 <= m <= tri n -> is_session (sg (PS (add + m))) = true) -> dual_family n (family_of sg add).
  Proof.
    intros sg add H i j Hi Hj Hne. unfold family_of, session_of, end_of. cbn [fst snd].
    rewrite (Nat.min_comm j i), (Nat.max_comm j i). rewrite (b_choice_antisym n p i j Hi Hj Hne).
    assert (Hm : 1 <= idx n (min i j) (max i j) <= tri n) by (apply idx_range; lia).
    pose proof (H _ Hm) as HS. destruct (gdual_session _ HS) as [H1 H2].
    destruct (b_choice p i j); cbn [negb inst]; split; auto.
  Qed.
  Lemma family_mesh : forall sg add j, 1 <= j <= n ->
    map (inst sg) (map (session_of add) (mesh_of (b_choice p) n j)) = map (family_of sg add j) (others n j).
  Proof. intros sg add j Hj. unfold mesh_of. rewrite !map_map, others_peers, map_map by exact Hj. reflexivity. Qed.

  Definition choose_sub (GL GR : nat -> nat -> rty) (RL RR : nat -> rty) (R1 R2 : rty) (w : window) (v : param) : rty :=
    match v with
    | PS m => if m <=? tri n then fam_at GL m else fam_at GR (m - tri n)
    | PR k => if k =? 2 * n - 1 then R1 else if k =? 2 * n then R2
              else if Nat.odd k then RL (peer p ((k + 1) / 2)) else RR (peer p (k / 2))
    | PK i => kval w i
    | _ => end_t
    end.
  Lemma sub_family : forall GL GR RL RR R1 R2 w i j, dual_family n GL -> dual_family n GR -> 1 <= i <= n -> 1 <= j <= n -> i <> j ->
    family_of (choose_sub GL GR RL RR R1 R2 w) 0 i j = GL i j /\ family_of (choose_sub GL GR RL RR R1 R2 w) (tri n) i j = GR i j.
  Proof.
    intros GL GR RL RR R1 R2 w i j HL HR Hi Hj Hne.
    assert (Hm : 1 <= idx n (min i j) (max i j) <= tri n) by (apply idx_range; lia).
    split; [rewrite <- (fam_inst GL i j HL Hi Hj Hne)|rewrite <- (fam_inst GR i j HR Hi Hj Hne)]; unfold family_of, session_of, end_of; cbn [fst snd].
    - assert (E : choose_sub GL GR RL RR R1 R2 w (PS (0 + idx n (min i j) (max i j))) = fam_at GL (idx n (min i j) (max i j))).
      { cbn [choose_sub Nat.add]. destruct (Nat.leb_spec (idx n (min i j) (max i j)) (tri n)); [reflexivity|lia]. }
      destruct (b_choice p i j); cbn [inst]; rewrite E; reflexivity.
    - assert (E : choose_sub GL GR RL RR R1 R2 w (PS (tri n + idx n (min i j) (max i j))) = fam_at GR (idx n (min i j) (max i j))).
      { cbn [choose_sub]. destruct (Nat.leb_spec (tri n + idx n (min i j) (max i j)) (tri n)); [lia|]. f_equal. lia. }
      destruct (b_choice p i j); cbn [inst]; rewrite E; reflexivity.
  Qed.
  Lemma sub_stack : forall GL GR RL RR R1 R2 w j, 1 <= j <= n -> j <> p ->
    choose_sub GL GR RL RR R1 R2 w (PR (bchoose_stack_decl p j)) = RL j /\ choose_sub GL GR RL RR R1 R2 w (PR (bchoose_stack_decl p j + 1)) = RR j.
  Proof.
    intros GL GR RL RR R1 R2 w j Hj Hne. destruct (peer_onto n p j Hp Hj (not_eq_sym Hne)) as (x & Hx & <-).
    assert (HD : bchoose_stack_decl p (peer p x) = 2 * x - 1).
    { unfold bchoose_stack_decl, peer. destruct (Nat.ltb_spec x p); [destruct (Nat.ltb_spec p x); lia|destruct (Nat.ltb_spec p (S x)); lia]. }
    rewrite HD. cbn [choose_sub]. split.
    - destruct (Nat.eqb_spec (2 * x - 1) (2 * n - 1)); [lia|]. destruct (Nat.eqb_spec (2 * x - 1) (2 * n)); [lia|].
      assert (O : Nat.odd (2 * x - 1) = true). { apply Nat.odd_spec. exists (x - 1). lia. }
      rewrite O. replace (2 * x - 1 + 1) with (x * 2) by lia. rewrite Nat.div_mul by lia. reflexivity.
    - replace (2 * x - 1 + 1) with (2 * x) by lia. destruct (Nat.eqb_spec (2 * x) (2 * n - 1)); [lia|]. destruct (Nat.eqb_spec (2 * x) (2 * n)); [lia|].
      assert (O : Nat.odd (2 * x) = false). { rewrite <- Nat.negb_even. replace (Nat.even (2 * x)) with true; [reflexivity|]. symmetry. apply Nat.even_spec. exists x. reflexivity. }
      rewrite O. replace (2 * x) with (x * 2) by lia. rewrite Nat.div_mul by lia. reflexivity.
  Qed.

  Lemma exact_choose : forall (left : bool) outs, 2 <= n -> (resolves l (if left then MChooseLeft else MChooseRight) T outs <->
    exists w GL GR RL RR R1 R2, stack = RApp (CToAll (role_name roles p)) [R1; R2] /\
      dual_family n GL /\ dual_family n GR /\
      (forall q, 1 <= q <= n -> q <> p -> is_role (RL q) = true /\ is_role (RR q) = true) /\
      (forall q, 1 <= q <= n -> q <> p ->
         F q = sending timed w (RApp CEither [endpoint mesh roles q (GL q) (RL q); endpoint mesh roles q (GR q) (RR q)]) end_t) /\
      outs = [if left then endpoint mesh roles p (GL p) R1 else endpoint mesh roles p (GR p) R2]).
  Proof.
    intros left outs Hn2. rewrite exact_tag. pose proof (two_tri n ltac:(lia)) as H2. split.
    - intros (t & im & sg & o & V & G & Hf & Ho & ->).
      destruct (gen_shape _ _ _ _ _ _ _ _ _ V G Ho Hf) as (f & st & x & _ & SH).
      destruct t as [a b|a b|a b|a b|a| |]; cbn [shape valid gen] in *; try (exfalso; destruct left; intuition congruence). clear SH f st x.
      rewrite choose_eq in G by (fold n; lia). fold n in G. apply some_inj in G. subst im. destruct Hf as [Hok HT]. cbn [i_self i_methods i_params] in *.
      rewrite inst_mesh in HT. unfold T, endpoint in HT. fold n in HT. apply mesh_t_inj in HT as (_ & Hfi & Hst & Hna). cbn [inst map name_t] in Hna.
      apply name_eq in Hna; [|lia]. subst a.
      set (GL := family_of sg 0). set (GR := family_of sg (tri n)).
      set (RL := fun q => sg (PR (bchoose_stack_decl p q))). set (RR := fun q => sg (PR (bchoose_stack_decl p q + 1))).
      assert (HPS : forall m, 1 <= m <= tri n + tri n -> is_session (sg (PS m)) = true).
      { intros m Hm. apply (Hok (PS m)). apply in_or_app. left. apply in_map, in_seq. lia. }
      assert (HPR : forall m, 1 <= m <= 2 * n -> is_role (sg (PR m)) = true).
      { intros m Hm. apply (Hok (PR m)). rewrite !in_app_iff. right. left. apply in_map, in_seq. lia. }
      assert (HFI : forall q, 1 <= q <= n -> q <> p -> inst sg (choice_field timed mesh roles p q) = F q).
      { intros q Hq Hne. destruct (peer_onto n p q Hp Hq (not_eq_sym Hne)) as (k & Hk & <-).
        rewrite others_peers, !map_map, map_seq_eq in Hfi by exact Hp. apply Hfi. lia. }
      assert (HV : forall q, 1 <= q <= n -> q <> p ->
        inst sg (RApp CEither
          [mesh_t mesh (map (session_of 0) (mesh_of (b_choice p) n q)) (RVar (PR (bchoose_stack_decl p q))) (name_t (role_name roles q));
           mesh_t mesh (map (session_of (tri n)) (mesh_of (b_choice p) n q)) (RVar (PR (bchoose_stack_decl p q + 1))) (name_t (role_name roles q))]) =
        RApp CEither [endpoint mesh roles q (GL q) (RL q); endpoint mesh roles q (GR q) (RR q)]).
      { intros q Hq Hne. cbn [inst map]. rewrite !inst_mesh, !family_mesh by exact Hq. reflexivity. }
      (* one window, from the first receiver *)
      assert (HW : exists w, forall q, 1 <= q <= n -> q <> p ->
         F q = sending timed w (RApp CEither [endpoint mesh roles q (GL q) (RL q); endpoint mesh roles q (GR q) (RR q)]) end_t).
      { assert (HC : forall q, 1 <= q <= n -> q <> p -> exists w,
            F q = sending timed w (RApp CEither [endpoint mesh roles q (GL q) (RL q); endpoint mesh roles q (GR q) (RR q)]) end_t /\
            (timed = true -> map sg consts = wargs w)).
        { intros q Hq Hne. pose proof (HF q Hq Hne) as Hs. rewrite <- (HFI q Hq Hne) in Hs. unfold choice_field in Hs.
          change (send_t timed) with (comm_t true timed) in Hs.
          destruct (comm_inst _ _ _ _ _ Hs) as (_ & w & Ew & Hw). exists w. split; [|exact Hw].
          rewrite <- (HFI q Hq Hne). unfold choice_field. change (send_t timed) with (comm_t true timed). fold n in Ew |- *. rewrite Ew, (HV q Hq Hne). reflexivity. }
        destruct (HC (peer p 1) (peer_range n p 1 Hp ltac:(lia)) (peer_neq p 1)) as (w & _ & Hw).
        exists w. intros q Hq Hne. destruct (HC q Hq Hne) as (w' & -> & Hw'). unfold sending. destruct timed; [|reflexivity].
        rewrite <- (Hw eq_refl), <- (Hw' eq_refl). reflexivity. }
      destruct HW as [w HW].
      exists w, GL, GR, RL, RR, (sg (PR (2 * n - 1))), (sg (PR (2 * n))). split; [symmetry; exact Hst|]. split; [|split; [|split; [|split; [exact HW|]]]].
      + apply family_dual. intros m Hm. apply HPS. cbn [Nat.add]. lia.
      + apply family_dual. intros m Hm. apply HPS. lia.
      + intros q Hq Hne. pose proof (stack_decl_range n p q Hp Hq Hne). split; apply HPR; lia.
      + destruct Ho as [Ho|[Ho|[]]]; apply pair_equal_spec in Ho as [Em <-]; destruct left; try discriminate Em;
          cbn [map]; rewrite inst_mesh, family_mesh by exact Hp; reflexivity.
    - intros (w & GL & GR & RL & RR & R1 & R2 & Est & HL & HR & HRR & HFq & ->).
      set (sg := choose_sub GL GR RL RR R1 R2 w).
      assert (HF0 : forall q, 1 <= q <= n -> map (inst sg) (map (session_of 0) (mesh_of (b_choice p) n q)) = map (GL q) (others n q)).
      { intros q Hq. rewrite family_mesh by exact Hq. apply map_ext_in. intros x Hx. apply in_others in Hx as [Hx Hne].
        apply (sub_family GL GR RL RR R1 R2 w q x HL HR Hq Hx (not_eq_sym Hne)). }
      assert (HF1 : forall q, 1 <= q <= n -> map (inst sg) (map (session_of (tri n)) (mesh_of (b_choice p) n q)) = map (GR q) (others n q)).
      { intros q Hq. rewrite family_mesh by exact Hq. apply map_ext_in. intros x Hx. apply in_others in Hx as [Hx Hne].
        apply (sub_family GL GR RL RR R1 R2 w q x HL HR Hq Hx (not_eq_sym Hne)). }
      assert (ER1 : sg (PR (2 * n - 1)) = R1) by (unfold sg; cbn [choose_sub]; rewrite Nat.eqb_refl; reflexivity).
      assert (ER2 : sg (PR (2 * n)) = R2).
      { unfold sg. cbn [choose_sub]. destruct (Nat.eqb_spec (2 * n) (2 * n - 1)); [lia|]. rewrite Nat.eqb_refl. reflexivity. }
      rewrite Est in Hstack. cbn [is_role] in Hstack. apply andb_prop in Hstack as [HR1 HR2].
      exists (GChoose p). eexists _, sg, (if left
        then [mesh_t mesh (map (session_of 0) (mesh_of (b_choice p) n p)) (RVar (PR (2 * n - 1))) (name_t (role_name roles p))]
        else [mesh_t mesh (map (session_of (tri n)) (mesh_of (b_choice p) n p)) (RVar (PR (2 * n))) (name_t (role_name roles p))]). cbn [valid gen]. split; [exact Hp|].
      rewrite choose_eq by (fold n; lia). split; [reflexivity|]. fold n. cbn [i_methods].
      split; [split|split].
      + cbn [i_params]. intros v Hv. rewrite !in_app_iff in Hv. destruct Hv as [Hv|[Hv|Hv]].
        * apply in_map_iff in Hv as (m & <- & Hm). apply in_seq in Hm. unfold sg. cbn [choose_sub ok_for].
          destruct (Nat.leb_spec m (tri n)); apply fam_session; auto; lia.
        * apply in_map_iff in Hv as (m & <- & Hm). apply in_seq in Hm. cbn [ok_for].
          destruct (Nat.le_gt_cases m (2 * (n - 1))) as [Hle|Hgt].
          -- set (x := (m + 1) / 2). assert (Hx : 1 <= x /\ (m = 2 * x - 1 \/ m = 2 * x - 1 + 1)).
             { unfold x. pose proof (Nat.div_mod (m + 1) 2 ltac:(lia)). pose proof (Nat.mod_upper_bound (m + 1) 2 ltac:(lia)). lia. }
             clearbody x. assert (Hx1 : 1 <= x <= n - 1) by lia.
             pose proof (peer_range n p x Hp ltac:(lia)) as Hj. pose proof (peer_neq p x) as Hne.
             assert (HD : bchoose_stack_decl p (peer p x) = 2 * x - 1).
             { unfold bchoose_stack_decl, peer. destruct (Nat.ltb_spec x p); [destruct (Nat.ltb_spec p x); lia|destruct (Nat.ltb_spec p (S x)); lia]. }
             destruct (sub_stack GL GR RL RR R1 R2 w _ Hj Hne) as [S1 S2]. rewrite HD in S1, S2. fold sg in S1, S2.
             destruct Hx as [_ [-> | ->]]; [rewrite S1|rewrite S2]; apply HRR; auto.
          -- assert (m = 2 * n - 1 \/ m = 2 * n) as [-> | ->] by lia; [rewrite ER1|rewrite ER2]; assumption.
        * apply (consts_ok timed w); [reflexivity|exact Hv].
      + cbn [i_self]. rewrite inst_mesh. cbn [inst map]. rewrite ER1, ER2. unfold T, endpoint. fold n. rewrite Est. f_equal. rewrite map_map.
        apply map_ext_in. intros q Hq. apply in_others in Hq as [Hq Hne]. rewrite (HFq q Hq Hne). unfold choice_field.
        change (send_t timed) with (comm_t true timed). rewrite (inst_comm_conv sg true timed w) by reflexivity. fold n.
        cbn [inst map]. rewrite !inst_mesh, HF0, HF1 by exact Hq. destruct (sub_stack GL GR RL RR R1 R2 w q Hq Hne) as [S1 S2]. fold sg in S1, S2.
        cbn [inst map name_t]. rewrite S1, S2. reflexivity.
      + destruct left; [left|right; left]; reflexivity.
      + destruct left; cbn [map]; rewrite inst_mesh; cbn [inst]; [rewrite ER1, HF0|rewrite ER2, HF1]; auto.
  Qed.
End Exact.

(** * The other side *)
Lemma gdual_sending : forall timed w V s, gdual (sending timed w V s) = receiving timed w V (gdual s).
Proof. intros [] w V s; reflexivity. Qed.
Lemma is_session_sending : forall timed w V s, is_session (sending timed w V s) = is_session s.
Proof. intros [] w V s; reflexivity. Qed.
Lemma endpoint_ext : forall mesh roles p F G R, (forall q, 1 <= q <= List.length roles -> q <> p -> F q = G q) ->
  endpoint mesh roles p F R = endpoint mesh roles p G R.
Proof.
  intros mesh roles p F G R H. unfold endpoint. f_equal. apply map_ext_in. intros q Hq. apply in_others in Hq as [Hq Hne]. apply H; assumption.
Qed.
Definition update2 (F : nat -> nat -> rty) (p q : nat) (s : rty) (a b : nat) : rty :=
  if (a =? p) && (b =? q) then s else if (a =? q) && (b =? p) then gdual s else F a b.
Lemma update2_dual : forall n F p q s, dual_family n F -> p <> q -> is_session s = true -> dual_family n (update2 F p q s).
Proof.
  intros n F p q s HF Hne Hs a b Ha Hb Hab. destruct (gdual_session s Hs) as [H1 H2]. unfold update2.
  destruct (Nat.eqb_spec a p), (Nat.eqb_spec b q), (Nat.eqb_spec a q), (Nat.eqb_spec b p); subst; try contradiction; try congruence; cbn [andb];
    try (split; [assumption|congruence]); try (apply HF; assumption).
Qed.

(** * The machine *)
Lemma is_session_sty : forall s, is_session (sty_t s) = true.
Proof. induction s; cbn; auto. Qed.
Lemma is_role_stack : forall roles r, is_role (stack_t roles r) = true.
Proof. intros roles. induction r; cbn; auto; rewrite IHr1, IHr2; reflexivity. Qed.
Definition facing (p : nat) (ss : list sty) (q : nat) : rty := sty_t (nth (comm_field p q - 1) ss End).
Lemma comm_field_peer : forall p k, 1 <= k -> comm_field p (peer p k) = k.
Proof. intros p k Hk. unfold comm_field, peer. destruct (Nat.ltb_spec k p); [destruct (Nat.leb_spec p k)|destruct (Nat.leb_spec p (S k))]; lia. Qed.
Lemma nth_map_seq : forall (A B : Type) (f : A -> B) (l : list A) d, map f l = map (fun k => f (nth (k - 1) l d)) (seq 1 (List.length l)).
Proof.
  intros A B f l d. induction l as [|x l IH]; [reflexivity|]. cbn [List.length seq map]. f_equal. rewrite IH, <- (seq_shift _ 1), map_map.
  apply map_ext_in. intros k Hk. apply in_seq in Hk. destruct k as [|k]; [lia|]. cbn. rewrite Nat.sub_0_r. reflexivity.
Qed.
Lemma thread_endpoint : forall mesh roles p ss r, 1 <= p <= List.length roles -> List.length ss = List.length roles - 1 ->
  thread_t mesh roles p ss r = endpoint mesh roles p (facing p ss) (stack_t roles r).
Proof.
  intros mesh roles p ss r Hp Hl. unfold thread_t, endpoint. f_equal. rewrite others_peers, map_map by exact Hp.
  rewrite (nth_map_seq _ _ sty_t ss End), Hl. apply map_seq_eq. intros k Hk. unfold facing. rewrite comm_field_peer by lia. reflexivity.
Qed.
Lemma set_nth_length : forall A k (x : A) l, List.length (set_nth k x l) = List.length l.
Proof. intros A k x l. revert k. induction l as [|y l IH]; intros [|k]; cbn; auto. Qed.
Lemma set_nth_nth : forall A k (x : A) l j d, k < List.length l -> nth j (set_nth k x l) d = if j =? k then x else nth j l d.
Proof.
  intros A k x l. revert k. induction l as [|y l IH]; intros k j d H; [cbn in H; lia|].
  destruct k as [|k], j as [|j]; cbn; try reflexivity. apply IH. cbn in H. lia.
Qed.
Lemma thread_set : forall mesh roles p q ss k r, 1 <= p <= List.length roles -> 1 <= q <= List.length roles -> q <> p ->
  List.length ss = List.length roles - 1 ->
  thread_t mesh roles p (set_nth (comm_field p q - 1) k ss) r = endpoint mesh roles p (update (facing p ss) q (sty_t k)) (stack_t roles r).
Proof.
  intros mesh roles p q ss k r Hp Hq Hne Hl. rewrite thread_endpoint by (rewrite ?set_nth_length; assumption).
  apply endpoint_ext. intros x Hx Hxp. unfold facing, update.
  destruct (peer_onto _ p q Hp Hq (not_eq_sym Hne)) as (kq & Hkq & <-). destruct (peer_onto _ p x Hp Hx (not_eq_sym Hxp)) as (kx & Hkx & <-).
  rewrite !comm_field_peer by lia. rewrite set_nth_nth by lia. destruct (Nat.eqb_spec (kx - 1) (kq - 1)) as [E1|N1], (Nat.eqb_spec (peer p kx) (peer p kq)) as [E2|N2]; try reflexivity.
  - exfalso. apply N2. f_equal. lia.
  - exfalso. apply peer_one in E2. lia.
Qed.
