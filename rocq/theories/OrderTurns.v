(** Schedulers that give the roles their turns, for any types: fair executions exist. *)
From Coq Require Import List Arith Bool Lia.
From Verif Require Import Types Diag Wiring Session Mesh MeshSpec Links MeshInv MeshStep MeshSafe MeshReach Refine Sim Global MeshGlobal MeshSignal
  MeshProgress MeshBound MeshClean MeshFair OrderSpec MeshOrder OrderReady OrderFair Properties_Mesh Properties_Order FairSpec FairTypes FairTurns OrderLive.
Import ListNotations.

Lemma prefix_steps : forall n branch labels strict T x, FairTypes.valid n branch labels strict T x ->
  forall t, steps heap_ops n branch labels strict (start n T) (steps_before x t) (at_time x t).
Proof.
  intros n branch labels strict T x [V0 V1] t. induction t as [|t IH].
  - rewrite V0. constructor.
  - unfold steps_before. rewrite seq_S, flat_map_app. fold (steps_before x t). cbn [flat_map]. rewrite app_nil_r, Nat.add_0_l.
    specialize (V1 t). destruct (doing x t) as [[p i]|].
    + eapply steps_end; eauto.
    + rewrite app_nil_r, V1. exact IH.
Qed.

(** The roles take turns (as FairTurns.v, for any types). *)
Definition turns_of (n : nat) (branch : nat -> nat -> nat -> mty) (labels : nat -> nat) (strict : bool) (T : nat -> mty) (pick : nat -> nat) (order : nat -> nat * bool) : execution :=
  let ex := exec heap_ops n branch labels strict in
  let st := turn ex pick order (start n T) in
  Execution st (fun t => option_map (fun a => (fst (order t), fst a)) (act ex pick order t (st t))).

Lemma attempt_exec : forall n branch labels strict pick p st i st', attempt (exec heap_ops n branch labels strict) pick p st = Some (i, st') ->
  exec heap_ops n branch labels strict p i st = Some st' /\ obeys pick p i st.
Proof.
  intros n branch labels strict pick p st i st' H. unfold attempt in H.
  destruct (exec heap_ops n branch labels strict p ITau st) as [s1|] eqn:E1; [injection H as <- <-; split; [exact E1|split; [discriminate|discriminate]]|].
  destruct (exec heap_ops n branch labels strict p (IVal 0) st) as [s1|] eqn:E2; [injection H as <- <-; split; [exact E2|split; [discriminate|discriminate]]|].
  destruct (t_prog (st_thr st p)) as [ss r hs| | | |] eqn:Ep; try discriminate.
  destruct (choice_of p ss) as [b|] eqn:Ec; [|discriminate].
  destruct (exec heap_ops n branch labels strict p (ILabel (pick b)) st) as [s1|] eqn:E3; [|discriminate]. injection H as <- <-. split; [exact E3|].
  split; [discriminate|]. intros l ss' r' hs' b' Hl Ep' Ec'. rewrite Ep in Ep'. injection Ep' as <- _ _. rewrite Ec in Ec'.
  injection Ec' as <-. injection Hl as <-. reflexivity.
Qed.

Lemma attempt_goes : forall n branch labels strict pick e sh sl p,
  (forall b, 0 < labels b -> pick b < labels b) -> inv n branch labels (st_store sl) (st_thr sl) -> follows n e sh sl ->
  FairTypes.enabled n branch labels strict p sh -> attempt (exec heap_ops n branch labels strict) pick p sh <> None.
Proof.
  intros n branch labels strict pick e sh sl p Hpick I F (i & sh' & Hi & E) HN.
  destruct (next_exec n branch labels strict e sh sl p i sh' I F E) as (sl' & _ & E' & _).
  assert (Hp : 1 <= p <= n).
  { unfold exec in E'. destruct ((1 <=? p) && (p <=? n)) eqn:Hb; [|discriminate]. apply andb_true_iff in Hb. rewrite !Nat.leb_le in Hb. exact Hb. }
  assert (Hs : tstep link_ops n branch labels strict p i (st_thr sl p) (st_store sl) <> None).
  { unfold exec in E'. destruct ((1 <=? p) && (p <=? n)); [|discriminate].
    destruct (tstep link_ops n branch labels strict p i (st_thr sl p) (st_store sl)); [discriminate|discriminate]. }
  assert (Hno : forall j, exec heap_ops n branch labels strict p j sh = None -> tstep link_ops n branch labels strict p j (st_thr sl p) (st_store sl) <> None -> False).
  { intros j Hj Ht. destruct (follows_exec n branch labels strict e sh sl p j I F Hp Ht) as [st' Est]. congruence. }
  unfold attempt in HN.
  destruct (exec heap_ops n branch labels strict p ITau sh) eqn:E1; [discriminate|].
  destruct (exec heap_ops n branch labels strict p (IVal 0) sh) eqn:E2; [discriminate|].
  destruct i as [|v|l|]; [exact (Hno ITau E1 Hs)| | |congruence].
  - apply (Hno (IVal 0) E2). revert Hs. unfold tstep. destruct (t_trash (st_thr sl p)); [|congruence].
    destruct (t_prog (st_thr sl p)) as [ss r hs|b l pend own|a r hs|res|hs]; try congruence; try (destruct pend; congruence).
    destruct r as [| |y r'| | |]; try congruence. destruct (callable n p y); [|congruence].
    destruct (nth_error ss (comm_field p y - 1)) as [[|[t|b j] k|q k]|]; try congruence.
    destruct (nth_error hs (comm_field p y - 1)) as [[[m s] f]|]; [|congruence]. intros _. unfold do_send. cbn [op_send link_ops]. unfold lk_send.
    destruct (f && is_snd (l_ty (lk (st_store sl) m) s)); [|discriminate].
    destruct (l_open (lk (st_store sl) m) (negb s)); [discriminate|]. destruct strict; discriminate.
  - destruct F as [FR F]. pose proof (F p Hp) as Fp.
    unfold tstep in Hs. destruct (t_trash (st_thr sl p)) eqn:Et; [|congruence].
    destruct (t_prog (st_thr sl p)) as [ss r hs|b l0 pend own|a r hs|res|hs] eqn:Ep; try congruence; try (destruct pend; congruence).
    assert (Epc : exists hs', t_prog (st_thr sh p) = PRun ss r hs') by (rewrite Fp; cbn [map_thread t_prog]; rewrite Ep; cbn; eauto).
    destruct Epc as [hs' Epc]. rewrite Epc in HN.
    destruct r; try congruence. destruct (choice_of p ss) as [b|] eqn:Ec; [|congruence].
    destruct (Nat.ltb_spec l (labels b)) as [Hl|]; [|congruence].
    destruct (exec heap_ops n branch labels strict p (ILabel (pick b)) sh) eqn:E3; [discriminate|].
    apply (Hno (ILabel (pick b)) E3). unfold tstep. rewrite Et, Ep, Ec.
    destruct (Nat.ltb_spec (pick b) (labels b)) as [_|Hge]; [|specialize (Hpick b ltac:(lia)); lia].
    destruct (make_choice link_ops n branch p b (pick b) hs (st_store sl)) as [[pr s1]|]; discriminate.
Qed.

Theorem turns_of_fair : forall n branch labels strict T pick order,
  dual_types n branch labels T -> all_ordered n branch labels T -> (forall b, 0 < labels b -> pick b < labels b) ->
  (forall p t, 1 <= p <= n -> exists t', t <= t' /\ order t' = (p, false)) ->
  let x := turns_of n branch labels strict T pick order in
  FairTypes.valid n branch labels strict T x /\ FairTypes.fair n branch labels strict x /\
  ((forall t, snd (order t) = false) -> no_crash x /\ forall t p i, doing x t = Some (p, i) -> obeys pick p i (at_time x t)).
Proof.
  intros n branch labels strict T pick order [D1 D2] O1 Hpick Hord x.
  assert (V : FairTypes.valid n branch labels strict T x).
  { split; [reflexivity|]. intros t. unfold x, turns_of. cbn [doing at_time turn]. cbv zeta.
    destruct (act (exec heap_ops n branch labels strict) pick order t (turn (exec heap_ops n branch labels strict) pick order (start n T) t)) as [[i st']|] eqn:E; cbn [option_map fst]; [|reflexivity].
    unfold act in E. destruct (snd (order t)); [|apply attempt_exec in E; apply E].
    destruct (exec heap_ops n branch labels strict (fst (order t)) ICrash (turn (exec heap_ops n branch labels strict) pick order (start n T) t)) as [s1|] eqn:E1; [|discriminate].
    cbn [option_map] in E. injection E as <- <-. exact E1. }
  split; [exact V|]. split.
  - intros p t Hp. destruct (Hord p t Hp) as (t' & Ht & Eo). exists t'. split; [exact Ht|].
    destruct (attempt (exec heap_ops n branch labels strict) pick p (at_time x t')) as [[i st']|] eqn:E.
    + left. exists i. unfold x, turns_of. cbn [doing]. unfold act. rewrite Eo. cbn [fst snd]. unfold x, turns_of in E. cbn [at_time] in E. rewrite E. reflexivity.
    + right. intros Hen. pose proof (prefix_steps n branch labels strict T x V t') as HE.
      destruct (reached n branch labels strict D2 T D1 O1 _ _ HE) as (hist & sl & e & O & F).
      apply (attempt_goes n branch labels strict pick e (at_time x t') sl p Hpick (proj1 O) F Hen). exact E.
  - intros Hcalm.
    assert (Ho : forall t p i, doing x t = Some (p, i) -> obeys pick p i (at_time x t)).
    { intros t p i H. unfold x, turns_of in *. cbn [doing at_time] in *. unfold act in H. rewrite Hcalm in H.
      destruct (attempt (exec heap_ops n branch labels strict) pick (fst (order t)) (turn (exec heap_ops n branch labels strict) pick order (start n T) t)) as [[j st']|] eqn:E; [|discriminate].
      cbn [option_map fst] in H. injection H as <- <-. apply attempt_exec in E. apply E. }
    split; [|exact Ho]. intros t p i H. apply (Ho t p i H).
Qed.
