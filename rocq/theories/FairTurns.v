(** Schedulers that give the roles their turns, used to show that fair executions exist. *)
From Coq Require Import List Arith Bool Lia.
From Verif Require Import Types Diag Wiring Session Mesh MeshSpec Links MeshInv MeshStep MeshSafe MeshReach Refine Sim Global MeshGlobal MeshSignal
  MeshProgress MeshBound MeshClean MeshFair Properties_Mesh Properties_Global FairSpec MeshLive.
Import ListNotations.

Definition steps_before (x : execution) (t : nat) : list (nat * inp) :=
  flat_map (fun u => match doing x u with Some s => [s] | None => [] end) (seq 0 t).

Lemma steps_snoc : forall n labels strict P st0 tr st p i st',
  steps heap_ops n (branches P n) labels strict st0 tr st -> next n labels strict P p i st = Some st' ->
  steps heap_ops n (branches P n) labels strict st0 (tr ++ [(p, i)]) st'.
Proof.
  intros n labels strict P st0 tr st p i st' H E. induction H as [s|s0 q j s1 tr s2 Hx Hs IH].
  - cbn. econstructor; [exact E|constructor].
  - cbn. econstructor; [exact Hx|apply IH; exact E].
Qed.

Lemma prefix_executes : forall n labels strict P x, valid n labels strict P x ->
  forall t, executes n labels strict P (steps_before x t) (at_time x t).
Proof.
  intros n labels strict P x [V0 V1] t. induction t as [|t IH].
  - rewrite V0. constructor.
  - unfold steps_before. rewrite seq_S, flat_map_app. fold (steps_before x t). cbn [flat_map]. rewrite app_nil_r, Nat.add_0_l.
    specialize (V1 t). destruct (doing x t) as [[p i]|].
    + eapply steps_snoc; eauto.
    + rewrite app_nil_r, V1. exact IH.
Qed.

(** Role p does what it can: it sends 0 where a value is asked for and takes the branch of [pick] at a choice. *)
Section Turns.
  Context {S H : Type}.
  Notation st_t := (@state S H).
  Variable ex : nat -> inp -> st_t -> option st_t.
  Variable pick : nat -> nat.

  Definition attempt (p : nat) (st : st_t) : option (inp * st_t) :=
    match ex p ITau st with
    | Some st' => Some (ITau, st')
    | None =>
        match ex p (IVal 0) st with
        | Some st' => Some (IVal 0, st')
        | None =>
            match t_prog (st_thr st p) with
            | PRun ss _ _ =>
                match choice_of p ss with
                | Some b => option_map (fun st' => (ILabel (pick b), st')) (ex p (ILabel (pick b)) st)
                | None => None
                end
            | _ => None
            end
        end
    end.

  (** The roles take turns as [order] says; with [true], the role is made to crash. *)
  Variable order : nat -> nat * bool.
  Definition act (t : nat) (st : st_t) : option (inp * st_t) :=
    if snd (order t) then option_map (fun st' => (ICrash, st')) (ex (fst (order t)) ICrash st) else attempt (fst (order t)) st.
  Variable st0 : st_t.
  Fixpoint turn (t : nat) : st_t :=
    match t with
    | 0 => st0
    | Datatypes.S t' => let st := turn t' in match act t' st with Some (_, st') => st' | None => st end
    end.
End Turns.

Definition turns (n : nat) (labels : nat -> nat) (strict : bool) (P : protocol) (pick : nat -> nat) (order : nat -> nat * bool) : execution :=
  let ex := next n labels strict P in
  let st := turn ex pick order (start n (proj n (first_round P))) in
  Execution st (fun t => option_map (fun a => (fst (order t), fst a)) (act ex pick order t (st t))).

Lemma attempt_next : forall n labels strict P pick p st i st', attempt (next n labels strict P) pick p st = Some (i, st') ->
  next n labels strict P p i st = Some st' /\ obeys pick p i st.
Proof.
  intros n labels strict P pick p st i st' H. unfold attempt in H.
  destruct (next n labels strict P p ITau st) as [s1|] eqn:E1; [injection H as <- <-; split; [exact E1|split; [discriminate|discriminate]]|].
  destruct (next n labels strict P p (IVal 0) st) as [s1|] eqn:E2; [injection H as <- <-; split; [exact E2|split; [discriminate|discriminate]]|].
  destruct (t_prog (st_thr st p)) as [ss r hs| | | |] eqn:Ep; try discriminate.
  destruct (choice_of p ss) as [b|] eqn:Ec; [|discriminate].
  destruct (next n labels strict P p (ILabel (pick b)) st) as [s1|] eqn:E3; [|discriminate]. injection H as <- <-. split; [exact E3|].
  split; [discriminate|]. intros l ss' r' hs' b' Hl Ep' Ec'. rewrite Ep in Ep'. injection Ep' as <- _ _. rewrite Ec in Ec'.
  injection Ec' as <-. injection Hl as <-. reflexivity.
Qed.

Lemma attempt_complete : forall n labels strict P pick e sh sl p,
  (forall b, 0 < labels b -> pick b < labels b) -> inv n (branch_g n P) labels (st_store sl) (st_thr sl) -> follows n e sh sl ->
  enabled n labels strict P p sh -> attempt (next n labels strict P) pick p sh <> None.
Proof.
  intros n labels strict P pick e sh sl p Hpick I F (i & sh' & Hi & E) HN.
  destruct (next_exec n labels strict P e sh sl p i sh' I F E) as (sl' & _ & E' & _).
  assert (Hp : 1 <= p <= n).
  { unfold exec in E'. destruct ((1 <=? p) && (p <=? n)) eqn:Hb; [|discriminate]. apply andb_true_iff in Hb. rewrite !Nat.leb_le in Hb. exact Hb. }
  assert (Hs : tstep link_ops n (branch_g n P) labels strict p i (st_thr sl p) (st_store sl) <> None).
  { unfold exec in E'. destruct ((1 <=? p) && (p <=? n)); [|discriminate].
    destruct (tstep link_ops n (branch_g n P) labels strict p i (st_thr sl p) (st_store sl)); [discriminate|discriminate]. }
  assert (Hno : forall j, next n labels strict P p j sh = None -> tstep link_ops n (branch_g n P) labels strict p j (st_thr sl p) (st_store sl) <> None -> False).
  { intros j Hj Ht. destruct (follows_exec n labels strict P e sh sl p j I F Hp Ht) as [st' Est]. congruence. }
  unfold attempt in HN.
  destruct (next n labels strict P p ITau sh) eqn:E1; [discriminate|].
  destruct (next n labels strict P p (IVal 0) sh) eqn:E2; [discriminate|].
  destruct i as [|v|l|]; [exact (Hno ITau E1 Hs)| | |congruence].
  - apply (Hno (IVal 0) E2). revert Hs. unfold tstep. destruct (t_trash (st_thr sl p)); [|congruence].
    destruct (t_prog (st_thr sl p)) as [ss r hs|b l pend own|a r hs|res|hs]; try congruence; try (destruct pend; congruence).
    destruct r as [| |y r'| | |]; try congruence. destruct (callable n p y); [|congruence].
    destruct (nth_error ss (comm_field p y - 1)) as [[|[t|b j] k|q k]|]; try congruence.
    destruct (nth_error hs (comm_field p y - 1)) as [[[m s] f]|]; [|congruence]. intros _. unfold do_send. cbn [op_send link_ops]. unfold lk_send.
    destruct (f && is_snd (l_ty (lk (st_store sl) m) s)); [|discriminate].
    destruct (l_open (lk (st_store sl) m) (negb s)); [discriminate|]. destruct strict; discriminate.
  - destruct F as [FR F]. pose proof (F p Hp) as Fp.
    unfold tstep in Hs. destruct (t_trash (st_thr sl p)) eqn:Et; [|congruence].
    destruct (t_prog (st_thr sl p)) as [ss r hs|b l0 pend own|a r hs|res|hs] eqn:Ep; try congruence; try (destruct pend; congruence).
    assert (Epc : exists hs', t_prog (st_thr sh p) = PRun ss r hs') by (rewrite Fp; cbn [map_thread t_prog]; rewrite Ep; cbn; eauto).
    destruct Epc as [hs' Epc]. rewrite Epc in HN.
    destruct r; try congruence. destruct (choice_of p ss) as [b|] eqn:Ec; [|congruence].
    destruct (Nat.ltb_spec l (labels b)) as [Hl|]; [|congruence].
    destruct (next n labels strict P p (ILabel (pick b)) sh) eqn:E3; [discriminate|].
    apply (Hno (ILabel (pick b)) E3). unfold tstep. rewrite Et, Ep, Ec.
    destruct (Nat.ltb_spec (pick b) (labels b)) as [_|Hge]; [|specialize (Hpick b ltac:(lia)); lia].
    destruct (make_choice link_ops n (branch_g n P) p b (pick b) hs (st_store sl)) as [[pr s1]|]; discriminate.
Qed.

(** ** The same turns on the specification store *)

Section Follow.
  Variable n : nat.
  Variable labels : nat -> nat.
  Variable strict : bool.
  Variable P : protocol.
  Hypothesis wf : wf_protocol n labels P.
  Variable pick : nat -> nat.
  Variable order : nat -> nat * bool.

  Notation exl := (exec link_ops n (branch_g n P) labels strict).
  Notation exh := (next n labels strict P).

  Definition agrees (a : option (inp * @state heap ep)) (b : option (inp * @state links handle)) : Prop :=
    match a, b with
    | Some (i, sh), Some (j, sl) => i = j /\ exists e hist, follows n e sh sl /\ ok n labels P hist sl
    | None, None => True
    | _, _ => False
    end.

  Lemma exec_agrees : forall e hist sh sl p i, follows n e sh sl -> ok n labels P hist sl ->
    agrees (option_map (fun s => (i, s)) (exh p i sh)) (option_map (fun s => (i, s)) (exl p i sl)).
  Proof.
    intros e hist sh sl p i F O. pose proof (exec_follows n (branch_g n P) labels strict p i e sh sl (proj1 O) F) as HE.
    unfold next. change (branches P n) with (branch_g n P).
    destruct (exec heap_ops n (branch_g n P) labels strict p i sh) as [sh'|], (exl p i sl) as [sl'|] eqn:E; cbn; try contradiction; auto.
    split; [reflexivity|]. destruct HE as [e' F']. destruct (ok_step n labels strict P wf hist sl p i sl' O E) as (_ & th' & L' & _ & _ & O'). eauto.
  Qed.

  Lemma attempt_agrees : forall e hist sh sl p, 1 <= p <= n -> follows n e sh sl -> ok n labels P hist sl ->
    agrees (attempt exh pick p sh) (attempt exl pick p sl).
  Proof.
    intros e hist sh sl p Hp F O. unfold attempt.
    pose proof (exec_agrees e hist sh sl p ITau F O) as H1. destruct (exh p ITau sh), (exl p ITau sl); cbn in H1; try contradiction; [exact H1|].
    pose proof (exec_agrees e hist sh sl p (IVal 0) F O) as H2. destruct (exh p (IVal 0) sh), (exl p (IVal 0) sl); cbn in H2; try contradiction; [exact H2|].
    pose proof F as [_ Fp]. rewrite (Fp p Hp). cbn [map_thread t_prog].
    destruct (t_prog (st_thr sl p)) as [ss r hs| | | |]; cbn [map_prog]; try exact Logic.I.
    destruct (choice_of p ss) as [b|]; [|exact Logic.I]. apply (exec_agrees e hist sh sl p (ILabel (pick b)) F O).
  Qed.

  Lemma turn_agrees : (forall t, 1 <= fst (order t) <= n) -> forall t, exists e hist,
    follows n e (turn exh pick order (start n (proj n (first_round P))) t) (turn exl pick order (init link_ops n (T_g n P) empty_links) t) /\
    ok n labels P hist (turn exl pick order (init link_ops n (T_g n P) empty_links) t).
  Proof.
    intros Ho t. induction t as [|t (e & hist & F & O)].
    - assert (H : executes n labels strict P [] (start n (proj n (first_round P)))) by constructor.
      unfold executes, start in H. change (branches P n) with (branch_g n P) in H.
      destruct (steps_follow n (branch_g n P) labels strict (branch_g_dual n labels P) (T_g n P) [] _ (T_g_dual n P) H) as (sl & Hs & _ & e & F).
      inversion Hs; subst. exists e, []. split; [exact F|]. unfold ok. pose proof (T_g_dual n P).
      split; [apply init_inv; assumption|]. split; [apply init_rinv; assumption|].
      split; [apply init_dinv; assumption|]. split; [apply ginv_init; exact wf|apply sinv_init; assumption].
    - cbn [turn]. cbv zeta. set (sh := turn exh pick order (start n (proj n (first_round P))) t) in *.
      set (sl := turn exl pick order (init link_ops n (T_g n P) empty_links) t) in *.
      assert (A : agrees (act exh pick order t sh) (act exl pick order t sl)).
      { unfold act. destruct (snd (order t)); [eapply exec_agrees; eauto|eapply attempt_agrees; eauto]. }
      destruct (act exh pick order t sh) as [[i sh']|], (act exl pick order t sl) as [[j sl']|]; cbn in A; try contradiction; [apply A|eauto].
  Qed.

  Lemma turn_acts : (forall t, 1 <= fst (order t) <= n) -> forall t,
    (doing (turns n labels strict P pick order) t = None <->
     act exl pick order t (turn exl pick order (init link_ops n (T_g n P) empty_links) t) = None).
  Proof.
    intros Ho t. destruct (turn_agrees Ho t) as (e & hist & F & O). unfold turns. cbn [doing].
    set (sh := turn exh pick order (start n (proj n (first_round P))) t) in *.
    set (sl := turn exl pick order (init link_ops n (T_g n P) empty_links) t) in *.
    assert (A : agrees (act exh pick order t sh) (act exl pick order t sl)).
    { unfold act. destruct (snd (order t)); [eapply exec_agrees; eauto|eapply attempt_agrees; eauto]. }
    destruct (act exh pick order t sh) as [[i sh']|], (act exl pick order t sl) as [[j sl']|]; cbn in A |- *; try contradiction; split; congruence.
  Qed.
End Follow.
