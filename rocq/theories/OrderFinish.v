(** Sessions that can always be finished: if choices are made along a strategy that leads out of the recursion, every way to go
    on comes to an end. Specification and proofs for C61. *)
From Coq Require Import List Arith Bool Lia Permutation.
From Verif Require Import Types Diag DiagProofs Wiring WiringProofs Session Mesh MeshSpec Links LinksProofs Refine Sim
  MeshWire MeshInv MeshStep MeshKeep MeshSafe MeshRounds MeshRun MeshLog MeshReach Global MeshGlobal MeshSignal MeshProgress MeshBound
  MeshClean MeshFair TidySpec MeshTidy MeshDet OrderSpec OrderProofs MeshOrder OrderReady OrderFair Properties_Mesh Properties_Global Properties_Order
  FairSpec FairTypes FairTurns OrderLive OrderTurns OrderEnd.
Import ListNotations.

(** If from the round R on the branch [pick b] is taken at every choice b, only finitely many choices are made: [pick] leads
    out of the recursion. *)
Inductive homeward (n : nat) (branch : nat -> nat -> nat -> mty) (labels : nat -> nat) (pick : nat -> nat) : (nat -> mty) -> Prop :=
| homeward_intro : forall R,
    (forall p s b, 1 <= p <= n -> script_of n labels R p = Some s -> In (AChoose b) s -> homeward n branch labels pick (branch b (pick b))) ->
    homeward n branch labels pick R.

(** One step without a crash along the branches of [pick], and several. *)
Definition step_home (n : nat) (branch : nat -> nat -> nat -> mty) (labels : nat -> nat) (strict : bool) (pick : nat -> nat) (st' st : @state heap ep) : Prop :=
  exists p i, obeys pick p i st /\ exec heap_ops n branch labels strict p i st = Some st'.
Inductive steps_home (n : nat) (branch : nat -> nat -> nat -> mty) (labels : nat -> nat) (strict : bool) (pick : nat -> nat) :
    @state heap ep -> list (nat * inp) -> @state heap ep -> Prop :=
| home_nil : forall st, steps_home n branch labels strict pick st [] st
| home_cons : forall st p i st1 tr st2, obeys pick p i st -> exec heap_ops n branch labels strict p i st = Some st1 ->
    steps_home n branch labels strict pick st1 tr st2 -> steps_home n branch labels strict pick st ((p, i) :: tr) st2.

Section Finish.
  Variable n : nat.
  Variable branch : nat -> nat -> nat -> mty.
  Variable labels : nat -> nat.
  Variable strict : bool.
  Hypothesis branch_dual : forall b l, l < labels b -> dual_mesh n (branch b l).
  Variable T : nat -> mty.
  Hypothesis T_dual : dual_mesh n T.
  Hypothesis T_ordered : forall R, OrderSpec.reached n labels branch T R -> ordered n labels R.
  Variable pick : nat -> nat.

  Notation RT := (round_types branch T).
  Notation ok := (OrderLive.ok n branch labels T).
  Notation mu := (OrderFair.mu n branch T).
  Notation homeward := (homeward n branch labels pick).
  Notation step_home := (step_home n branch labels strict pick).
  Notation steps_home := (steps_home n branch labels strict pick).

  (** The types of the last round begun. *)
  Lemma home_acc : forall R, homeward R -> forall m hist st sl e, RT hist (length hist) = R -> follows n e st sl -> ok hist sl ->
    mu hist (length hist) (st_store sl) (st_thr sl) <= m -> Acc step_home st.
  Proof.
    intros R HR. induction HR as [R _ IH].
    induction m as [m IHm] using lt_wf_ind. intros hist st sl e ER F O Hm. constructor. intros st' (p & i & [Hi Hob] & E).
    destruct (next_exec n branch labels strict e st sl p i st' (proj1 O) F E) as (sl' & e' & El & F').
    destruct (ok_step n branch labels strict branch_dual T T_ordered hist sl p i sl' O El) as (Hp & th' & L' & -> & C & O').
    pose proof O as (I & Rr & _ & X & _).
    destruct (record_case n branch labels strict (st_store sl) p i (st_thr sl p) th' L' hist C)
      as [Er|(b & l & ss & hs & pl & Er & Hl & Ei & Et & Ep & Ec & Ea)]; rewrite Er in *.
    - destruct (mu_step n branch labels strict branch_dual T hist (st_store sl) (st_thr sl) p i th' L' (length hist) Hp I Rr (le_n _) C) as [_ M].
      cbn zeta in M. rewrite Er in M.
      assert (Hmt : matters n (length hist) (st_thr sl p)).
      { unfold matters. destruct (t_trash (st_thr sl p)) as [|[[k s] f] rest] eqn:Et; [apply (r_thr _ _ _ _ _ Rr p Hp)|].
        assert (Hlv : live (st_store sl) (k, s, f)).
        { apply (live_link n branch labels (st_store sl) (st_thr sl) p _ Hp I). unfold all_of. rewrite Et. apply in_or_app. right; left; reflexivity. }
        destruct Hlv as [Hlt _]. rewrite (r_next _ _ _ _ _ Rr) in Hlt. unfold MeshOrder.cut. exact Hlt. }
      specialize (M Hmt). apply (IHm (mu hist (length hist) L' (set_thr (st_thr sl) p th')) ltac:(lia) hist st' _ e' ER F' O' (le_n _)).
    - assert (Hround : t_round (st_thr sl p) = length hist) by (eapply chooser_last; eauto).
      destruct (x_run _ _ _ _ _ _ _ X p _ _ _ Hp Ep) as (past & rest & S1 & S2 & _). rewrite Hround, ER in S1.
      pose proof (script_begins _ _ _ _ _ _ S2) as B. inversion B as [| | |b0 Hc0 Hl0 E1 E2|]; subst. rewrite Ec in Hc0. injection Hc0 as <-.
      assert (Hin : In (AChoose b) (past ++ [AChoose b])) by (apply in_or_app; right; left; reflexivity).
      assert (l = pick b) as ->.
      { destruct F as [_ F]. specialize (F p Hp). eapply (Hob l _ _ _ b eq_refl); [rewrite F; cbn [map_thread t_prog]; rewrite Ep; reflexivity|exact Ec]. }
      refine (IH p _ b Hp S1 Hin _ (hist ++ [(p, b, pick b)]) st' _ e' _ F' O' (le_n _)).
      rewrite app_length, Nat.add_1_r. cbn [round_types]. rewrite nth_error_app2, Nat.sub_diag by lia. reflexivity.
  Qed.

  Hypothesis T_home : forall R, OrderSpec.reached n labels branch T R -> homeward R.
  Hypothesis pick_fits : forall b, 0 < labels b -> pick b < labels b.

  Lemma last_reached : forall hist sl, ok hist sl -> OrderSpec.reached n labels branch T (RT hist (length hist)).
  Proof. intros hist sl (_ & _ & _ & X & _). apply (x_ok _ _ _ _ _ _ _ X). Qed.

  (** Every way to go on along [pick] ends. *)
  Lemma reached_acc : forall tr st, steps heap_ops n branch labels strict (start n T) tr st -> Acc step_home st.
  Proof.
    intros tr st H. destruct (OrderLive.reached n branch labels strict branch_dual T T_dual T_ordered tr st H) as (hist & sl & e & O & F).
    eapply home_acc; [apply T_home; eapply last_reached; exact O|reflexivity|exact F|exact O|apply le_n].
  Qed.

  (** What role p picks now. *)
  Definition picks (st : @state heap ep) (p : nat) : nat :=
    match t_prog (st_thr st p) with
    | PRun ss _ _ => match choice_of p ss with Some b => pick b | None => 0 end
    | _ => 0
    end.
  Lemma moves_home : forall say tr st, steps heap_ops n branch labels strict (start n T) tr st ->
    all_over n st \/ exists p i st', 1 <= p <= n /\ obeys pick p i st /\ (forall v, i = IVal v -> v = say p) /\ exec heap_ops n branch labels strict p i st = Some st'.
  Proof.
    intros say tr st H.
    destruct (order_heap n branch labels strict T say (picks st) tr st (conj T_dual branch_dual) T_ordered H) as [Hf|(p & i & st' & Hp & Hi & E)]; [|auto|].
    - intros p ss hs b Hp Ep Hc Hl. unfold picks. rewrite Ep, Hc. auto.
    - right. exists p, i, st'. split; [exact Hp|]. split; [|split; [|exact E]].
      + split; [destruct Hi as [-> |[-> | ->]]; discriminate|]. intros l ss r hs b El Ep Hc. destruct Hi as [-> |[-> | ->]]; try discriminate.
        injection El as <-. unfold picks. rewrite Ep, Hc. reflexivity.
      + intros v Ev. destruct Hi as [-> |[-> | ->]]; try discriminate. injection Ev as <-. reflexivity.
  Qed.

  Lemma steps_snoc : forall a tr b, steps heap_ops n branch labels strict a tr b -> forall p i c, exec heap_ops n branch labels strict p i b = Some c ->
    steps heap_ops n branch labels strict a (tr ++ [(p, i)]) c.
  Proof. intros a tr b H. induction H; intros q j c E; cbn; [econstructor; [exact E|constructor]|econstructor; eauto]. Qed.
  Lemma home_steps : forall a tr b, steps_home a tr b -> steps heap_ops n branch labels strict a tr b.
  Proof. induction 1; econstructor; eauto. Qed.
  Lemma home_quiet : forall a tr b, steps_home a tr b -> forall p i, In (p, i) tr -> i <> ICrash.
  Proof. induction 1 as [|st p i st1 tr st2 [Hc _] _ _ IH]; intros q j Hj; [destruct Hj|]. destruct Hj as [Hj|Hj]; [injection Hj as <- <-; exact Hc|eauto]. Qed.

  Lemma finishes : forall say tr st, steps heap_ops n branch labels strict (start n T) tr st ->
    exists tr' st', steps_home st tr' st' /\ (forall p v, In (p, IVal v) tr' -> v = say p) /\ all_over n st'.
  Proof.
    intros say tr st H. pose proof (reached_acc tr st H) as A. revert tr H. induction A as [st _ IH]. intros tr H.
    destruct (moves_home say tr st H) as [Hf|(p & i & st' & Hp & Hob & Hv & E)].
    - exists [], st. split; [constructor|]. split; [intros p v []|exact Hf].
    - destruct (IH st' (ex_intro _ p (ex_intro _ i (conj Hob E))) _ (steps_snoc _ _ _ H p i st' E)) as (tr' & st2 & H1 & H2 & H3).
      exists ((p, i) :: tr'), st2. split; [econstructor; eauto|]. split; [|exact H3].
      intros q v [Hq|Hq]; [injection Hq as <- ->; apply Hv; reflexivity|eauto].
  Qed.
End Finish.

Section AllOk.
  Variable n : nat.
  Variable branch : nat -> nat -> nat -> mty.
  Variable labels : nat -> nat.
  Variable strict : bool.
  Hypothesis branch_dual : forall b l, l < labels b -> dual_mesh n (branch b l).
  Hypothesis branch_tidy : forall b l, l < labels b -> tidy_mesh n (branch b l).
  Variable T : nat -> mty.
  Hypothesis T_dual : dual_mesh n T.
  Hypothesis T_tidy : tidy_mesh n T.

  (** Without crashes whoever has returned has returned Ok. *)
  Lemma quiet_good : forall tr sl, steps link_ops n branch labels strict (init link_ops n T empty_links) tr sl ->
    (forall p i, In (p, i) tr -> i <> ICrash) -> exists hist, good n branch labels T hist sl.
  Proof.
    intros tr sl H. remember (init link_ops n T empty_links) as s0 eqn:E0.
    assert (G : exists hist, good n branch labels T hist s0) by (subst; exists []; apply good_init; assumption). clear E0.
    induction H as [st|st p i st1 tr st2 E Hs IH]; intros Hq; [exact G|]. destruct G as [hist G].
    destruct (exec_good n branch labels strict branch_dual branch_tidy T T_dual hist st p i st1 G (Hq p i (or_introl eq_refl)) E) as (_ & th' & L' & _ & _ & G').
    apply IH; [eauto|]. intros q j Hj. apply (Hq q j). right; exact Hj.
  Qed.
  Lemma quiet_ok : forall tr st, steps heap_ops n branch labels strict (start n T) tr st -> (forall p i, In (p, i) tr -> i <> ICrash) ->
    forall p r, 1 <= p <= n -> t_prog (st_thr st p) = PFin r -> r = ROk.
  Proof.
    intros tr st H Hq p r Hp Er.
    destruct (steps_follow n branch labels strict branch_dual T tr st T_dual H) as (sl & Hs & _ & e & F).
    destruct (quiet_good tr sl Hs Hq) as [hist G]. destruct F as [_ F]. rewrite (F p Hp) in Er. cbn in Er. apply map_fin in Er.
    exact (c_ok _ _ _ (o_c _ _ _ _ _ _ G) p r Hp Er).
  Qed.
End AllOk.
