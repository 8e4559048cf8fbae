(** No role is left behind, for any pairwise dual types whose actions can be put in an order: proofs. The slow roles are
    brought forward by whoever is ready in their round or in an earlier one (OrderFair.v). *)
From Coq Require Import List Arith Bool Lia Permutation.
From Verif Require Import Types Diag DiagProofs Wiring WiringProofs Session Mesh MeshSpec Links LinksProofs Refine Sim
  MeshWire MeshInv MeshStep MeshKeep MeshSafe MeshRounds MeshRun MeshLog MeshReach Global MeshGlobal MeshSignal MeshProgress MeshBound
  MeshClean MeshFair TidySpec MeshTidy OrderSpec OrderProofs MeshOrder OrderReady OrderFair Properties_Mesh FairSpec FairTypes.
Import ListNotations.

Section OLive.
  Variable n : nat.
  Variable branch : nat -> nat -> nat -> mty.
  Variable labels : nat -> nat.
  Variable strict : bool.
  Hypothesis branch_dual : forall b l, l < labels b -> dual_mesh n (branch b l).
  Variable T : nat -> mty.
  Hypothesis T_dual : dual_mesh n T.
  Hypothesis T_ordered : forall R, OrderSpec.reached n labels branch T R -> ordered n labels R.
  Variable pick : nat -> nat.
  Hypothesis picks : forall b, 0 < labels b -> pick b < labels b.

  Notation lthread := (@thread handle).
  Notation lstate := (@state links handle).
  Notation cstate := (@state heap ep).
  Notation tcase := (tcase n branch labels strict).
  Notation inv := (inv n branch labels).
  Notation rinv := (rinv n labels).
  Notation dinv := (dinv n branch labels T).
  Notation xinv := (xinv n branch labels T (OrderSpec.reached n labels branch T)).
  Notation sinv := (sinv n).
  Notation cinv := (cinv n).
  Notation cut := (MeshOrder.cut n).
  Notation mu := (OrderFair.mu n branch T).
  Notation exec_l := (exec link_ops n branch labels strict).
  Notation tstep_l := (tstep link_ops n branch labels strict).
  Notation next := (exec heap_ops n branch labels strict).
  Notation ready := (OrderReady.ready n branch labels strict pick).
  Notation can := (OrderReady.can n branch labels strict).
  Notation enabled := (FairTypes.enabled n branch labels strict).
  Notation follows := (follows n).

  Lemma rounds_dual : forall R, OrderSpec.reached n labels branch T R -> dual_mesh n R.
  Proof. intros R H. destruct H; auto. Qed.
  Lemma rounds_written : forall R p, OrderSpec.reached n labels branch T R -> 1 <= p <= n -> script_of n labels R p <> None.
  Proof. intros R p HR Hp. destruct (T_ordered R HR) as (rank & H1 & _). auto. Qed.

  Lemma follows_exec : forall e sh sl p i, inv (st_store sl) (st_thr sl) -> follows e sh sl -> 1 <= p <= n ->
    tstep_l p i (st_thr sl p) (st_store sl) <> None -> exists st', next p i sh = Some st'.
  Proof.
    intros e sh sl p i I F Hp H. pose proof (exec_follows n branch labels strict p i e sh sl I F) as HE.
    destruct (next p i sh) as [st'|] eqn:E1; [eauto|]. unfold exec at 1 in HE.
    assert (Hb : (1 <=? p) && (p <=? n) = true) by (apply andb_true_iff; rewrite !Nat.leb_le; lia). rewrite Hb in HE.
    destruct (tstep_l p i (st_thr sl p) (st_store sl)) as [[th s1]|]; [contradiction|congruence].
  Qed.

  Definition ok (hist : history) (sl : lstate) : Prop :=
    inv (st_store sl) (st_thr sl) /\ rinv hist (st_store sl) (st_thr sl) /\ dinv hist (st_store sl) (st_thr sl) /\
    xinv hist (st_thr sl) /\ sinv (st_store sl) (st_thr sl).

  Lemma ok_step : forall hist sl p i sl', ok hist sl -> exec_l p i sl = Some sl' ->
    1 <= p <= n /\ exists th' L', sl' = State L' (set_thr (st_thr sl) p th') /\ tcase p (st_thr sl p) (st_store sl) i th' L' /\
      ok (record p i (st_thr sl p) hist) sl'.
  Proof.
    intros hist [L thr] p i sl' (I & R & D & G & S) H. cbn [st_store st_thr] in *.
    destruct (exec_case n branch labels strict branch_dual p i L thr sl' I H) as (Hp & th' & L' & -> & C).
    split; [exact Hp|]. exists th', L'. split; [reflexivity|]. split; [exact C|]. unfold ok. cbn [st_store st_thr].
    split; [|split; [|split; [|split]]].
    - eapply inv_case; eauto.
    - eapply rinv_case; eauto.
    - eapply dinv_case; eauto.
    - eapply xinv_step with (L := L) (strict := strict); eauto; [constructor|intros; eapply reached_next; eauto|apply rounds_written].
    - eapply sinv_step; eauto.
  Qed.

  Lemma record_longer : forall p i (th : lthread) hist, length hist <= length (record p i th hist).
  Proof.
    intros p i th hist. unfold record.
    repeat match goal with |- context [match ?x with _ => _ end] => destruct x end; rewrite ?app_length; lia.
  Qed.

  Definition rest (hist : history) (g : nat) (sl : lstate) : nat := mu hist g (st_store sl) (st_thr sl).

  (** Role z has something to do that brings forward the rounds up to g. *)
  Definition waits (z g : nat) (sl : lstate) : Prop :=
    1 <= z <= n /\
    ((exists m s f, In (m, s, f) (t_trash (st_thr sl z)) /\ m < cut g) \/
     t_round (st_thr sl z) <= g /\ ready (st_store sl) (st_thr sl) z).

  Lemma drop_can : forall L thr p, t_trash (thr p) <> [] -> tstep_l p ITau (thr p) L <> None.
  Proof.
    intros L thr p H. unfold tstep. destruct (t_trash (thr p)) as [|x r]; [congruence|]. cbn [op_drop link_ops].
    destruct (lk_drop x L). discriminate.
  Qed.

  Lemma waits_can : forall z g sl, waits z g sl -> can (st_store sl) (st_thr sl) z.
  Proof.
    intros z g sl (Hz & Hw).
    assert (Hd : t_trash (st_thr sl z) <> [] -> can (st_store sl) (st_thr sl) z).
    { intros H. exists ITau. split; [discriminate|]. apply drop_can. exact H. }
    destruct Hw as [(m & s & f & Hin & _)|[_ Hr]].
    - apply Hd. intros E. rewrite E in Hin. contradiction.
    - destruct (t_trash (st_thr sl z)) as [|x r] eqn:E; [|apply Hd; discriminate].
      eapply ready_can; [exact Hr|exact E].
  Qed.

  Lemma can_enabled : forall e sh sl p, inv (st_store sl) (st_thr sl) -> follows e sh sl -> 1 <= p <= n ->
    can (st_store sl) (st_thr sl) p -> enabled p sh.
  Proof.
    intros e sh sl p I F Hp (i & Hi & H). destruct (follows_exec e sh sl p i I F Hp H) as [st' E].
    exists i, st'. auto.
  Qed.

  (** A step brings the rounds up to g forward or leaves z waiting. *)
  Lemma waits_step : forall hist sl y i sl' z g, ok hist sl -> g <= length hist -> exec_l y i sl = Some sl' -> waits z g sl ->
    let hist' := record y i (st_thr sl y) hist in
    rest hist' g sl' < rest hist g sl \/
    rest hist' g sl' <= rest hist g sl /\ waits z g sl' /\ (y = z -> t_trash (st_thr sl z) <> []).
  Proof.
    intros hist sl y i sl' z g O Hg H (Hz & Hw) hist'.
    destruct (ok_step hist sl y i sl' O H) as (Hy & th' & L' & -> & C & O'). destruct O as (I & R & D & G & S).
    destruct (mu_step n branch labels strict branch_dual T hist (st_store sl) (st_thr sl) y i th' L' g Hy I R Hg C) as [M1 M2].
    unfold rest. cbn [st_store st_thr]. unfold hist'.
    assert (Hst : y <> z -> st_thr (State L' (set_thr (st_thr sl) y th')) z = st_thr sl z).
    { intros Hne. cbn [st_thr]. unfold set_thr. destruct (Nat.eqb_spec z y); [congruence|reflexivity]. }
    destruct Hw as [(m & s & f & Hin & Hm)|[Hr Hrd]].
    - destruct (Nat.eq_dec y z) as [->|Hne].
      + destruct (t_trash (st_thr sl z)) as [|[[m0 s0] f0] rest0] eqn:Et; [contradiction|].
        destruct (lt_dec m0 (cut g)) as [Hlow|Hhigh].
        * left. apply M2. unfold matters. rewrite Et. exact Hlow.
        * right. split; [exact M1|]. split; [|discriminate]. split; [exact Hz|]. left. exists m, s, f. split; [|exact Hm].
          cbn [st_thr]. unfold set_thr. rewrite Nat.eqb_refl.
          destruct C as [x' rest' out L1 Et' Ed| | | | | | | | | | | | | | | | | | |]; try congruence.
          rewrite Et in Et'. injection Et' as <- <-. cbn [t_trash]. apply in_or_app. right.
          destruct Hin as [Hin|Hin]; [exfalso; congruence|exact Hin].
      + right. split; [exact M1|]. split; [|congruence]. split; [exact Hz|]. left. exists m, s, f. rewrite (Hst Hne). auto.
    - assert (Hkeep : y <> z \/ t_trash (st_thr sl z) <> [] -> ready L' (set_thr (st_thr sl) y th') z)
        by (intros Hd; eapply ready_step; eauto).
      destruct (Nat.eq_dec y z) as [->|Hne].
      + destruct (t_trash (st_thr sl z)) as [|x0 rest0] eqn:Et.
        * left. apply M2. unfold matters. rewrite Et. exact Hr.
        * right. split; [exact M1|]. split; [|discriminate]. split; [exact Hz|]. right. split; [|apply Hkeep; right; discriminate].
          cbn [st_thr]. unfold set_thr. rewrite Nat.eqb_refl.
          destruct C as [x' rest' out L1 Et' Ed| | | | | | | | | | | | | | | | | | |]; try congruence. cbn [t_round]. exact Hr.
      + right. split; [exact M1|]. split; [|congruence]. split; [exact Hz|]. right. rewrite (Hst Hne). split; [exact Hr|].
        apply Hkeep. left. exact Hne.
  Qed.

  (** Somebody always waits in that sense. *)
  Lemma low_dec : forall g (xs : list handle), (exists m s f, In (m, s, f) xs /\ m < cut g) \/ forall m s f, In (m, s, f) xs -> cut g <= m.
  Proof.
    intros g xs. induction xs as [|[[m0 s0] f0] xs IH]; [right; intros m s f []|].
    destruct (lt_dec m0 (cut g)) as [H|H]; [left; exists m0, s0, f0; split; [left; reflexivity|exact H]|].
    destruct IH as [(m & s & f & Hin & Hm)|IH]; [left; exists m, s, f; split; [right; exact Hin|exact Hm]|].
    right. intros m s f [E|Hin]; [injection E as -> -> ->; lia|eapply IH; exact Hin].
  Qed.

  Lemma find_role : forall (A : nat -> Prop) (B : nat -> Prop), (forall p, A p \/ B p) ->
    (forall p, 1 <= p <= n -> A p) \/ exists p, 1 <= p <= n /\ B p.
  Proof.
    intros A B HA. assert (H : forall m, (forall p, 1 <= p <= m -> A p) \/ exists p, 1 <= p <= m /\ B p).
    { induction m as [|m [IH|(p & Hp & IH)]]; [left; intros; lia| |right; exists p; split; [lia|exact IH]].
      destruct (HA (Datatypes.S m)) as [H|H].
      - left. intros p Hp. destruct (Nat.eq_dec p (Datatypes.S m)) as [->|]; [exact H|apply IH; lia].
      - right. exists (Datatypes.S m). split; [lia|exact H]. }
    apply H.
  Qed.

  Lemma choosing_ready : forall L thr p b l pend own, t_prog (thr p) = PChoose b l pend own -> ready L thr p.
  Proof.
    intros L thr p b l pend own E. exists ITau. split; [exact Logic.I|]. unfold tstep, bare. cbn [t_trash t_prog]. rewrite E.
    destruct pend as [|[[x h] m] pend]; [discriminate|]. unfold do_choose_send. cbn [op_send link_ops].
    destruct h as [[l0 s0] f0]. unfold lk_send. destruct (f0 && is_snd (l_ty (lk L l0) s0)); [|discriminate].
    destruct (l_open (lk L l0) (negb s0)); [discriminate|]. destruct strict; discriminate.
  Qed.

  Lemma someone_waits : forall hist sl p, ok hist sl -> 1 <= p <= n -> (forall r, t_prog (st_thr sl p) <> PFin r) ->
    exists z, waits z (t_round (st_thr sl p)) sl.
  Proof.
    intros hist sl p (I & R & D & G & S) Hp Hnf. set (g := t_round (st_thr sl p)).
    destruct (find_role (fun z => (forall m s f, In (m, s, f) (t_trash (st_thr sl z)) -> cut g <= m) /\
                                  forall b l pend own, t_prog (st_thr sl z) = PChoose b l pend own -> g < t_round (st_thr sl z))
                (fun z => (exists m s f, In (m, s, f) (t_trash (st_thr sl z)) /\ m < cut g) \/
                          t_round (st_thr sl z) <= g /\ exists b l pend own, t_prog (st_thr sl z) = PChoose b l pend own))
      as [St|(z & Hz & Hw)].
    - intros z. destruct (low_dec g (t_trash (st_thr sl z))) as [H|H]; [right; left; exact H|].
      destruct (t_prog (st_thr sl z)) as [|b l pend own| | |] eqn:E; try (left; split; [exact H|discriminate]).
      destruct (le_lt_dec (t_round (st_thr sl z)) g) as [Hle|Hlt]; [right; right; eauto 6|left; split; [exact H|auto]].
    - destruct (t_prog (st_thr sl p)) as [| | |r|hs] eqn:E.
      5: { exfalso. pose proof (i_prog _ _ _ _ _ I p Hp) as PO. rewrite E in PO. exact PO. }
      4: { exfalso. exact (Hnf r eq_refl). }
      2: { exists p. split; [exact Hp|]. right. split; [unfold g; lia|eapply choosing_ready; eauto]. }
      all: assert (Hrun : MeshOrder.running (st_thr sl p)) by (unfold MeshOrder.running; rewrite E; exact Logic.I).
      all: destruct (unblock_ready n branch labels strict T (OrderSpec.reached n labels branch T) rounds_dual T_ordered pick hist (st_store sl) (st_thr sl) picks
        I R G S g St p Hp eq_refl Hrun)
        as (q & Hq & Hle & Hr).
      all: exists q; split; [exact Hq|]; right; split; assumption.
    - exists z. split; [exact Hz|]. destruct Hw as [H|[H (b & l & pend & own & E)]]; [left; exact H|right].
      split; [exact H|eapply choosing_ready; eauto].
  Qed.

  (** ** The others can always bring p forward *)

  Lemma exec_next : forall e sh sl p i sl', inv (st_store sl) (st_thr sl) -> follows e sh sl -> exec_l p i sl = Some sl' ->
    exists sh' e', next p i sh = Some sh' /\ follows e' sh' sl'.
  Proof.
    intros e sh sl p i sl' I F H. pose proof (exec_follows n branch labels strict p i e sh sl I F) as HE. rewrite H in HE.
    destruct (exec heap_ops n branch labels strict p i sh) as [sh'|]; [|contradiction]. destruct HE as [e' F']. eauto.
  Qed.
  Lemma next_exec : forall e sh sl p i sh', inv (st_store sl) (st_thr sl) -> follows e sh sl -> next p i sh = Some sh' ->
    exists sl' e', exec_l p i sl = Some sl' /\ follows e' sh' sl'.
  Proof.
    intros e sh sl p i sh' I F H. pose proof (exec_follows n branch labels strict p i e sh sl I F) as HE.
    rewrite H in HE.
    destruct (exec_l p i sl) as [sl'|]; [|contradiction]. destruct HE as [e' F']. eauto.
  Qed.

  Lemma step_exec : forall sl p i, 1 <= p <= n -> tstep_l p i (st_thr sl p) (st_store sl) <> None -> exists sl', exec_l p i sl = Some sl'.
  Proof.
    intros sl p i Hp H. unfold exec.
    assert (Hb : (1 <=? p) && (p <=? n) = true) by (apply andb_true_iff; rewrite !Nat.leb_le; lia). rewrite Hb.
    destruct (tstep_l p i (st_thr sl p) (st_store sl)) as [[th s1]|]; [eauto|congruence].
  Qed.

  Lemma polite_obeys : forall e sh sl q i, follows e sh sl -> 1 <= q <= n -> polite pick q (st_thr sl q) i -> obeys pick q i sh.
  Proof.
    intros e sh sl q i [_ F] Hq Hpol. split; [intros ->; exact Hpol|].
    intros l ss r hs b -> Ep Ec. rewrite (F q Hq) in Ep. cbn [map_thread t_prog] in Ep.
    destruct (t_prog (st_thr sl q)) as [ss0 r0 hs0| | | |] eqn:E; try discriminate. cbn [map_prog] in Ep. injection Ep as -> _ _.
    cbn [polite] in Hpol. eapply Hpol; [exact E|exact Ec].
  Qed.

  (** One step of z, under its own conditions. *)
  Lemma waits_moves : forall hist sl z g, ok hist sl -> g <= length hist -> waits z g sl ->
    exists i sl', polite pick z (st_thr sl z) i /\ exec_l z i sl = Some sl' /\
      let hist' := record z i (st_thr sl z) hist in
      rest hist' g sl' < rest hist g sl \/
      rest hist' g sl' <= rest hist g sl /\ waits z g sl' /\ store_weight (st_store sl') < store_weight (st_store sl).
  Proof.
    intros hist sl z g O Hg W. pose proof W as [Hz Hw].
    destruct (t_trash (st_thr sl z)) as [|x rest0] eqn:Et.
    - destruct Hw as [(m & s & f & [] & _)|[Hle (i & Hi & Hs)]].
      assert (Hb : bare (st_thr sl z) = st_thr sl z) by (unfold bare; rewrite <- Et; destruct (st_thr sl z); reflexivity).
      rewrite Hb in Hs. destruct (step_exec sl z i Hz Hs) as [sl' E]. exists i, sl'. split; [exact Hi|]. split; [exact E|].
      destruct (waits_step hist sl z i sl' z g O Hg E W) as [H|(_ & _ & H)]; [left; exact H|]. exfalso. apply (H eq_refl). exact Et.
    - assert (Hs : tstep_l z ITau (st_thr sl z) (st_store sl) <> None) by (apply drop_can; rewrite Et; discriminate).
      destruct (step_exec sl z ITau Hz Hs) as [sl' E]. exists ITau, sl'. split; [exact Logic.I|]. split; [exact E|].
      destruct (waits_step hist sl z ITau sl' z g O Hg E W) as [H|(H1 & H2 & _)]; [left; exact H|]. right. split; [exact H1|].
      split; [exact H2|]. destruct (ok_step hist sl z ITau sl' O E) as (_ & th' & L' & -> & C & _). cbn [st_store].
      destruct C as [x' rest' out L1 Et' Ed| | | | | | | | | | | | | | | | | | |]; try congruence.
      destruct O as (I & _). destruct (drop_weight n branch labels (st_store sl) (st_thr sl) z x' rest' out L1 Hz I Et' Ed) as (k & -> & Hl & Hlt).
      pose proof (store_set (st_store sl) _ k Hl). lia.
  Qed.

  Lemma brought_forward : forall p, 1 <= p <= n -> forall k w hist sl e sh g,
    ok hist sl -> follows e sh sl -> g <= length hist -> t_round (st_thr sl p) = g -> (forall r, t_prog (st_thr sl p) <> PFin r) ->
    rest hist g sl <= k -> forall z, waits z g sl -> store_weight (st_store sl) <= w ->
    exists sh', FairTypes.others_go n branch labels strict pick p sh sh' /\ enabled p sh'.
  Proof.
    intros p Hp k. induction k as [k IHk] using lt_wf_ind. intros w. induction w as [w IHw] using lt_wf_ind.
    intros hist sl e sh g O F Hg Hr Hnf Hk z W Hw. pose proof O as (I & _).
    destruct (Nat.eq_dec z p) as [->|Hne].
    - exists sh. split; [constructor|]. eapply can_enabled; eauto. eapply waits_can; eauto.
    - pose proof W as [Hz _]. destruct (waits_moves hist sl z g O Hg W) as (i & sl' & Hi & E & Hd). cbn zeta in Hd.
      destruct (exec_next e sh sl z i sl' I F E) as (sh1 & e' & E' & F').
      destruct (ok_step hist sl z i sl' O E) as (_ & th' & L' & Esl & C & O').
      assert (Hsame : st_thr sl' p = st_thr sl p).
      { rewrite Esl. cbn [st_thr]. unfold set_thr. destruct (Nat.eqb_spec p z); [congruence|reflexivity]. }
      assert (Hg' : g <= length (record z i (st_thr sl z) hist)) by (pose proof (record_longer z i (st_thr sl z) hist); lia).
      assert (Hr' : t_round (st_thr sl' p) = g) by (rewrite Hsame; exact Hr).
      assert (Hnf' : forall r, t_prog (st_thr sl' p) <> PFin r) by (rewrite Hsame; exact Hnf).
      assert (Hobey : obeys pick z i sh) by (eapply polite_obeys; eauto).
      assert (Hgo : forall sh', FairTypes.others_go n branch labels strict pick p sh1 sh' -> FairTypes.others_go n branch labels strict pick p sh sh')
        by (intros sh' H; eapply FairTypes.go_step; eauto).
      destruct Hd as [Hlt|(Hle & W' & Hlt)].
      + destruct (someone_waits _ sl' p O' Hp Hnf') as [z' W']. rewrite Hr' in W'.
        destruct (IHk (rest (record z i (st_thr sl z) hist) g sl') ltac:(lia) (store_weight (st_store sl')) _ sl' e' sh1 g O' F' Hg' Hr' Hnf' (le_n _) z' W' (le_n _))
          as (sh' & H1 & H2). exists sh'. auto.
      + destruct (IHw (store_weight (st_store sl')) ltac:(lia) _ sl' e' sh1 g O' F' Hg' Hr' Hnf' ltac:(lia) z W' (le_n _))
          as (sh' & H1 & H2). exists sh'. auto.
  Qed.

  Lemma reached : forall tr st, steps heap_ops n branch labels strict (start n T) tr st -> exists hist sl e, ok hist sl /\ follows e st sl.
  Proof.
    intros tr st H.
    destruct (steps_follow n branch labels strict branch_dual T tr st T_dual H) as (sl & Hs & _ & e & F).
    destruct (reach_inv n branch labels strict branch_dual T T_dual
                (fun _ hist L thr => xinv hist thr /\ sinv L thr)) with (tr := tr) (st := sl)
      as (hist & I & R & D & G & S); [| |exact Hs|].
    - split; [apply xinv_init; auto; [constructor|apply rounds_written]|apply sinv_init; exact T_dual].
    - intros tr0 hist L thr p i th' L' Hp I R D [G S] C. split; [|eapply sinv_step; eauto].
      eapply xinv_step with (L := L) (strict := strict); eauto; [constructor|intros; eapply reached_next; eauto|apply rounds_written].
    - exists hist, sl, e. split; [|exact F]. unfold ok. auto.
  Qed.

  Lemma not_fin : forall e st sl p, follows e st sl -> 1 <= p <= n -> result_of st p = None -> forall r, t_prog (st_thr sl p) <> PFin r.
  Proof.
    intros e st sl p [_ F] Hp H r E. unfold result_of in H. rewrite (F p Hp) in H. cbn [map_thread t_prog] in H. rewrite E in H. discriminate.
  Qed.

  Theorem lock_free_links : forall tr st p, steps heap_ops n branch labels strict (start n T) tr st -> 1 <= p <= n -> result_of st p = None ->
    exists st', FairTypes.others_go n branch labels strict pick p st st' /\ enabled p st'.
  Proof.
    intros tr st p H Hp Hres. destruct (reached tr st H) as (hist & sl & e & O & F).
    pose proof (not_fin e st sl p F Hp Hres) as Hnf.
    destruct (someone_waits hist sl p O Hp Hnf) as [z W].
    pose proof O as (_ & R & _). pose proof (r_thr _ _ _ _ _ R p Hp) as [Hle _].
    exact (brought_forward p Hp _ _ hist sl e st _ O F Hle eq_refl Hnf (le_n _) z W (le_n _)).
  Qed.

  (** ** Fair executions *)

  Lemma next_other : forall p i (st st' : cstate) q, q <> p -> next p i st = Some st' -> st_thr st' q = st_thr st q.
  Proof.
    intros p i st st' q Hne H. unfold exec in H. destruct ((1 <=? p) && (p <=? n)); [|discriminate].
    destruct (tstep heap_ops n branch labels strict p i (st_thr st p) (st_store st)) as [[th s1]|]; [|discriminate].
    injection H as <-. cbn [st_thr]. unfold set_thr. destruct (Nat.eqb_spec q p); [congruence|reflexivity].
  Qed.

  Variable x : execution.
  Hypothesis V : FairTypes.valid n branch labels strict T x.
  Hypothesis FA : FairTypes.fair n branch labels strict x.

  Definition tracks (t : nat) (hist : history) (sl : lstate) : Prop :=
    (exists e, follows e (at_time x t) sl) /\ ok hist sl.

  Lemma tracks_start : exists hist sl, tracks 0 hist sl.
  Proof.
    destruct V as [V0 _].
    destruct (reached [] (at_time x 0)) as (hist & sl & e & O & F); [rewrite V0; constructor|].
    exists hist, sl. split; [exists e; exact F|exact O].
  Qed.

  Lemma advance : forall t hist sl, tracks t hist sl ->
    (exists y i sl', doing x t = Some (y, i) /\ exec_l y i sl = Some sl' /\ tracks (S t) (record y i (st_thr sl y) hist) sl') \/
    (doing x t = None /\ tracks (S t) hist sl).
  Proof.
    intros t hist sl [[e F] O]. destruct V as [_ V1]. specialize (V1 t). destruct (doing x t) as [[y i]|].
    - left. destruct (next_exec e _ sl y i _ (proj1 O) F V1) as (sl' & e' & E & F'). exists y, i, sl'. split; [reflexivity|].
      split; [exact E|]. split; [exists e'; exact F'|]. destruct (ok_step hist sl y i sl' O E) as (_ & th' & L' & _ & _ & O'). exact O'.
    - right. split; [reflexivity|]. split; [exists e; rewrite V1; exact F|exact O].
  Qed.

  Definition nearer (hist : history) (g : nat) (sl : lstate) (t d : nat) : Prop :=
    exists s hist' sl', t <= s <= t + d /\ tracks s hist' sl' /\ g <= length hist' /\ rest hist' g sl' < rest hist g sl.

  Lemma nearer_later : forall hist g sl hist' sl' t d, rest hist' g sl' <= rest hist g sl -> nearer hist' g sl' (S t) d -> nearer hist g sl t (S d).
  Proof.
    intros hist g sl hist' sl' t d H (s & h2 & s2 & H1 & H2 & H3 & H4). exists s, h2, s2. split; [lia|]. split; [exact H2|]. split; [exact H3|lia].
  Qed.

  Lemma stays_waiting : forall z g d t hist sl, tracks t hist sl -> g <= length hist -> waits z g sl ->
    nearer hist g sl t d \/
    exists hist' sl', tracks (t + d) hist' sl' /\ g <= length hist' /\ rest hist' g sl' <= rest hist g sl /\ waits z g sl'.
  Proof.
    intros z g d. induction d as [|d IH]; intros t hist sl Tr Hg W.
    - right. rewrite Nat.add_0_r. exists hist, sl. auto.
    - destruct (advance t hist sl Tr) as [(y & i & sl' & _ & E & Tr')|[_ Tr']].
      + assert (Hg' : g <= length (record y i (st_thr sl y) hist)) by (pose proof (record_longer y i (st_thr sl y) hist); lia).
        destruct (waits_step hist sl y i sl' z g (proj2 Tr) Hg E W) as [H|(H1 & H2 & _)].
        * left. exists (S t), (record y i (st_thr sl y) hist), sl'. split; [lia|]. auto.
        * destruct (IH (S t) _ sl' Tr' Hg' H2) as [H|(h2 & s2 & A1 & A2 & A3 & A4)].
          -- left. eapply nearer_later; [exact H1|exact H].
          -- right. exists h2, s2. rewrite Nat.add_succ_r. split; [exact A1|]. split; [exact A2|]. split; [lia|exact A4].
      + destruct (IH (S t) _ sl Tr' Hg W) as [H|(h2 & s2 & A1 & A2 & A3 & A4)].
        * left. eapply nearer_later; [apply le_n|exact H].
        * right. exists h2, s2. rewrite Nat.add_succ_r. auto.
  Qed.

  Lemma stays_ready : forall z g d t hist sl, tracks t hist sl -> g <= length hist -> waits z g sl -> t_trash (st_thr sl z) = [] ->
    nearer hist g sl t d \/
    exists hist' sl', tracks (t + d) hist' sl' /\ g <= length hist' /\ rest hist' g sl' <= rest hist g sl /\ waits z g sl' /\
      t_trash (st_thr sl' z) = [].
  Proof.
    intros z g d. induction d as [|d IH]; intros t hist sl Tr Hg W Et.
    - right. rewrite Nat.add_0_r. exists hist, sl. auto.
    - destruct (advance t hist sl Tr) as [(y & i & sl' & _ & E & Tr')|[_ Tr']].
      + assert (Hg' : g <= length (record y i (st_thr sl y) hist)) by (pose proof (record_longer y i (st_thr sl y) hist); lia).
        destruct (waits_step hist sl y i sl' z g (proj2 Tr) Hg E W) as [H|(H1 & H2 & H3)].
        * left. exists (S t), (record y i (st_thr sl y) hist), sl'. split; [lia|]. auto.
        * assert (Hne : y <> z) by (intros Hy; exact (H3 Hy Et)).
          assert (Et' : t_trash (st_thr sl' z) = []).
          { destruct (ok_step hist sl y i sl' (proj2 Tr) E) as (_ & th' & L' & -> & _). cbn [st_thr]. unfold set_thr.
            destruct (Nat.eqb_spec z y); [congruence|exact Et]. }
          destruct (IH (S t) _ sl' Tr' Hg' H2 Et') as [H|(h2 & s2 & A1 & A2 & A3 & A4)].
          -- left. eapply nearer_later; [exact H1|exact H].
          -- right. exists h2, s2. rewrite Nat.add_succ_r. split; [exact A1|]. split; [exact A2|]. split; [lia|exact A4].
      + destruct (IH (S t) _ sl Tr' Hg W Et) as [H|(h2 & s2 & A1 & A2 & A3 & A4)].
        * left. eapply nearer_later; [apply le_n|exact H].
        * right. exists h2, s2. rewrite Nat.add_succ_r. auto.
  Qed.

  Lemma carry : forall g d t hist sl, tracks t hist sl -> g <= length hist ->
    exists hist' sl', tracks (t + d) hist' sl' /\ g <= length hist' /\ rest hist' g sl' <= rest hist g sl.
  Proof.
    intros g d. induction d as [|d IH]; intros t hist sl Tr Hg.
    - rewrite Nat.add_0_r. exists hist, sl. auto.
    - rewrite Nat.add_succ_r. destruct (advance t hist sl Tr) as [(y & i & sl' & _ & E & Tr')|[_ Tr']].
      + assert (Hg' : g <= length (record y i (st_thr sl y) hist)) by (pose proof (record_longer y i (st_thr sl y) hist); lia).
        destruct (IH (S t) _ sl' Tr' Hg') as (h2 & s2 & A1 & A2 & A3). exists h2, s2. split; [exact A1|]. split; [exact A2|].
        destruct Tr as [_ O]. destruct (ok_step hist sl y i sl' O E) as (Hy & th' & L' & -> & C & _). destruct O as (I & R & _ & G & _).
        destruct (mu_step n branch labels strict branch_dual T hist (st_store sl) (st_thr sl) y i th' L' g Hy I R Hg C) as [M1 _].
        unfold rest in *. cbn [st_store st_thr] in *. lia.
      + exact (IH (S t) hist sl Tr' Hg).
  Qed.

  (** Either role p is run, or its thread stays as it is. *)
  Lemma quiet : forall p d t,
    (exists s, t <= s < t + d /\ steps_at x p s /\ st_thr (at_time x s) p = st_thr (at_time x t) p) \/
    st_thr (at_time x (t + d)) p = st_thr (at_time x t) p.
  Proof.
    intros p d. induction d as [|d IH]; intros t.
    - right. rewrite Nat.add_0_r. reflexivity.
    - destruct (IH t) as [(s & Hs & H)|H]; [left; exists s; split; [lia|exact H]|].
      destruct V as [_ V1]. specialize (V1 (t + d)). rewrite Nat.add_succ_r.
      destruct (doing x (t + d)) as [[y i]|] eqn:E.
      + destruct (Nat.eq_dec p y) as [->|Hne].
        * left. exists (t + d). split; [lia|]. split; [exists i; exact E|exact H].
        * right. rewrite <- H. apply (next_other y i _ _ p Hne V1).
      + right. rewrite V1. exact H.
  Qed.

  Lemma same_result : forall p s t, st_thr (at_time x s) p = st_thr (at_time x t) p -> result_of (at_time x s) p = result_of (at_time x t) p.
  Proof. intros p s t H. unfold result_of. rewrite H. reflexivity. Qed.

  Lemma tracks_thr : forall t hist sl p, tracks t hist sl -> 1 <= p <= n ->
    t_round (st_thr (at_time x t) p) = t_round (st_thr sl p) /\
    (t_trash (st_thr (at_time x t) p) = [] <-> t_trash (st_thr sl p) = []).
  Proof.
    intros t hist sl p [[e [_ F]] _] Hp. rewrite (F p Hp). cbn [map_thread t_round t_trash]. split; [reflexivity|].
    destruct (t_trash (st_thr sl p)); cbn [map]; split; congruence.
  Qed.

  Lemma tracks_enabled : forall t hist sl p, tracks t hist sl -> 1 <= p <= n -> can (st_store sl) (st_thr sl) p -> enabled p (at_time x t).
  Proof. intros t hist sl p [[e F] O] Hp H. eapply can_enabled; eauto. apply O. Qed.

  Lemma runs_again : drops_end n x -> forall p, 1 <= p <= n -> forall k t hist sl g, tracks t hist sl -> g <= length hist ->
    t_round (st_thr (at_time x t) p) = g -> result_of (at_time x t) p = None -> rest hist g sl < k ->
    exists t', t <= t' /\ steps_at x p t'.
  Proof.
    intros DE p Hp k. induction k as [|k IH]; [intros; lia|]. intros t hist sl g Tr Hg Hr Hres Hk.
    (* once the measure is lower *)
    assert (Hnear : forall t1 hist1 sl1 d, t <= t1 -> rest hist1 g sl1 <= rest hist g sl -> nearer hist1 g sl1 t1 d ->
              exists t', t <= t' /\ steps_at x p t').
    { intros t1 hist1 sl1 d Ht Hle (s & h2 & s2 & Hs & Tr2 & Hg2 & Hlt).
      destruct (quiet p (s - t) t) as [(u & Hu & Hst & _)|Hq]; [exists u; split; [lia|exact Hst]|].
      replace (t + (s - t)) with s in Hq by lia.
      destruct (IH s h2 s2 g Tr2 Hg2) as (t' & Ht' & Hst); [rewrite Hq; exact Hr|rewrite (same_result p s t Hq); exact Hres|lia|].
      exists t'. split; [lia|exact Hst]. }
    destruct (FA p t Hp) as (t1 & Ht1 & [Hst|Hno]); [exists t1; auto|].
    destruct (quiet p (t1 - t) t) as [(u & Hu & Hst & _)|Hq]; [exists u; split; [lia|exact Hst]|].
    destruct (carry g (t1 - t) t hist sl Tr Hg) as (h1 & s1 & Tr1 & Hg1 & Hle1).
    replace (t + (t1 - t)) with t1 in * by lia.
    assert (Hnf1 : forall r, t_prog (st_thr s1 p) <> PFin r).
    { destruct Tr1 as [[e F] _]. eapply not_fin; [exact F|exact Hp|]. rewrite (same_result p t1 t Hq). exact Hres. }
    destruct (someone_waits h1 s1 p (proj2 Tr1) Hp Hnf1) as [z W].
    destruct (tracks_thr t1 h1 s1 p Tr1 Hp) as [Er _]. rewrite <- Er, Hq, Hr in W. pose proof W as [Hz _].
    destruct (DE z t1 Hz) as (t2 & Ht2 & Et2).
    destruct (stays_waiting z g (t2 - t1) t1 h1 s1 Tr1 Hg1 W) as [H|(h2 & s2 & Tr2 & Hg2 & Hle2 & W2)]; [eapply (Hnear t1); eauto|].
    replace (t1 + (t2 - t1)) with t2 in * by lia.
    apply (tracks_thr t2 h2 s2 z Tr2 Hz) in Et2.
    destruct (FA z t2 Hz) as (t3 & Ht3 & Hd).
    destruct (stays_ready z g (t3 - t2) t2 h2 s2 Tr2 Hg2 W2 Et2) as [H|(h3 & s3 & Tr3 & Hg3 & Hle3 & W3 & Et3)].
    { eapply (Hnear t2); [| |exact H]; lia. }
    replace (t2 + (t3 - t2)) with t3 in * by lia.
    destruct Hd as [[i Hst]|Hno'].
    - destruct (advance t3 h3 s3 Tr3) as [(y & i' & s4 & Ed & E & Tr4)|[Ed _]]; [|congruence].
      rewrite Hst in Ed. injection Ed as <- <-.
      assert (Hg4 : g <= length (record z i (st_thr s3 z) h3)) by (pose proof (record_longer z i (st_thr s3 z) h3); lia).
      destruct (waits_step h3 s3 z i s4 z g (proj2 Tr3) Hg3 E W3) as [H|(_ & _ & H)]; [|exfalso; exact (H eq_refl Et3)].
      apply (Hnear t3 h3 s3 1); [lia|lia|]. exists (S t3), (record z i (st_thr s3 z) h3), s4. split; [lia|]. auto.
    - exfalso. apply Hno'. eapply tracks_enabled; eauto. eapply waits_can; eauto.
  Qed.

  Lemma tracks_at : forall t, exists hist sl, tracks t hist sl.
  Proof.
    intros t. destruct tracks_start as (h0 & s0 & Tr0). destruct (carry 0 t 0 h0 s0 Tr0 (Nat.le_0_l _)) as (h & s & Tr & _). eauto.
  Qed.

  Lemma dropping_runs : forall p t, 1 <= p <= n -> t_trash (st_thr (at_time x t) p) <> [] ->
    exists s, t <= s /\ steps_at x p s /\ st_thr (at_time x s) p = st_thr (at_time x t) p.
  Proof.
    intros p t Hp Htr. destruct (FA p t Hp) as (t1 & Ht1 & Hd).
    destruct (quiet p (t1 - t) t) as [(u & Hu & Hst & He)|Hq]; [exists u; split; [lia|auto]|].
    replace (t + (t1 - t)) with t1 in Hq by lia. destruct Hd as [Hst|Hno]; [exists t1; auto|].
    exfalso. apply Hno. destruct (tracks_at t1) as (h & s & Tr). eapply tracks_enabled; eauto.
    exists ITau. split; [discriminate|]. apply drop_can. intros E. apply (tracks_thr t1 h s p Tr Hp) in E. rewrite Hq in E. contradiction.
  Qed.

  Theorem no_starvation_links : drops_end n x -> forall p t, 1 <= p <= n -> ~ over p (at_time x t) -> exists t', t <= t' /\ steps_at x p t'.
  Proof.
    intros DE p t Hp Hno. destruct (result_of (at_time x t) p) as [r|] eqn:Er.
    - destruct (dropping_runs p t Hp) as (s & Hs & Hst & _); [|eauto].
      intros E. apply Hno. split; [eauto|exact E].
    - destruct (tracks_at t) as (hist & sl & Tr).
      apply (runs_again DE p Hp (S (rest hist (t_round (st_thr (at_time x t) p)) sl)) t hist sl (t_round (st_thr (at_time x t) p)) Tr); auto.
      destruct (tracks_thr t hist sl p Tr Hp) as [-> _]. destruct Tr as [_ (_ & R & _)]. apply (r_thr _ _ _ _ _ R p Hp).
  Qed.

  (** *** Without crashes every drop ends *)

  Hypothesis NC : no_crash x.
  Hypothesis branch_tidy : forall b l, l < labels b -> tidy_mesh n (branch b l).
  Hypothesis T_tidy : tidy_mesh n T.
  Notation uinv := (uinv n branch T).

  (** The first time at which role p is run. *)
  Lemma first_step : forall p d t,
    (exists s, t <= s < t + d /\ steps_at x p s /\ forall u, t <= u < s -> ~ steps_at x p u) \/ forall u, t <= u < t + d -> ~ steps_at x p u.
  Proof.
    intros p d. induction d as [|d IH]; intros t; [right; intros; lia|].
    destruct (IH t) as [(s & Hs & H)|H]; [left; exists s; split; [lia|exact H]|].
    assert (Hdec : steps_at x p (t + d) \/ ~ steps_at x p (t + d)).
    { unfold steps_at. destruct (doing x (t + d)) as [[y i]|]; [|right; intros [i Hi]; discriminate].
      destruct (Nat.eq_dec y p) as [->|Hne]; [left; exists i; reflexivity|right; intros [j Hj]; congruence]. }
    destruct Hdec as [Hd|Hd].
    - left. exists (t + d). split; [lia|]. split; [exact Hd|exact H].
    - right. intros u Hu. destruct (Nat.eq_dec u (t + d)) as [->|]; [exact Hd|apply H; lia].
  Qed.

  Definition clean (t : nat) (hist : history) (sl : lstate) : Prop := tracks t hist sl /\ uinv hist (st_thr sl) /\ cinv (st_store sl) (st_thr sl).

  Lemma clean_step : forall t hist sl, clean t hist sl ->
    (exists y i sl', doing x t = Some (y, i) /\ exec_l y i sl = Some sl' /\ clean (S t) (record y i (st_thr sl y) hist) sl') \/
    (doing x t = None /\ clean (S t) hist sl).
  Proof.
    intros t hist sl [Tr [U C]]. destruct (advance t hist sl Tr) as [(y & i & sl' & Ed & E & Tr')|[Ed Tr']]; [left|right; split; [exact Ed|split; [assumption|split; assumption]]].
    exists y, i, sl'. split; [exact Ed|]. split; [exact E|]. split; [exact Tr'|].
    destruct Tr as [_ O]. destruct (ok_step hist sl y i sl' O E) as (Hy & th' & L' & -> & CA & _). destruct O as (I & R & D & G & S).
    assert (Hi : i <> ICrash) by (eapply NC; exact Ed). cbn [st_store st_thr]. split; [eapply uinv_step with (L := st_store sl); eauto|].
    eapply cinv_step_gen with (hist := hist) (T := T) (L := st_store sl) (i := i); eauto.
    + intros x0 ss r hs b q Ep Hx Es Hq Hqx. eapply tidy_offer; eauto.
      pose proof (i_prog _ _ _ _ _ I y Hy) as PO. rewrite Ep in PO. cbn in PO. destruct PO as (P1 & _ & P3).
      rewrite <- (Forall2_len _ _ _ _ _ P3). exact P1.
    + intros x0 a r hs Ep Hx Hl. eapply tidy_left; eauto.
  Qed.

  Lemma clean_at : forall t, exists hist sl, clean t hist sl.
  Proof.
    induction t as [|t (hist & sl & C)].
    - destruct V as [V0 _]. assert (H : steps heap_ops n branch labels strict (start n T) [] (at_time x 0)) by (rewrite V0; constructor).
      destruct (steps_follow n branch labels strict branch_dual T [] _ T_dual H) as (sl & Hs & _ & e & F).
      inversion Hs; subst.
      exists [], (init link_ops n T empty_links). split; [|split; [apply uinv_init; assumption|apply cinv_init_gen; assumption]].
      split; [exists e; exact F|].
      unfold ok. split; [apply init_inv; assumption|]. split; [apply init_rinv; assumption|].
      split; [apply init_dinv; assumption|]. split; [apply xinv_init; auto; [constructor|apply rounds_written]|apply sinv_init; assumption].
    - destruct (clean_step t hist sl C) as [(y & i & sl' & _ & _ & C')|[_ C']]; eauto.
  Qed.

  Lemma clean_quiet : forall z d t hist sl, clean t hist sl -> (forall u, t <= u < t + d -> ~ steps_at x z u) ->
    exists hist' sl', clean (t + d) hist' sl' /\ st_thr sl' z = st_thr sl z.
  Proof.
    intros z d. induction d as [|d IH]; intros t hist sl C Hno.
    - rewrite Nat.add_0_r. eauto.
    - rewrite Nat.add_succ_r. destruct (clean_step t hist sl C) as [(y & i & sl' & Ed & E & C')|[_ C']].
      + destruct (IH (S t) _ sl' C') as (h2 & s2 & C2 & E2); [intros u Hu; apply Hno; lia|].
        exists h2, s2. split; [exact C2|]. rewrite E2. destruct C as [[_ O] _]. destruct (ok_step hist sl y i sl' O E) as (_ & th' & L' & -> & _).
        cbn [st_thr]. unfold set_thr. destruct (Nat.eqb_spec z y) as [->|]; [|reflexivity].
        exfalso. apply (Hno t ltac:(lia)). exists i. exact Ed.
      + apply (IH (S t) hist sl C'). intros u Hu. apply Hno. lia.
  Qed.

  Definition drop_size (xs : list handle) : nat := list_sum (map (fun y => if full y then 2 else 1) xs).

  Lemma drop_shorter : forall hist sl z i sl', ok hist sl -> cinv (st_store sl) (st_thr sl) -> exec_l z i sl = Some sl' ->
    t_trash (st_thr sl z) <> [] -> drop_size (t_trash (st_thr sl' z)) < drop_size (t_trash (st_thr sl z)).
  Proof.
    intros hist sl z i sl' O C E Hne. destruct (ok_step hist sl z i sl' O E) as (Hz & th' & L' & -> & CA & _).
    cbn [st_thr]. unfold set_thr. rewrite Nat.eqb_refl.
    destruct CA as [y rest' out L1 Et Ed| | | | | | | | | | | | | | | | | | |]; try congruence.
    cbn [t_trash]. rewrite Et. destruct y as [[m s] f]. unfold lk_drop in Ed. destruct f.
    - destruct (c_trash _ _ _ C z m s Hz) as (g & q & Hq & Eh); [rewrite Et; left; reflexivity|].
      assert (Hlv : live (st_store sl) (m, s, true)).
      { destruct O as (I & _). apply (live_link n branch labels (st_store sl) (st_thr sl) z (m, s, true) Hz I).
        unfold all_of. rewrite Et. apply in_or_app. right; left; reflexivity. }
      unfold MeshRounds.hnd in Eh. injection Eh as -> ->. destruct Hlv as [Hl _].
      destruct (c_left _ _ _ C g z q Hz Hq Hl) as [[_ Hk]|(_ & Hty & _)].
      + exfalso. apply (Hk z Hz). rewrite Et. left. reflexivity.
      + rewrite Hty in Ed. cbn [is_fin] in Ed. injection Ed as <- _. cbn. lia.
    - injection Ed as <- _. cbn. lia.
  Qed.

  Lemma drops_end_links : drops_end n x.
  Proof.
    intros z t Hz.
    assert (H : forall k t hist sl, clean t hist sl -> drop_size (t_trash (st_thr sl z)) <= k ->
              exists t', t <= t' /\ t_trash (st_thr (at_time x t') z) = []).
    { clear t. induction k as [|k IH]; intros t hist sl C Hk; pose proof C as [Tr [_ CI]].
      - exists t. split; [lia|]. apply (tracks_thr t hist sl z Tr Hz).
        destruct (t_trash (st_thr sl z)) as [|y r]; [reflexivity|]. cbn in Hk. destruct (full y); lia.
      - destruct (t_trash (st_thr (at_time x t) z)) as [|y0 r0] eqn:Et; [exists t; auto|].
        assert (Hne : t_trash (st_thr sl z) <> []).
        { intros E. apply (tracks_thr t hist sl z Tr Hz) in E. rewrite Et in E. discriminate. }
        destruct (dropping_runs z t Hz) as (s0 & Hs0 & Hst0 & _); [rewrite Et; discriminate|].
        destruct (first_step z (S (s0 - t)) t) as [(s & Hs & [i Hst] & Hno)|Hno]; [|exfalso; apply (Hno s0); [lia|exact Hst0]].
        destruct (clean_quiet z (s - t) t hist sl C) as (h1 & s1 & C1 & E1); [intros u Hu; apply Hno; lia|].
        replace (t + (s - t)) with s in C1 by lia.
        destruct (clean_step s h1 s1 C1) as [(y & i' & s2 & Ed & E & C2)|[Ed _]]; [|congruence].
        rewrite Hst in Ed. injection Ed as <- <-. destruct C1 as [[_ O1] [_ CI1]].
        pose proof (drop_shorter h1 s1 z i s2 O1 CI1 E) as Hlt. rewrite E1 in Hlt. specialize (Hlt Hne).
        destruct (IH (S s) _ s2 C2) as (t' & Ht' & H'); [lia|]. exists t'. split; [lia|exact H']. }
    destruct (clean_at t) as (hist & sl & C). exact (H _ t hist sl C (le_n _)).
  Qed.
End OLive.
