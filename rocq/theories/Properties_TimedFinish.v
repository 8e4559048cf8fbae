(** C62: timed sessions in time. While there is time left everything that the roles do succeeds, and the session can be finished;
    once a window has been missed nobody can return Ok any more. On the concrete machine of Session.v, Mesh.v and TimedMesh.v, for
    any dual types that can be followed in order (C56), so also for those of examples/atmp. *)
From Coq Require Import List Arith ZArith Bool Lia.
From Verif Require Import Types Wiring WiringProofs Session Mesh MeshSpec MeshReach Links MeshInv MeshStep MeshSafe Refine Sim MeshRun Global
  MeshGlobal TidySpec OrderSpec OrderProofs MeshSched Proto ProtoProofs Corpus Properties_Mesh Properties_Global
  FairSpec FairTypes OrderEnd OrderFinish Properties_Schedule Properties_Order Properties_Corpus Properties_OrderFair Properties_Finish
  Timed TimedProofs TimedMesh TimedMeshProofs TimedMeshLocal TimedFinish Properties_TimedMesh Properties_TimedClock.
Import ListNotations.
Open Scope nat_scope.

(** All windows of the tables are open while their clocks, which are among those of the role, show at most K. *)
Definition open_tables (n : nat) (K : Z) (cs : nat -> list nat) (W : nat -> list (list window)) (BW : nat -> nat -> nat -> list (list window)) : Prop :=
  forall p, 1 <= p <= n -> all_wins (lenient K (cs p)) (W p) /\ forall b l, all_wins (lenient K (cs p)) (BW b l p).
(** Nobody has failed: nobody is panicking, whoever has returned has returned Ok. *)
Definition unharmed (n : nat) (st : @tstate heap ep) : Prop :=
  forall p, 1 <= p <= n -> tm_dead (ts_thr st p) = false /\ forall r, tresult st p = Some r -> r = ROk.
(** The clocks of all roles run, none was started before lo, and all readings from now on lie between lo and lo + K. *)
Definition time_left (n : nat) (now : nat -> nat -> Z) (cs : nat -> list nat) (K lo : Z) (st : @tstate heap ep) : Prop :=
  forall p, 1 <= p <= n ->
    (forall c, In c (cs p) -> exists v, tm_clocks (ts_thr st p) c = Some v /\ (lo <= v)%Z) /\
    forall k, tm_next (ts_thr st p) <= k -> (lo <= now p k <= lo + K)%Z.
Definition calm_trace (tr : list (nat * tinp)) : Prop := forall p i, In (p, i) tr -> i <> TIn ICrash /\ i <> TTimeout.
Definition all_returned_ok (n : nat) (st : @tstate heap ep) : Prop :=
  forall p, 1 <= p <= n -> tresult st p = Some ROk /\ t_trash (tm_thr (ts_thr st p)) = [].

Section InTime.
  Variable n : nat.
  Variable branch : nat -> nat -> nat -> mty.
  Variable labels : nat -> nat.
  Variable T : nat -> mty.
  Variable W : nat -> list (list window).
  Variable BW : nat -> nat -> nat -> list (list window).
  Variable now : nat -> nat -> Z.
  Variable cs : nat -> list nat.
  Variables K lo : Z.
  Hypothesis T_tidy : tidy_types n branch labels T.
  Hypothesis W_open : open_tables n K cs W BW.

  Notation tsteps := (tsteps heap_ops n branch BW labels now).
  Notation fits_all := (fits_all n now cs K lo).

  Lemma open_branch : forall b l p, 1 <= p <= n -> all_wins (lenient K (cs p)) (BW b l p).
  Proof. intros b l p Hp. apply W_open, Hp. Qed.
  Lemma left_fits : forall tr st, tsteps (tstart n T W) tr st -> unharmed n st -> time_left n now cs K lo st -> fits_all st.
  Proof.
    intros tr st H U L p Hp. split; [|split; [apply L, Hp|apply U, Hp]].
    apply (tsteps_tabled heap_ops n branch BW labels now cs K open_branch (tstart n T W) tr st H); [|exact Hp].
    intros q Hq. split; [apply W_open, Hq|intros c []].
  Qed.
  (** The run without time. *)
  Lemma unharmed_run : forall tr st, tsteps (tstart n T W) tr st -> unharmed n st ->
    exists jr su, steps_h n branch labels true T jr su /\ agree (erase st) su /\ (forall p i, In (p, i) jr -> i <> ICrash).
  Proof.
    intros tr st H U. destruct (tsteps_erase heap_ops n branch BW labels now _ _ _ H (start n T) (erase_init _ _ _ _ _)) as (jr & su & Hj & A & _).
    exists jr, su. split; [exact Hj|]. split; [exact A|]. apply (steps_quiet heap_ops n branch labels true _ _ _ Hj).
    intros p Hp E. destruct (U p Hp) as [_ U2]. specialize (U2 RCrash). unfold tresult in U2. rewrite <- (proj2 A p) in E. cbn in E. rewrite E in U2.
    specialize (U2 eq_refl). discriminate.
  Qed.
  Lemma quiet_unharmed : forall jr su st, steps_h n branch labels true T jr su -> (forall p i, In (p, i) jr -> i <> ICrash) -> agree (erase st) su -> fits_all st -> unharmed n st.
  Proof.
    intros jr su st H Hq A F p Hp. split; [apply F, Hp|]. intros r Hr. rewrite <- (agree_result st su p A) in Hr. unfold result_of in Hr.
    destruct T_tidy as (D1 & T1 & B).
    destruct (t_prog (st_thr su p)) as [| | |r'|] eqn:E; try discriminate. injection Hr as <-.
    exact (quiet_ok n branch labels true (fun b l Hl => proj1 (B b l Hl)) (fun b l Hl => proj2 (B b l Hl)) T D1 T1 jr su H Hq p r' Hp E).
  Qed.

  Lemma in_time_run : forall tr st tr' st', tsteps (tstart n T W) tr st -> unharmed n st -> time_left n now cs K lo st ->
    tsteps st tr' st' -> calm_trace tr' ->
    unharmed n st' /\ punctual heap_ops n branch BW labels now st tr' st' /\
    exists jr su, steps_h n branch labels true T jr su /\ agree (erase st') su /\ (forall p i, In (p, i) jr -> i <> ICrash).
  Proof.
    intros tr st tr' st' H U L H' Hc. pose proof (left_fits tr st H U L) as F.
    destruct (fits_punctual heap_ops n branch BW labels now cs K open_branch lo st tr' st' H' F Hc) as [Pu F'].
    destruct (unharmed_run tr st H U) as (jr & su & Hj & A & Q).
    assert (Ca : forall p, 1 <= p <= n -> calm (ts_thr st p)) by (intros p Hp; eapply fits_calm; apply F, Hp).
    assert (E : exists jr' su', Mesh.steps heap_ops n branch labels true su jr' su' /\ agree (erase st') su' /\ (forall p j, In (p, j) jr' -> j <> ICrash)).
    { clear H U L F' Q Hj Hc H'. revert su A Ca. induction Pu as [st|st p i st1 tr1 st2 E Q1 Q2 Hon Hs IH]; intros su A C.
      - exists [], su. split; [constructor|]. split; [exact A|]. intros ? ? [].
      - destruct (texec_inv heap_ops n branch BW labels now p i st st1 E) as (Hp & tt & s & Et & E1).
        destruct (ttstep_calm heap_ops n branch BW labels now p i _ _ _ _ (C p Hp) Hon (conj Q1 Q2) Et) as [Es Ct].
        assert (F1 : fits_all st1) by (eapply fits_exec; [exact open_branch|exact F|split; [exact Q1|exact Q2]|exact E]).
        assert (C1 : forall q, 1 <= q <= n -> calm (ts_thr st1 q)) by (intros q Hq; eapply fits_calm; apply F1, Hq).
        specialize (IH F1). subst st1. destruct (is_clock i).
        + destruct Es as [E1 E2]. apply IH; [|exact C1]. apply agree_same; assumption.
        + destruct Es as (j & Hj & Ej). destruct (exec_of heap_ops n branch labels p j tt s st su Hp A Ej) as (su1 & Ex & A1).
          destruct (IH su1 A1 C1) as (jr' & su' & Hjr & A' & NC). exists ((p, j) :: jr'), su'.
          split; [econstructor; eauto|]. split; [exact A'|]. intros q k [Eq|Hin]; [injection Eq as <- <-; exact Hj|eauto]. }
    destruct E as (jr' & su' & Hj' & A' & Q').
    assert (Q2 : forall p i, In (p, i) (jr ++ jr') -> i <> ICrash) by (intros p i Hi; apply in_app_or in Hi as [Hi|Hi]; eauto).
    pose proof (steps_app _ _ _ _ _ _ _ Hj _ _ Hj') as HJ.
    split; [exact (quiet_unharmed _ su' st' HJ Q2 A' F')|]. split; [exact Pu|]. exists (jr ++ jr'), su'. auto.
  Qed.
End InTime.

(** * While there is time, nothing fails

    Any run in which nobody has failed so far, up to a state from which all readings lie within K of the last starts of the
    clocks: whatever the roles then do, short of crashing or giving up a receive, and in whatever order, every operation is on
    time and succeeds, and in a state where nothing more can happen every role has returned Ok. *)
Theorem in_time_all_succeed : forall n branch labels T W BW now cs K lo tr st tr' st',
  tidy_types n branch labels T -> open_tables n K cs W BW ->
  tsteps heap_ops n branch BW labels now (tstart n T W) tr st -> unharmed n st -> time_left n now cs K lo st ->
  tsteps heap_ops n branch BW labels now st tr' st' -> calm_trace tr' ->
  punctual heap_ops n branch BW labels now st tr' st' /\ unharmed n st' /\
  (all_ordered n branch labels T -> (forall p i, i <> ICrash -> texec heap_ops n branch BW labels now p (TIn i) st' = None) -> all_returned_ok n st').
Proof.
  intros n branch labels T W BW now cs K lo tr st tr' st' HT HW H U L H' Hc.
  destruct (in_time_run n branch labels T W BW now cs K lo HT HW tr st tr' st' H U L H' Hc) as (U' & Pu & jr & su & Hj & A & Q).
  split; [exact Pu|]. split; [exact U'|]. intros HO Hmax.
  assert (D : dual_types n branch labels T) by (destruct HT as (D1 & _ & B); split; [exact D1|intros b l Hb; apply B, Hb]).
  destruct (order_heap n branch labels true T (fun _ => 0) (fun _ => 0) jr su D HO Hj) as [Ho|(p & i & su' & Hp & Hi & E)].
  - intros p ss hs b _ _ _ Hl. exact Hl.
  - intros p Hp. destruct (Ho p Hp) as [[r Er] Et]. rewrite <- (proj2 A p) in Er, Et. cbn in Er, Et.
    assert (R : tresult st' p = Some r) by (unfold tresult; rewrite Er; reflexivity).
    destruct (U' p Hp) as [_ U2]. rewrite R. rewrite (U2 r R). auto.
  - exfalso. assert (Hjc : i <> ICrash) by (destruct Hi as [-> |[-> | ->]]; discriminate).
    destruct (texec_enabled heap_ops n branch BW labels now p i st' su su' A Hjc E) as (i' & st2 & Hi' & E'). rewrite (Hmax p i' Hi') in E'. discriminate.
Qed.
Print Assumptions in_time_all_succeed.

(** * While there is time, the session can be finished in time

    Along any strategy that leads out of the recursion (C61), with any values, and without starting a clock again. *)
Theorem in_time_can_finish : forall n branch labels T W BW now cs K lo pick say tr st,
  tidy_types n branch labels T -> all_ordered n branch labels T -> way_out n branch labels T pick -> open_tables n K cs W BW ->
  tsteps heap_ops n branch BW labels now (tstart n T W) tr st -> unharmed n st -> time_left n now cs K lo st ->
  exists tr' st', tsteps heap_ops n branch BW labels now st tr' st' /\ calm_trace tr' /\ (forall p c, ~ In (p, TClock c) tr') /\
    (forall p v, In (p, TIn (IVal v)) tr' -> v = say p) /\ all_returned_ok n st'.
Proof.
  intros n branch labels T W BW now cs K lo pick say tr st HT HO HW Hopen H U L.
  destruct (unharmed_run n branch labels T W BW now tr st H U) as (jr & su & Hj & A & Q).
  destruct (always_can_finish n branch labels true T pick say jr su HT HO HW Hj Q) as (jr' & su' & Hh & Hv & Hok).
  pose proof (home_steps n branch labels true pick _ _ _ Hh) as Hs. pose proof (home_quiet n branch labels true pick _ _ _ Hh) as Hq.
  destruct (tsteps_follow heap_ops n branch BW labels now cs K (open_branch n W BW cs K Hopen) lo su jr' su' Hs st A
    (left_fits n branch labels T W BW now cs K lo Hopen tr st H U L) Hq) as (st' & H' & A' & _).
  exists (map (fun x => (fst x, TIn (snd x))) jr'), st'. split; [exact H'|]. split; [|split; [|split]].
  - intros p i Hi. apply in_map_iff in Hi as ([q j] & E & Hi). cbn in E. injection E as -> <-. split; [|discriminate]. intros E. injection E as ->. exact (Hq _ _ Hi eq_refl).
  - intros p c Hi. apply in_map_iff in Hi as ([q j] & E & Hi). discriminate.
  - intros p v Hi. apply in_map_iff in Hi as ([q j] & E & Hi). cbn in E. injection E as -> ->. eauto.
  - intros p Hp. destruct (Hok p Hp) as [E1 E2]. rewrite <- (proj2 A' p) in E1, E2. cbn in E1, E2. unfold tresult. rewrite E1. auto.
Qed.
Print Assumptions in_time_can_finish.

(** * A missed window cannot be made up for

    If the next operation of a role is outside its window now and at all later readings, then nobody returns Ok in any
    continuation in which that role does not start that clock again, whatever the others do and whether or not the role
    moves. *)
Theorem missed_window_nobody_ok : forall n branch labels T W BW now tr st p w c,
  dual_types n branch labels T ->
  tsteps heap_ops n branch BW labels now (tstart n T W) tr st -> 1 <= p <= n -> monotone (now p) ->
  t_trash (tm_thr (ts_thr st p)) = [] -> next_window p (ts_thr st p) = Some w -> tm_clocks (ts_thr st p) (w_clock w) = Some c ->
  (forall j, tm_next (ts_thr st p) <= j -> ~ in_window w (elapsed (now p j) c)) ->
  forall tr' st', tsteps heap_ops n branch BW labels now st tr' st' -> ~ In (p, TClock (w_clock w)) tr' ->
  forall q, 1 <= q <= n -> tresult st' q <> Some ROk.
Proof.
  intros n branch labels T W BW now tr st p w c [D1 D2] H Hp Hm Et Hw Hc Hout tr' st' H'. revert tr H Et Hw Hc Hout.
  induction H' as [st|st q i st1 tr' st2 E Hs IH]; intros tr H Et Hw Hc Hout Hn r Hr Hok.
  - destruct (timed_safe n branch labels T BW now W tr st D2 D1 H) as (hist & _ & _ & Hcl).
    specialize (Hcl r Hr Hok p Hp).
    destruct (tsteps_erase heap_ops n branch BW labels now _ _ _ H (start n T) (erase_init _ _ _ _ _)) as (jr & su & Hj & A & _).
    pose proof (open_steps heap_ops n branch labels true _ _ _ Hj (open_init heap_ops n T empty_heap) p) as Op.
    rewrite <- (proj2 A p) in Op. cbn in Op. unfold open_log in Op. unfold next_window in Hw.
    destruct (t_prog (tm_thr (ts_thr st p))) as [ss [| |x s|? ?|? ? ?|? ? ?] hs|b l [|[[x h] ms] pend] own|a s hs|res|hs]; try discriminate; exact (Op Hcl).
  - assert (H1 : tsteps heap_ops n branch BW labels now (tstart n T W) (tr ++ [(q, i)]) st1).
    { clear -H E. induction H; [cbn; econstructor; [exact E|constructor]|cbn; econstructor; eauto]. }
    assert (Hn' : ~ In (p, TClock (w_clock w)) tr') by (intros Hi; apply Hn; right; exact Hi).
    destruct (texec_inv heap_ops n branch BW labels now q i st st1 E) as (Hq & tt & s & Es & E1).
    destruct (Nat.eq_dec q p) as [->|Hne].
    + destruct (is_clock i) eqn:Hi.
      * destruct i as [| |c0]; try discriminate.
        assert (Hc0 : w_clock w <> c0) by (intros <-; apply Hn; left; reflexivity).
        unfold ttstep in Es. cbv zeta in Es. rewrite Et in Es. destruct (tm_dead (ts_thr st p)); [discriminate|].
        assert (Es' : Some (TThread (tm_thr (ts_thr st p)) (tm_wins (ts_thr st p)) (set_clock (tm_clocks (ts_thr st p)) c0 (now p (tm_next (ts_thr st p))))
                        (Datatypes.S (tm_next (ts_thr st p))) (tm_todo (ts_thr st p)) false, ts_store st) = Some (tt, s)).
        { destruct (t_prog (tm_thr (ts_thr st p))); try discriminate; exact Es. }
        injection Es' as Ett _. clear Es. revert Hok. apply (IH _ H1); try assumption; subst st1; cbn [ts_thr]; rewrite Nat.eqb_refl; rewrite <- Ett; cbn.
        -- exact Et.
        -- unfold next_window in *. cbn. exact Hw.
        -- unfold set_clock. destruct (Nat.eqb_spec (w_clock w) c0); [contradiction|exact Hc].
        -- intros j Hj. apply Hout. lia.
      * destruct (missed_window_fails_all n branch labels T BW now W tr st p w c D2 D1 H Hp Hm Et Hw Hc Hout i st1) as [_ Hno].
        -- intros c0 ->. discriminate.
        -- exact E.
        -- exact (Hno tr' st2 Hs r Hr Hok).
    + assert (Ep : ts_thr st1 p = ts_thr st p) by (subst st1; cbn; destruct (Nat.eqb_spec p q); [congruence|reflexivity]).
      revert Hok. apply (IH _ H1); rewrite ?Ep; assumption.
Qed.
Print Assumptions missed_window_nobody_ok.

(** * From the beginning *)

(** If all readings lie within K and every role has started its clocks, there is time left. *)
Lemma started_time_left : forall n branch labels T W BW now cs K lo tr st,
  (forall p k, (lo <= now p k <= lo + K)%Z) -> tsteps heap_ops n branch BW labels now (tstart n T W) tr st ->
  (forall p c, 1 <= p <= n -> In c (cs p) -> In (p, TClock c) tr) -> time_left n now cs K lo st.
Proof.
  intros n branch labels T W BW now cs K lo tr st Hn H Hs p Hp. split; [|intros k _; apply Hn].
  assert (V : forall c v, tm_clocks (ts_thr st p) c = Some v -> (lo <= v)%Z).
  { assert (V0 : forall c v, tm_clocks (ts_thr (tstart n T W) p) c = Some v -> (lo <= v)%Z) by (intros c v E; discriminate).
    clear Hs. revert V0. induction H as [st|st q i st1 tr st2 E Hs IH]; intros V0; [exact V0|]. apply IH. intros c v Ev.
    destruct (texec_inv heap_ops n branch BW labels now q i st st1 E) as (_ & tt & s & Es & ->). cbn in Ev.
    destruct (Nat.eqb_spec p q) as [->|]; [|eauto]. destruct (ttstep_later heap_ops n branch BW labels now q i _ _ _ _ Es) as [_ Hl].
    destruct (Hl c) as [E1|(k & _ & E1)]; rewrite E1 in Ev; [eauto|]. injection Ev as <-. apply Hn. }
  intros c Hc. pose proof (proj2 (clock_exists_iff_started n branch labels T BW now W tr st H p c) (Hs p c Hp Hc)) as Ex.
  destruct (tm_clocks (ts_thr st p) c) as [v|] eqn:Ev; [|congruence]. exists v. split; [reflexivity|eauto].
Qed.

(** Roles that have not begun can start clocks. *)
Definition unbegun (n : nat) (st : @tstate heap ep) : Prop :=
  forall p, 1 <= p <= n -> t_trash (tm_thr (ts_thr st p)) = [] /\ tm_dead (ts_thr st p) = false /\ exists ss r hs, t_prog (tm_thr (ts_thr st p)) = PRun ss r hs.
Lemma start_unbegun : forall n T W, dual_mesh n T -> unbegun n (tstart n T W).
Proof.
  intros n T W HT p Hp. cbn. destruct (init_follows n T HT) as (e & _ & F). unfold start. rewrite (F p Hp).
  destruct (init_form n T HT) as (L & _ & _ & _ & _ & _ & Hthr). rewrite (Hthr p Hp). cbn. split; [reflexivity|]. split; [reflexivity|]. eauto.
Qed.
Lemma start_clocks : forall n branch labels BW now todo st, unbegun n st -> (forall p c, In (p, c) todo -> 1 <= p <= n) ->
  exists st', tsteps heap_ops n branch BW labels now st (map (fun x => (fst x, TClock (snd x))) todo) st' /\ unbegun n st'.
Proof.
  induction todo as [|[p c] todo IH]; intros st U Ht; [exists st; split; [constructor|exact U]|].
  assert (Hp : 1 <= p <= n) by (apply (Ht p c); left; reflexivity).
  destruct (U p Hp) as (U1 & U2 & ss & r & hs & U3).
  set (tt := TThread (tm_thr (ts_thr st p)) (tm_wins (ts_thr st p)) (set_clock (tm_clocks (ts_thr st p)) c (now p (tm_next (ts_thr st p))))
               (Datatypes.S (tm_next (ts_thr st p))) (tm_todo (ts_thr st p)) false).
  assert (E : texec heap_ops n branch BW labels now p (TClock c) st = Some (TState (ts_store st) (fun q => if q =? p then tt else ts_thr st q))).
  { unfold texec. destruct (Nat.leb_spec 1 p), (Nat.leb_spec p n); try lia. cbn [andb]. unfold ttstep. cbv zeta. rewrite U1, U2, U3. reflexivity. }
  destruct (IH (TState (ts_store st) (fun q => if q =? p then tt else ts_thr st q))) as (st' & H1 & H2).
  - intros q Hq. cbn. destruct (Nat.eqb_spec q p); [cbn; eauto 6|apply U, Hq].
  - intros q d Hd. apply (Ht q d). right; exact Hd.
  - exists st'. split; [cbn; econstructor; eauto|exact H2].
Qed.

(** Whatever the readings, as long as they lie within K: the session can be run from its beginning to its end, along any strategy
    that leads out of the recursion, and everybody returns Ok. *)
Theorem timed_session_can_run : forall n branch labels T W BW now cs K lo pick say,
  tidy_types n branch labels T -> all_ordered n branch labels T -> way_out n branch labels T pick -> open_tables n K cs W BW ->
  (forall p k, (lo <= now p k <= lo + K)%Z) ->
  exists tr st, tsteps heap_ops n branch BW labels now (tstart n T W) tr st /\ calm_trace tr /\
    (forall p v, In (p, TIn (IVal v)) tr -> v = say p) /\ all_returned_ok n st.
Proof.
  intros n branch labels T W BW now cs K lo pick say HT HO HW Hopen Hn.
  set (todo := flat_map (fun p => map (fun c => (p, c)) (cs p)) (seq 1 n)).
  assert (In_todo : forall p c, In (p, c) todo <-> 1 <= p <= n /\ In c (cs p)).
  { intros p c. unfold todo. rewrite in_flat_map. split.
    - intros (q & Hq & Hc). apply in_map_iff in Hc as (c' & E & Hc). injection E as -> ->. apply in_seq in Hq. split; [lia|exact Hc].
    - intros [Hp Hc]. exists p. split; [apply in_seq; lia|]. apply in_map_iff. eauto. }
  destruct (start_clocks n branch labels BW now todo (tstart n T W)) as (st0 & H0 & U0).
  { apply start_unbegun. apply HT. }
  { intros p c Hc. apply In_todo in Hc. apply Hc. }
  destruct (in_time_can_finish n branch labels T W BW now cs K lo pick say _ st0 HT HO HW Hopen H0) as (tr & st & H1 & Hc & _ & Hv & Hok).
  - intros p Hp. destruct (U0 p Hp) as (_ & U2 & ss & r & hs & U3). split; [exact U2|]. intros r' Hr. unfold tresult in Hr. rewrite U3 in Hr. discriminate.
  - eapply started_time_left; [exact Hn|exact H0|]. intros p c Hp Hc. apply in_map_iff. exists (p, c). split; [reflexivity|]. apply In_todo. auto.
  - exists (map (fun x => (fst x, TClock (snd x))) todo ++ tr), st. split; [|split; [|split; [|exact Hok]]].
    + clear -H0 H1. induction H0; [exact H1|]. cbn. econstructor; eauto.
    + intros p i Hi. apply in_app_or in Hi as [Hi|Hi]; [|eauto]. apply in_map_iff in Hi as (x & E & _). injection E as _ <-. split; discriminate.
    + intros p v Hi. apply in_app_or in Hi as [Hi|Hi]; [|eauto]. apply in_map_iff in Hi as (x & E & _). discriminate.
Qed.
Print Assumptions timed_session_can_run.

(** * The timed protocols of examples/ *)

(** The same window at every operation, as in examples/atmp/fib.rs:26-44 (['a', 0, true, 10, true, ' ']) and
    examples/atmp/calculator.rs:27-75. *)
Fixpoint ops_in (s : sty) : nat := match s with End => 0 | Snd _ k | Rcv _ k => S (ops_in k) end.
Definition windows_of (f : nat -> list window) (T : mty) : list (list window) := map (fun s => f (ops_in s)) (fst T).
Definition p_wins (f : nat -> list window) (P : proto) (p : nat) : list (list window) := windows_of f (p_types P p).
Definition p_branch_wins (f : nat -> list window) (P : proto) (b l p : nat) : list (list window) := windows_of f (p_branch P b l p).
Definition upto (N : Z) (r : nat) : window := Window 97 0 true N true r.

Lemma windows_all : forall (Q : window -> Prop) f T, (forall k w, In w (f k) -> Q w) -> all_wins Q (windows_of f T).
Proof. intros Q f T Hf ws w Hws Hw. apply in_map_iff in Hws as (s & <- & _). exact (Hf _ _ Hw). Qed.
Lemma upto_lenient : forall N r, (0 <= N <= u64_max)%Z -> r = no_reset \/ r = 97 -> lenient (N * second) [97] (upto N r).
Proof.
  intros N r HN Hr. split; [|split; [cbn; lia|]].
  - cbn. destruct Hr; auto.
  - right. cbn. split; [lia|]. split; [auto|]. intros e He. unfold well_inside, in_window, upto. cbn. split; [split; intros; lia|intros; discriminate].
Qed.
Definition upto_tables (N : Z) (n : nat) (W : nat -> list (list window)) (BW : nat -> nat -> nat -> list (list window)) : Prop :=
  forall p, 1 <= p <= n -> all_wins (fun w => w = upto N no_reset \/ w = upto N 97) (W p) /\
    forall b l, all_wins (fun w => w = upto N no_reset \/ w = upto N 97) (BW b l p).
Lemma upto_open : forall n N W BW, (0 <= N <= u64_max)%Z -> upto_tables N n W BW -> open_tables n (N * second) (fun _ => [97]) W BW.
Proof.
  intros n N W BW HN H p Hp. destruct (H p Hp) as [H1 H2].
  split; [|intros b l]; intros ws w Hws Hw; [destruct (H1 ws w Hws Hw) as [->| ->]|destruct (H2 b l ws w Hws Hw) as [->| ->]]; apply upto_lenient; auto.
Qed.
Lemma p_wins_upto : forall P N r, r = no_reset \/ r = 97 -> upto_tables N (p_roles P) (p_wins (repeat (upto N r)) P) (p_branch_wins (repeat (upto N r)) P).
Proof.
  intros P N r Hr p _. split; [|intros b l]; apply windows_all; intros k w Hw; apply repeat_spec in Hw; subst w; destruct Hr as [->| ->]; auto.
Qed.

(** Every protocol of the repository, with windows ['a', 0 .. N] that reset nothing or 'a', as in all of examples/atmp but
    distributed_calculators.rs and non_feasible.rs (N = 10, in the three servo_8257 examples N = 5; remote_data.rs resets 'a' in three
    of eight windows, the others nothing): as long as the clocks show at most N seconds, the session can be finished with Ok for
    everybody. *)
Theorem repository_in_time : forall P N W BW now lo say tr st, In P all_protocols -> (0 <= N <= u64_max)%Z -> upto_tables N (p_roles P) W BW ->
  tsteps heap_ops (p_roles P) (p_branch P) BW (p_labels P) now (tstart (p_roles P) (p_types P) W) tr st ->
  unharmed (p_roles P) st -> time_left (p_roles P) now (fun _ => [97]) (N * second) lo st ->
  exists tr' st', tsteps heap_ops (p_roles P) (p_branch P) BW (p_labels P) now st tr' st' /\ calm_trace tr' /\
    (forall p c, ~ In (p, TClock c) tr') /\ (forall p v, In (p, TIn (IVal v)) tr' -> v = say p) /\ all_returned_ok (p_roles P) st'.
Proof.
  intros P N W BW now lo say tr st HP HN Hu H U L. pose proof (repository_way_out P HP) as HW. apply repository_accepted in HP.
  exact (in_time_can_finish _ _ _ _ W BW now (fun _ => [97]) _ lo _ say tr st (proj1 (proj1 (accepts_exact P) HP)) (accepted_ordered P HP) HW (upto_open _ N W BW HN Hu) H U L).
Qed.
Print Assumptions repository_in_time.

(** ** Examples: examples/atmp/http.rs and examples/atmp/non_feasible.rs *)

(** The windows of non_feasible.rs: [0 .. 1] at the first of two operations with the same role (lines 123-132, 141-150, 159-168,
    190-199, 208-217, 226-235, 261-270, 277-286, 302-311, 333-342, 378-387, 396-405, 414-423, 436-445, 454-463, 472-481), [0 .. 10]
    elsewhere; no window resets the clock 'a'. *)
Definition non_feasible_wins (k : nat) : list window :=
  match k with 2 => [upto 1 no_reset; upto 10 no_reset] | _ => repeat (upto 10 no_reset) k end.
Example two_at_most : forallb (fun T => forallb (fun s => ops_in s <=? 2) (fst T)) (p_start http ++ concat (concat (p_choices http))) = true.
Proof. reflexivity. Qed.

(** All clocks are started at 0, every later reading is 5 s. Client sends, ProxyOne passes it on, ProxyTwo receives it. *)
Definition five (p k : nat) : Z := match k with 0 => 0%Z | _ => (5 * second)%Z end.
Definition opening : list (nat * tinp) :=
  map (fun p => (p, TClock 97)) (seq 1 4) ++ [(1, TIn (IVal 0)); (2, TIn ITau); (2, TIn (IVal 0)); (3, TIn ITau)].
Fixpoint trun_p (P : proto) (f : nat -> list window) (now : nat -> nat -> Z) (tr : list (nat * tinp)) (st : @tstate heap ep) : option tstate :=
  match tr with
  | [] => Some st
  | (p, i) :: tr' => match texec heap_ops (p_roles P) (p_branch P) (p_branch_wins f P) (p_labels P) now p i st with Some st' => trun_p P f now tr' st' | None => None end
  end.
Lemma trun_p_steps : forall P f now tr st st', trun_p P f now tr st = Some st' -> tsteps heap_ops (p_roles P) (p_branch P) (p_branch_wins f P) (p_labels P) now st tr st'.
Proof.
  induction tr as [|[p i] tr IH]; intros st st' E; cbn in E; [injection E as <-; constructor|].
  destruct (texec _ _ _ _ _ _ p i st) as [st1|] eqn:E1; [|discriminate]. econstructor; eauto.
Qed.
Definition http_start (f : nat -> list window) : @tstate heap ep := tstart 4 (p_types http) (p_wins f http).

Lemma five_monotone : forall p, monotone (five p).
Proof. intros p [|i] [|j] H; cbn; try lia; unfold second; lia. Qed.
Definition look (st : @tstate heap ep) :=
  (map (fun p => (tm_dead (ts_thr st p), tresult st p, tm_clocks (ts_thr st p) 97)) (seq 1 4), tm_next (ts_thr st 3),
   t_trash (tm_thr (ts_thr st 3)), next_window 3 (ts_thr st 3)).
Lemma opening_run : forall f w k3, option_map look (trun_p http f five opening (http_start f)) =
    Some (repeat (false, None, Some 0%Z) 4, k3, [], Some w) ->
  exists st, tsteps heap_ops 4 (p_branch http) (p_branch_wins f http) (p_labels http) five (http_start f) opening st /\
    unharmed 4 st /\ (forall p, 1 <= p <= 4 -> tm_clocks (ts_thr st p) 97 = Some 0%Z) /\ tm_next (ts_thr st 3) = k3 /\
    t_trash (tm_thr (ts_thr st 3)) = [] /\ next_window 3 (ts_thr st 3) = Some w.
Proof.
  intros f w k3 E. destruct (trun_p http f five opening (http_start f)) as [st|] eqn:Er; [|discriminate]. exists st. split; [exact (trun_p_steps http f five _ _ _ Er)|].
  cbn [option_map] in E. injection E as E1 E2 E3 E4 E5 E6 E7 E8 E9 E10 E11 E12 E13 E14 E15.
  assert (K : forall p, 1 <= p <= 4 -> p = 1 \/ p = 2 \/ p = 3 \/ p = 4) by lia.
  split; [|split; [|split; [|split]]]; try assumption.
  - intros p Hp. destruct (K p Hp) as [->|[->|[->| ->]]]; (split; [assumption|]); intros r Hr; congruence.
  - intros p Hp. destruct (K p Hp) as [->|[->|[->| ->]]]; assumption.
Qed.

(** non_feasible.rs: nobody has failed and everything so far was on time, but nobody can return Ok any more. *)
Theorem non_feasible_refuted : exists st,
  tsteps heap_ops 4 (p_branch http) (p_branch_wins non_feasible_wins http) (p_labels http) five (http_start non_feasible_wins) opening st /\
  unharmed 4 st /\ (forall p, 1 <= p <= 4 -> tm_clocks (ts_thr st p) 97 = Some 0%Z) /\
  forall tr' st', tsteps heap_ops 4 (p_branch http) (p_branch_wins non_feasible_wins http) (p_labels http) five st tr' st' ->
    ~ In (3, TClock 97) tr' -> forall q, 1 <= q <= 4 -> tresult st' q <> Some ROk.
Proof.
  destruct (opening_run non_feasible_wins (upto 1 no_reset) 7) as (st & H & U & C & N & Tr & Nw); [vm_compute; reflexivity|].
  exists st. split; [exact H|]. split; [exact U|]. split; [exact C|].
  assert (D : dual_types 4 (p_branch http) (p_labels http) (p_types http)).
  { apply (accepted_dual http). vm_compute. reflexivity. }
  refine (missed_window_nobody_ok 4 (p_branch http) (p_labels http) (p_types http) _ _ five opening st 3 (upto 1 no_reset) 0%Z D H ltac:(lia) (five_monotone 3) Tr Nw _ _).
  - apply C. lia.
  - rewrite N. intros j Hj. destruct j as [|j]; [lia|]. cbn. unfold in_window, elapsed, upto, second. cbn. intros [_ K]. specialize (K ltac:(lia)). lia.
Qed.
Print Assumptions non_feasible_refuted.
(** http.rs: the same run can be finished. *)
Example http_feasible : exists st,
  tsteps heap_ops 4 (p_branch http) (p_branch_wins (repeat (upto 10 no_reset)) http) (p_labels http) five (http_start (repeat (upto 10 no_reset))) opening st /\
  exists tr' st', tsteps heap_ops 4 (p_branch http) (p_branch_wins (repeat (upto 10 no_reset)) http) (p_labels http) five st tr' st' /\
    (forall p c, ~ In (p, TClock c) tr') /\ all_returned_ok 4 st'.
Proof.
  destruct (opening_run (repeat (upto 10 no_reset)) (upto 10 no_reset) 7) as (st & H & U & C & _); [vm_compute; reflexivity|].
  exists st. split; [exact H|].
  destruct (repository_in_time http 10 (p_wins (repeat (upto 10 no_reset)) http) (p_branch_wins (repeat (upto 10 no_reset)) http) five 0%Z (fun _ => 0) opening st) as (tr' & st' & H1 & _ & H2 & _ & H3).
  - apply in_or_app. left. unfold corpus. do 6 right. left. reflexivity.
  - unfold u64_max. lia.
  - apply p_wins_upto. left. reflexivity.
  - exact H.
  - exact U.
  - intros p Hp. split; [|intros [|k] _; cbn; unfold second; lia]. intros c [<-|[]]. exists 0%Z. split; [apply C; exact Hp|lia].
  - exists tr', st'. split; [exact H1|]. split; [exact H2|exact H3].
Qed.
