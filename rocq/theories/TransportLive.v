(** Threads that use the stream, and when they can go on. Proofs for C53. *)
From Coq Require Import List Arith Bool Lia.
From Verif Require Import Types Wiring Session Mesh MeshSpec Global Binary Properties_Mesh Properties_Global Properties_Binary Transport
  TransportMirror TransportProofs.
Import ListNotations.

(** A thread that has called close is closing or has returned; a thread in the part about the stream is
    running and has nothing to drop. *)
Definition runs {H} (th : @thread H) : Prop := exists ss r hs, t_prog th = PRun ss r hs /\ t_trash th = [].
Definition closing {H} (th : @thread H) : Prop :=
  In EvClose (t_log th) -> match t_prog th with PRun _ _ _ | PChoose _ _ _ _ => False | _ => True end.

Lemma tstep_closing branch labels p i th s th' s' : tstep heap_ops 2 branch labels true p i th s = Some (th', s') ->
  closing th -> closing th' /\ (data_ops (t_log th') <> data_ops (t_log th) -> runs th').
Proof.
  unfold tstep, closing, runs. destruct (t_trash th).
  2: { destruct i; try discriminate. destruct (op_drop _ _ _). intros H. injection H as <- _. cbn. intros C. split; [exact C|intros X; contradiction X; reflexivity]. }
  assert (K' : forall P : Prop, data_ops (t_log th) <> data_ops (t_log th) -> P) by (intros P X; contradiction X; reflexivity).
  assert (In1 : forall e : event, e <> EvClose -> In EvClose (t_log th ++ [e]) -> In EvClose (t_log th)).
  { intros e Ne Hi. apply in_app_or in Hi. destruct Hi as [|[Hi|[]]]; [assumption|congruence]. }
  destruct (t_prog th) as [ss r hs|b l pend own|a r hs|res|hs] eqn:Ep; try discriminate.
  - destruct i as [|v|l|].
    + destruct r as [| |x r'| | |]; try discriminate.
      * destruct (forallb is_end ss); [|discriminate]. intros H C. injection H as <- _. cbn. split; [trivial|].
        unfold data_ops. rewrite flat_map_app. cbn. rewrite app_nil_r. exact (K' _).
      * destruct (callable 2 p x); [|discriminate]. destruct (nth_error ss _) as [[|P k|[t|b j] k]|]; try discriminate.
        -- destruct (nth_error hs _) as [h|]; [|discriminate]. unfold do_recv.
           destruct (op_recv heap_ops h s) as [[t' v|] [|] h' s1|s1| |]; try discriminate; try (destruct (t' =? t)); intros H C; injection H as <- _; cbn;
             (split; [intros Hi; try (apply C; apply In1 in Hi; [exact Hi|discriminate]); trivial|first [exact (K' _)|intros _; eauto 6]]).
        -- destruct k; try discriminate. destruct (nth_error hs _) as [h|]; [|discriminate]. destruct (j =? p); [|discriminate]. unfold do_offer.
           destruct (op_recv heap_ops h s) as [[|b' l j'] c h' s1|s1| |]; try discriminate; try (destruct ((b' =? b) && (j' =? p) && (l <? labels b)));
             intros H C; injection H as <- _; cbn; (split; [intros Hi; try (apply C; apply In1 in Hi; [exact Hi|discriminate]); trivial|]);
             unfold data_ops; rewrite ?flat_map_app; cbn; rewrite ?app_nil_r; exact (K' _).
    + destruct r as [| |x r'| | |]; try discriminate. destruct (callable 2 p x); [|discriminate].
      destruct (nth_error ss _) as [[|[t|] k|]|]; try discriminate. destruct (nth_error hs _) as [h|]; [|discriminate].
      unfold do_send. destruct (op_send heap_ops h _ _ _ _); try discriminate; intros H C; injection H as <- _; cbn;
        (split; [intros Hi; try (apply C; apply In1 in Hi; [exact Hi|discriminate]); trivial|first [exact (K' _)|intros _; eauto 6]]).
    + destruct r; try discriminate. destruct (choice_of p ss) as [b|]; [|discriminate]. destruct (l <? labels b); [|discriminate].
      destruct (make_choice _ _ _ _ _ _ _ _) as [[pr s1]|] eqn:Em; intros H C; injection H as <- _; cbn.
      * split; [|exact (K' _)]. intros Hi. contradiction (C Hi).
      * split; [auto|exact (K' _)].
    + intros H C. injection H as <- _. cbn. split; [auto|exact (K' _)].
  - destruct i; try discriminate; destruct pend as [|[[x h] m] pend]; try (intros H C; injection H as <- _; cbn; (split; [auto|exact (K' _)])).
    + unfold do_choose_send. destruct (op_send heap_ops h _ _ _ _); try discriminate; intros H C; injection H as <- _; cbn;
        (split; [intros Hi; try (apply C; apply In1 in Hi; [exact Hi|discriminate]); trivial|]);
        unfold data_ops; rewrite ?flat_map_app; cbn; rewrite ?app_nil_r; exact (K' _).
  - destruct i; try discriminate; [|intros H C; injection H as <- _; cbn; (split; [auto|exact (K' _)])].
    unfold do_close. destruct (nth_error hs a).
    + destruct (op_tell _ _ _ _); try discriminate; intros H C; injection H as <- _; cbn; (split; [auto|exact (K' _)]).
    + destruct (nth_error hs r); [|intros H C; injection H as <- _; cbn; (split; [auto|exact (K' _)])].
      destruct (op_hear _ _ _) as [[]| | |]; try discriminate; intros H C; injection H as <- _; cbn; (split; [auto|exact (K' _)]).
Qed.

Lemma step2_closing branch labels p i st st' : step2 branch labels p i st = Some st' -> (forall q, closing (st_thr st q)) ->
  (forall q, closing (st_thr st' q)) /\ (dops st' p <> dops st p -> runs (st_thr st' p)).
Proof.
  unfold step2, exec. destruct ((1 <=? p) && (p <=? 2)) eqn:Eb; [|discriminate].
  destruct (tstep _ _ _ _ _ _ _ _ _) as [[th s1]|] eqn:Ex; [|discriminate]. intros H C. injection H as <-.
  destruct (tstep_closing _ _ _ _ _ _ _ _ Ex (C p)) as [A B]. split.
  - intros q. cbn. unfold set_thr. destruct (q =? p); auto.
  - unfold dops. cbn. unfold set_thr. rewrite Nat.eqb_refl. exact B.
Qed.

Section Live.
  Variable labels : nat -> nat.
  Variable B : binary.
  Variable tcp : nat -> nat -> bool.
  Variable close_flag : nat -> bool.
  Let branch := branches (two B) 2.
  Let T := proj 2 (first_round (two B)).

  Definition is_break (a : xinp) : bool := match a with XBreak => true | _ => false end.

  Record calm (broken : bool) (x : xstate) : Prop := Calm {
    c_reach : exists tr, bexecutes labels true B tr (x_st x);
    c_close : forall q, closing (st_thr (x_st x) q);
    c_io : forall q, x_io x q <> IoNone -> 1 <= q <= 2 /\ runs (st_thr (x_st x) q);
    c_rest : forall q r, x_io x q = IoWrite r -> r <> [];
    c_shut : n_shut (x_net x) = true -> broken = true \/ exists q, 1 <= q <= 2 /\ result_of (x_st x) q = Some ROk
  }.

  Lemma result_stays p i st st' q r : step2 branch labels p i st = Some st' -> result_of st q = Some r -> result_of st' q = Some r.
  Proof.
    unfold step2, exec. destruct ((1 <=? p) && (p <=? 2)); [|discriminate].
    destruct (tstep _ _ _ _ _ _ _ _ _) as [[th s1]|] eqn:Ex; [|discriminate]. intros H Hr. injection H as <-. unfold result_of in *. cbn. unfold set_thr.
    destruct (Nat.eqb_spec q p) as [->|]; [|exact Hr]. destruct (t_prog (st_thr st p)) eqn:Ep; try discriminate. rewrite (tstep_fin _ _ _ _ _ _ _ _ _ Ex Ep). exact Hr.
  Qed.

  Lemma calm_step broken a x x' : calm broken x -> xexec branch labels tcp close_flag a x = Some x' -> calm (broken || is_break a) x'.
  Proof.
    intros [[tr R] Cl Io Re Sh] E. destruct a as [p i d|p m|p m|p|bs|]; cbn [xexec] in E.
    - destruct (x_io x p) eqn:Ei; try discriminate. destruct (step2 branch labels p i (x_st x)) as [st'|] eqn:Es; [|discriminate].
      destruct (step2_log _ _ _ _ _ _ Es) as (Hp & Ho & Hd). destruct (step2_closing _ _ _ _ _ _ Es Cl) as [Cl' Hr].
      assert (R' : exists tr', bexecutes labels true B tr' st') by (exists (tr ++ [(p, i)]); eapply reach_step; eauto).
      assert (Sh' : n_shut (x_net x) = true -> broken || false = true \/ exists q, 1 <= q <= 2 /\ result_of st' q = Some ROk).
      { intros H. destruct (Sh H) as [->|(q & Hq & Hq2)]; [now left|right]. exists q. split; [exact Hq|]. eapply result_stays; eauto. }
      unfold begin_io in E. fold (dops st' p) in E. fold (dops (x_st x) p) in E.
      destruct Hd as [Ed|(b & Ed & No)].
      + rewrite Ed, skipn_all in E. injection E as <-. constructor; cbn [x_st x_io x_net is_break]; auto.
        * intros q Hq. rewrite Ho; [now apply Io|congruence].
        * destruct (finished_ok st' p && close_flag p) eqn:Ef; [|exact Sh']. intros _. right. exists p. split; [exact Hp|].
          apply andb_true_iff in Ef. destruct Ef as [Ef _]. unfold finished_ok in Ef. unfold result_of. destruct (t_prog (st_thr st' p)) as [| | |[]|]; try discriminate. reflexivity.
      + assert (Hn : runs (st_thr st' p)) by (apply Hr; rewrite Ed; intros X; apply (f_equal (@length bool)) in X; rewrite app_length in X; cbn in X; lia).
        assert (forall io', (forall r, io' = IoWrite r -> r <> []) -> forall dt', calm (broken || false) (XState st' (x_net x) (set_at (x_io x) p io') dt')) as K.
        { intros io' Hio dt'. constructor; cbn [x_st x_io x_net]; auto.
          - intros q Hq. destruct (Nat.eq_dec q p) as [->|N]; [auto|]. rewrite set_other in Hq by exact N. rewrite Ho by exact N. now apply Io.
          - intros q r Hq. destruct (Nat.eq_dec q p) as [->|N]; [rewrite set_same in Hq; eauto|]. rewrite set_other in Hq by exact N. eapply Re; eauto. }
        rewrite Ed, skipn_app, skipn_all, Nat.sub_diag in E. cbn [skipn app] in E. destruct b.
        * destruct (Nat.eqb_spec (length d) size) as [Hl|]; [|discriminate]. injection E as <-. apply K. intros r.
          destruct (tcp p _); [|discriminate]. intros X. injection X as <-. destruct d; [discriminate|congruence].
        * destruct (tcp p _); injection E as <-; [apply K; discriminate|]. cbn [is_break]. constructor; cbn [x_st x_io x_net]; auto.
          intros q Hq. rewrite Ho; [now apply Io|congruence].
    - destruct (x_io x p) as [|rest|] eqn:Ei; try discriminate. destruct (negb _ && _ && _); [|discriminate]. injection E as <-. cbn [is_break].
      constructor; cbn [x_st x_io x_net n_shut]; eauto.
      + intros q Hq. apply Io. destruct (Nat.eq_dec q p) as [->|N]; [congruence|]. rewrite set_other in Hq by exact N. exact Hq.
      + intros q r Hq. destruct (Nat.eq_dec q p) as [->|N].
        * rewrite set_same in Hq. destruct (skipn m rest); [discriminate|]. injection Hq as <-. discriminate.
        * rewrite set_other in Hq by exact N. eapply Re; eauto.
      + intros H. destruct (Sh H) as [->|]; auto.
    - destruct (x_io x p) as [| |got] eqn:Ei; try discriminate. destruct (negb _ && _ && _ && _); [|discriminate].
      assert (forall io' n' dt', n_shut n' = n_shut (x_net x) -> (forall r, io' <> IoWrite r) -> calm (broken || false) (XState (x_st x) n' (set_at (x_io x) p io') dt')) as K.
      { intros io' n' dt' En Hio. constructor; cbn [x_st x_io x_net]; eauto.
        - intros q Hq. apply Io. destruct (Nat.eq_dec q p) as [->|N]; [congruence|]. rewrite set_other in Hq by exact N. exact Hq.
        - intros q r Hq. destruct (Nat.eq_dec q p) as [->|N]; [rewrite set_same in Hq; contradiction (Hio r)|]. rewrite set_other in Hq by exact N. eapply Re; eauto.
        - rewrite En. intros H. destruct (Sh H) as [->|]; auto. }
      destruct (length _ =? size); injection E as <-; apply K; auto; discriminate.
    - assert (forall st', step2 branch labels p ICrash (x_st x) = Some st' -> calm (broken || false) (XState st' (x_net x) (set_at (x_io x) p IoNone) (x_data x))) as K.
      { intros st' Es. destruct (step2_log _ _ _ _ _ _ Es) as (Hp & Ho & Hd). destruct (step2_closing _ _ _ _ _ _ Es Cl) as [Cl' Hr].
        constructor; cbn [x_st x_io x_net]; auto.
        - exists (tr ++ [(p, ICrash)]). eapply reach_step; eauto.
        - intros q Hq. destruct (Nat.eq_dec q p) as [->|N]; [rewrite set_same in Hq; congruence|]. rewrite set_other in Hq by exact N. rewrite Ho by exact N. now apply Io.
        - intros q r Hq. destruct (Nat.eq_dec q p) as [->|N]; [rewrite set_same in Hq; discriminate|]. rewrite set_other in Hq by exact N. eapply Re; eauto.
        - intros H. destruct (Sh H) as [->|(q & Hq & Hq2)]; [now left|right]. exists q. split; [exact Hq|]. eapply result_stays; eauto. }
      cbn [is_break]. destruct (x_io x p); try discriminate; (destruct (n_shut (x_net x)); [|discriminate]);
        (destruct (step2 branch labels p ICrash (x_st x)) as [st'|]; [|discriminate]); injection E as <-; auto.
    - destruct bs; [discriminate|]. injection E as <-. cbn [is_break]. constructor; cbn [x_st x_io x_net n_shut]; eauto.
      intros H. destruct (Sh H) as [->|]; auto.
    - injection E as <-. cbn [is_break]. constructor; cbn [x_st x_io x_net n_shut]; eauto. intros _. left. apply orb_true_r.
  Qed.

  Lemma calm_start : calm false (xstart T).
  Proof.
    constructor; cbn [xstart x_io x_net n_shut]; try congruence; try discriminate.
    - exists []. apply steps_nil.
    - intros q. unfold xstart, init, closing. destruct (alloc _ _ _) as [prs s1]; cbn [x_st st_thr]. destruct (fork_mesh 2 q) as [es|]; [destruct (pick_all prs es)|]; intros [].
  Qed.

  Lemma calm_runs srv x tr x' broken : xruns branch labels tcp close_flag srv x tr x' -> calm broken x -> calm (broken || existsb is_break tr) x'.
  Proof.
    intros H. revert broken. induction H as [x|x a x1 tr x2 E Hs H IH]; intros broken C; cbn.
    - rewrite orb_false_r. exact C.
    - rewrite orb_assoc. apply IH. eapply calm_step; eauto.
  Qed.

  (** The connection is not shut down while a thread uses it. *)
  Theorem in_use srv tr x p : xruns branch labels tcp close_flag srv (xstart T) tr x -> ~ In XBreak tr -> x_io x p <> IoNone -> n_shut (x_net x) = false.
  Proof.
    intros H Nb Hp. destruct (calm_runs _ _ _ _ false H calm_start) as [[tr' R] Cl Io _ Sh].
    destruct (n_shut (x_net x)); [|reflexivity]. destruct (Io p Hp) as [Hr (ss & r & hs & Ep & _)].
    destruct (Sh eq_refl) as [Hb|(q & Hq & Hres)].
    - cbn in Hb. apply existsb_exists in Hb. destruct Hb as (a & Ha & Hb). destruct a; try discriminate. contradiction.
    - exfalso. destruct (binary_close labels true B tr' (x_st x) R q Hq) as [X _]. destruct (X Hres) as [X1 X2].
      assert (In EvClose (t_log (st_thr (x_st x) p))) as Hc by (destruct (two_roles q p Hq Hr) as [->| ->]; assumption).
      apply Cl in Hc. rewrite Ep in Hc. exact Hc.
  Qed.

  (** ** Somebody can go on *)
  Variable agree : forall k, tcp 1 k = tcp 2 k.

  Lemma io_progress tr x : xruns branch labels tcp close_flag echo (xstart T) tr x ->
    forall p, 1 <= p <= 2 -> x_io x p <> IoNone ->
    exists a x', xexec branch labels tcp close_flag a x = Some x' /\ echo (x_net x') /\
      match a with XDo _ _ _ | XBreak => False | XFail _ => n_shut (x_net x) = true | _ => True end.
  Proof.
    intros H. pose proof (calm_runs _ _ _ _ false H calm_start) as [[tr' R] Cl Io Re _].
    destruct (stream_good labels B tcp close_flag agree tr x H) as [ms G].
    assert (Wr : forall p r, x_io x p = IoWrite r -> n_shut (x_net x) = false -> exists a x', xexec branch labels tcp close_flag a x = Some x' /\ echo (x_net x') /\
      match a with XDo _ _ _ | XBreak => False | XFail _ => n_shut (x_net x) = true | _ => True end).
    { intros p r Ei Hsh. exists (XWrite p 1). cbn [xexec]. rewrite Ei, Hsh. pose proof (Re p r Ei) as Hr. destruct r as [|b r]; [congruence|].
      cbn [negb andb Nat.leb length]. eexists. split; [reflexivity|]. split; [|exact Logic.I]. destruct (g_echo _ _ _ _ _ G) as [rest E].
      exists (rest ++ [b]). cbn. rewrite E, app_assoc. reflexivity. }
    intros p Hp Ni. destruct (n_shut (x_net x)) eqn:Hsh.
      - destruct (Io p Ni) as [_ (ss & r & hs & Ep & Et)].
        exists (XFail p). cbn [xexec]. rewrite Hsh. assert (exists st', step2 branch labels p ICrash (x_st x) = Some st') as [st' Es].
        { unfold step2, exec. replace ((1 <=? p) && (p <=? 2)) with true by (symmetry; rewrite andb_true_iff, !Nat.leb_le; lia).
          unfold tstep. rewrite Et, Ep. eauto. }
        rewrite Es. destruct (x_io x p); [congruence| |]; eexists; (split; [reflexivity|]); (split; [exact (g_echo _ _ _ _ _ G)|reflexivity]).
      - destruct (x_io x p) as [|r|g] eqn:Ei; [congruence|apply (Wr p r Ei eq_refl)|].
        assert (RP := g_role _ _ _ _ _ G p Hp). destruct (ro_read _ _ _ _ RP g Ei) as (Lg & k & E1 & E2 & E3).
        destruct (Nat.lt_ge_cases (n_pos (x_net x)) (length (n_down (x_net x)))) as [Hl|Hl].
        { exists (XRead p 1). cbn [xexec]. rewrite Ei, Hsh. cbn [negb andb].
          replace ((1 <=? 1) && (length g + 1 <=? size) && (n_pos (x_net x) + 1 <=? length (n_down (x_net x)))) with true
            by (symmetry; rewrite !andb_true_iff, !Nat.leb_le; lia).
          destruct (length (g ++ slice (n_pos (x_net x)) 1 (n_down (x_net x))) =? size); eexists; (split; [reflexivity|]); (split; [exact (g_echo _ _ _ _ _ G)|exact Logic.I]). }
        pose proof (ro_up _ _ _ _ RP Hsh) as U.
        destruct (x_io x (peer_of p)) as [|r|g'] eqn:Eq; cbn [wpart] in U.
        2: apply (Wr (peer_of p) r Eq eq_refl).
        2: { destruct (reader_behind labels B tcp x ms (peer_of p) G (peer_in p Hp) ltac:(rewrite Eq; reflexivity)) as [_ X].
             rewrite (peer_peer p Hp), Ei in X. discriminate. }
        rewrite Ei in U. cbn [wpart app] in U. rewrite app_nil_r in U.
        destruct (reader_behind labels B tcp x ms p G Hp ltac:(rewrite Ei; reflexivity)) as [Hb Hn].
        destruct (nth_error ms k) as [dm|] eqn:Em.
        2: { apply nth_error_None in Em. rewrite (ro_max _ _ _ _ RP) in Em. lia. }
        assert (n_pos (x_net x) = length (flagged (tcp 1) 0 (firstn k ms)) + length g) as P1.
        { destruct (g_down _ _ _ _ _ G Hsh) as (c & g' & (q & Hq & H4 & H5) & E7 & E8). destruct (two_roles p q Hp Hq) as [->| ->].
          - rewrite Ei in H5. destruct H5 as [[H5 H6]|(H5 & _)]; [|discriminate]. injection H5 as <-. assert (c = k) as -> by lia. exact E7.
          - rewrite (peer_peer p Hp), Ei in H4. discriminate. }
        assert (Ld : length dm = size) by (eapply sizes_at; [apply (g_sizes _ _ _ _ _ G)|exact Em]).
        destruct (g_echo _ _ _ _ _ G) as [rest Er]. rewrite (flagged_split (tcp 1) k ms dm Em), E3 in U.
        apply (f_equal (@length nat)) in U. rewrite Er, !app_length, Ld in U.
        destruct rest as [|b rest]; [cbn [length] in U; lia|].
        exists (XServer [b]). cbn [xexec]. eexists. split; [reflexivity|]. split; [|exact Logic.I]. exists rest. cbn. rewrite Er, <- app_assoc. reflexivity.
  Qed.

  Lemma xprogress tr x : wf_binary labels B -> xruns branch labels tcp close_flag echo (xstart T) tr x ->
    (all_over 2 (x_st x) /\ forall p, x_io x p = IoNone) \/
    exists a x', xexec branch labels tcp close_flag a x = Some x' /\ echo (x_net x') /\
      match a with XDo _ i _ => i <> ICrash | XFail _ => n_shut (x_net x) = true | XBreak => False | _ => True end.
  Proof.
    intros W H. pose proof (calm_runs _ _ _ _ false H calm_start) as [[tr' R] Cl Io Re _].
    destruct (stream_good labels B tcp close_flag agree tr x H) as [ms G].
    assert (Go : forall p, 1 <= p <= 2 -> x_io x p <> IoNone -> exists a x', xexec branch labels tcp close_flag a x = Some x' /\ echo (x_net x') /\
      match a with XDo _ i _ => i <> ICrash | XFail _ => n_shut (x_net x) = true | XBreak => False | _ => True end).
    { intros p Hp Ni. destruct (io_progress tr x H p Hp Ni) as (a & x' & E & He & Ha). exists a, x'. split; [exact E|]. split; [exact He|].
      destruct a; auto; contradiction. }
    destruct (x_io x 1) eqn:I1; [|right; apply (Go 1); [lia|congruence]..].
    destruct (x_io x 2) eqn:I2; [|right; apply (Go 2); [lia|congruence]..].
    assert (All : forall p, x_io x p = IoNone).
    { intros p. destruct (x_io x p) eqn:Ei; [reflexivity| |];
        (destruct (Io p) as [Hp _]; [congruence|]; assert (p = 1 \/ p = 2) as [-> | ->] by lia; congruence). }
    destruct (binary_no_deadlock labels true B tr' (x_st x) W R) as [Ha|(p & i & st' & Hp & Hi & E)]; [left; auto|right].
    unfold bnext, next in E. exists (XDo p i zeros). cbn [xexec]. rewrite All. fold branch in E. fold (step2 branch labels p i (x_st x)) in E. rewrite E.
    pose proof (g_echo _ _ _ _ _ G) as Ge. unfold begin_io. destruct (skipn _ _) as [|[|] l].
    - eexists. split; [reflexivity|]. split; [|exact Hi]. cbn [x_net]. destruct (finished_ok st' p && close_flag p); exact Ge.
    - replace (length zeros =? size) with true by reflexivity. eexists. split; [reflexivity|]. split; [exact Ge|exact Hi].
    - destruct (tcp p _); eexists; (split; [reflexivity|]); (split; [exact Ge|exact Hi]).
  Qed.
End Live.
