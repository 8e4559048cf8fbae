(** Timed sessions whose windows stay open for long enough: specification and proofs for C62. If all windows of all tables are
    open while a clock shows at most K, and from some state on all readings lie within K, then nobody can miss a window from
    there on, so every step of the machine without time (Mesh.v) can be taken. *)
From Coq Require Import List Arith ZArith Bool Lia.
From Verif Require Import Types Wiring Session Mesh Timed TimedProofs TimedMesh TimedMeshProofs TimedMeshLocal.
Import ListNotations.
Open Scope nat_scope.

(** A window that is open whenever its clock shows at most K; the clocks that it reads and resets are among cs. *)
Definition lenient (K : Z) (cs : list nat) (w : window) : Prop :=
  (w_reset w = no_reset \/ In (w_reset w) cs) /\ (w_start w <= w_end w <= u64_max)%Z /\
  ((w_end w < 0)%Z /\ w_incl_start w = false /\ w_incl_end w = false \/
   (0 <= w_end w)%Z /\ In (w_clock w) cs /\ forall e, (0 <= e <= K)%Z -> well_inside w e).
Definition all_wins (Q : window -> Prop) (wins : list (list window)) : Prop := forall ws w, In ws wins -> In w ws -> Q w.

Section Open.
  Context {S H : Type}.
  Variable O : ops S H.
  Variable n : nat.
  Variable branch : nat -> nat -> nat -> mty.
  Variable branchw : nat -> nat -> nat -> list (list window).
  Variable labels : nat -> nat.
  Variable now : nat -> nat -> Z.
  (** The clocks of each role. *)
  Variable cs : nat -> list nat.
  Variable K : Z.
  Hypothesis branchw_open : forall b l p, 1 <= p <= n -> all_wins (lenient K (cs p)) (branchw b l p).

  Notation tstep := (tstep O n branch labels true).
  Notation ttstep := (ttstep O n branch branchw labels now).
  Notation mesh := (mesh O n branch labels).
  Notation tthread := (@tthread H).
  Notation lenient := (lenient K).

  (** Held at any time: the windows and the clocks to reset come from the tables. *)
  Definition tabled (p : nat) (tt : tthread) : Prop :=
    all_wins (lenient (cs p)) (tm_wins tt) /\ forall c, In c (tm_todo tt) -> In c (cs p).

  Lemma in_pop : forall f wins ws, In ws (pop_window f wins) -> (exists w, In (w :: ws) wins) \/ In ws wins.
  Proof.
    intros f wins ws Hin. unfold pop_window in Hin. apply In_nth_error in Hin as [k Hk].
    destruct (Nat.eq_dec k f) as [->|Hne].
    - destruct (lt_dec f (length wins)) as [Hl|Hl].
      + assert (E : nth_error (set_nth f (tl (nth f wins [])) wins) f = Some (tl (nth f wins []))).
        { clear Hk. generalize (tl (nth f wins [])). revert f Hl. induction wins as [|a wins IH]; intros [|f] Hl y; cbn in *; try lia; [reflexivity|]. apply IH. lia. }
        rewrite E in Hk. injection Hk as <-. pose proof (nth_In wins [] Hl) as Hin. destruct (nth f wins []) as [|w ws]; [right; exact Hin|left; exists w; exact Hin].
      + right. apply nth_error_In with f. rewrite <- Hk. clear Hk. generalize (tl (nth f wins [])). revert f Hl.
        induction wins as [|a wins IH]; intros [|f] Hl y; cbn in *; try lia; try reflexivity. apply IH. lia.
    - right. apply nth_error_In with k. rewrite <- Hk. clear Hk. generalize (tl (nth f wins [])). intros y. revert f k Hne.
      induction wins as [|a wins IH]; intros [|f] [|k] Hne; cbn; try reflexivity; try lia. apply IH. lia.
  Qed.
  Lemma pop_all : forall (Q : window -> Prop) f wins, all_wins Q wins -> all_wins Q (pop_window f wins).
  Proof.
    intros Q f wins Hq ws w Hws Hw. destruct (in_pop f wins ws Hws) as [[w0 Hin]|Hin]; eapply Hq; [exact Hin|right; exact Hw|exact Hin|exact Hw].
  Qed.
  Lemma tl_all : forall (Q : window -> Prop) wins, all_wins Q wins -> all_wins Q (tl wins).
  Proof. intros Q [|a wins] Hq ws w Hws Hw; [destruct Hws|]. eapply Hq; [right; exact Hws|exact Hw]. Qed.
  Lemma head_all : forall p f wins, all_wins (lenient (cs p)) wins -> lenient (cs p) (head_window f wins).
  Proof.
    intros p f wins Hq. unfold head_window. destruct (nth f wins []) as [|w ws] eqn:E; cbn.
    - split; [left; reflexivity|]. split; [unfold free_window, u64_max; cbn; lia|]. left. cbn. repeat split; lia.
    - apply (Hq (w :: ws)); [|left; reflexivity]. rewrite <- E. apply nth_In. destruct (lt_dec f (length wins)) as [L|L]; [exact L|].
      rewrite nth_overflow in E by lia. discriminate.
  Qed.

  Lemma lift_tabled : forall p tt r tt' (s' : S), lift tt r = Some (tt', s') -> tabled p tt -> tabled p tt'.
  Proof. intros p tt r tt' s' E I. apply lift_some in E as (_ & _ & _ & _ & E1 & E2). unfold tabled. rewrite E1, E2. exact I. Qed.
  Lemma timed_op_tabled : forall r p j tt s wins todo tt' s', tabled p tt -> all_wins (lenient (cs p)) wins -> (forall c, In c todo -> In c (cs p)) ->
    timed_op O n branch labels r p j tt s wins todo = Some (tt', s') -> tabled p tt'.
  Proof.
    intros r p j tt s wins todo tt' s' I Hw Ht E. unfold timed_op in E. destruct (r_handed r); [|eapply lift_tabled; eauto].
    destruct (mesh p j tt s) as [[th s1]|]; [|discriminate].
    destruct (t_prog th); try (injection E as <- <-; exact I); destruct (r_out r); injection E as <- <-; split; assumption.
  Qed.
  Lemma ttstep_tabled : forall p i tt s tt' s', 1 <= p <= n -> tabled p tt -> ttstep p i tt s = Some (tt', s') -> tabled p tt'.
  Proof.
    intros p i tt s tt' s' Hp I E.
    assert (L : forall j, lift tt (mesh p j tt s) = Some (tt', s') -> tabled p tt') by (intros j El; eapply lift_tabled; eauto).
    assert (Nil : forall c : nat, In c [] -> In c (cs p)) by (intros c []).
    pose proof (fun r j f todo Ht => timed_op_tabled r p j tt s (pop_window f (tm_wins tt)) todo tt' s' I (pop_all _ f _ (proj1 I)) Ht) as P1.
    pose proof (fun r j b l todo Ht => timed_op_tabled r p j tt s (branchw b l p) todo tt' s' I (branchw_open b l p Hp) Ht) as P2.
    unfold TimedMesh.ttstep in E. cbv zeta in E.
    destruct (t_trash (tm_thr tt)); [|destruct i as [[]| |]; try discriminate; eauto].
    destruct (tm_dead tt); [destruct i as [[]| |]; try discriminate; eauto|].
    destruct i as [i| |c].
    - destruct i as [|v|l|]; eauto;
        (destruct (t_prog (tm_thr tt)) as [ss [| |x r|? ?|? ? ?|? ? ?] hs|b l0 [|[[x h] ms] pend] own|a r hs|res|hs]; try discriminate; eauto;
         [destruct (callable n p x); [|discriminate];
          destruct (nth_error ss (comm_field p x - 1)) as [[|[t|b j] k|[t|b j] [| |]]|]; try discriminate; eauto; try (destruct (j =? p); [eauto|discriminate])
         |..]).
      + destruct (reset_all (now p) (tm_todo tt) (tm_clocks tt) (tm_next tt)) as [[[] m'] k']; eauto.
        destruct (mesh p ITau tt s) as [[th s1]|]; [|discriminate]. injection E as <- <-. split; [apply branchw_open, Hp|exact Nil].
      + eapply timed_op_tabled; [exact I|apply tl_all, I| |exact E].
        pose proof (head_all p 0 _ (proj1 I)) as [Hr _]. intros c Hc.
        destruct (Nat.eqb_spec (w_reset (head_window 0 (tm_wins tt))) no_reset) as [Hn|Hn]; [apply I, Hc|].
        apply in_app_or in Hc as [Hc|[<-|[]]]; [apply I, Hc|]. destruct Hr; [contradiction|assumption].
    - destruct (t_prog (tm_thr tt)) as [ss [| |x r|? ?|? ? ?|? ? ?] hs|b l0 [|[[x h] ms] pend] own|a r hs|res|hs]; try discriminate; eauto.
      destruct (callable n p x); [|discriminate].
      destruct (nth_error ss (comm_field p x - 1)) as [[|[t|b j] k|[t|b j] [| |]]|]; try discriminate; eauto;
        match type of E with (if ?c then _ else _) = _ => destruct c; [|discriminate] end;
        (destruct (mesh p ITau tt s); [discriminate|eauto]).
    - destruct (t_prog (tm_thr tt)); try discriminate; injection E as <- <-; exact I.
  Qed.

  (** Held from the state on: the clocks of the role run and were last started after lo, and all readings to come lie between
      lo and lo + K. *)
  Variable lo : Z.
  Definition timely (p : nat) (tt : tthread) : Prop :=
    (forall c, In c (cs p) -> exists v, tm_clocks tt c = Some v /\ (lo <= v)%Z) /\
    forall k, tm_next tt <= k -> (lo <= now p k <= lo + K)%Z.
  Definition fits (p : nat) (tt : tthread) : Prop := tabled p tt /\ timely p tt /\ tm_dead tt = false.

  Lemma fits_calm : forall p tt, fits p tt -> calm tt.
  Proof.
    intros p tt (I & [T1 _] & D). split; [exact D|]. intros c Hc. destruct (T1 c (proj2 I c Hc)) as (v & -> & _). discriminate.
  Qed.
  Lemma lenient_kept : forall p tt w, timely p tt -> lenient (cs p) w -> kept (now p) (tm_clocks tt) (tm_next tt) w.
  Proof.
    intros p tt w [T1 T2] (Hr & Hu & Hb). split; [|split; [exact Hu|]].
    - destruct Hr as [Hr|Hr]; [left; exact Hr|right]. destruct (T1 _ Hr) as (v & -> & _). discriminate.
    - destruct Hb as [Hb|(He & Hc & Hin)]; [left; exact Hb|right]. split; [exact He|]. destruct (T1 _ Hc) as (v & Ev & Hv). exists v. split; [exact Ev|].
      intros j Hj. apply Hin. specialize (T2 j ltac:(lia)). unfold elapsed. lia.
  Qed.
  Lemma fits_on_time : forall p tt, fits p tt -> on_time (now p) p tt.
  Proof.
    intros p tt (I & Ti & _) w Hw. apply lenient_kept; [exact Ti|]. unfold next_window in Hw.
    destruct (t_prog (tm_thr tt)) as [ss [| |x r|? ?|? ? ?|? ? ?] hs|b l0 [|[[x h] ms] pend] own|a r hs|res|hs]; try discriminate; injection Hw as <-; apply head_all, I.
  Qed.

  (** Clocks change only by being started or reset, and the readings go on. *)
  Definition later (p : nat) (tt tt' : tthread) : Prop :=
    tm_next tt <= tm_next tt' /\
    forall c, tm_clocks tt' c = tm_clocks tt c \/ exists k, tm_next tt <= k /\ tm_clocks tt' c = Some (now p k).
  Lemma later_timely : forall p tt tt', later p tt tt' -> timely p tt -> timely p tt'.
  Proof.
    intros p tt tt' [L1 L2] [T1 T2]. split; [|intros k Hk; apply T2; lia]. intros c Hc. destruct (L2 c) as [->|(k & Hk & ->)]; [apply T1, Hc|].
    exists (now p k). split; [reflexivity|]. apply T2, Hk.
  Qed.
  Lemma reset_all_later : forall f c0 m k o m' k', reset_all f c0 m k = (o, m', k') ->
    k <= k' /\ forall c, m' c = m c \/ exists j, k <= j /\ m' c = Some (f j).
  Proof.
    induction c0 as [|c0 rest IH]; intros m k o m' k' E; cbn in E; [injection E as _ <- <-; auto|].
    destruct (m c0); [|injection E as _ <- <-; auto]. destruct (IH _ _ _ _ _ E) as [L1 L2]. split; [lia|]. intros c.
    destruct (L2 c) as [->|(j & Hj & ->)]; [|right; exists j; split; [lia|reflexivity]]. unfold set_clock.
    destruct (Nat.eqb_spec c c0); [right; exists k; auto|left; reflexivity].
  Qed.
  Lemma ttstep_later : forall p i tt s tt' s', ttstep p i tt s = Some (tt', s') -> later p tt tt'.
  Proof.
    intros p i tt s tt' s' E.
    assert (Rf : forall th wins todo d, later p tt (TThread th wins (tm_clocks tt) (tm_next tt) todo d)) by (intros; split; cbn; auto).
    assert (L : forall j, lift tt (mesh p j tt s) = Some (tt', s') -> later p tt tt').
    { intros j El. unfold lift in El. destruct (mesh p j tt s) as [[th s1]|]; [|discriminate]. injection El as <- <-. apply Rf. }
    assert (Q : forall o w j wins todo, timed_op O n branch labels (run o (now p) ready_timeout ready_block w (tm_clocks tt) (tm_next tt)) p j tt s wins todo = Some (tt', s') ->
              later p tt tt').
    { intros o w j wins todo Et. unfold timed_op in Et.
      set (r := run o (now p) ready_timeout ready_block w (tm_clocks tt) (tm_next tt)) in *.
      assert (G : forall th d, later p tt (TThread th wins (r_clocks r) (r_next r) todo d)).
      { intros th d. split; cbn; [apply run_next|]. intros c.
        destruct (run_clocks o (now p) ready_timeout ready_block w (tm_clocks tt) (tm_next tt)) as [E1|(j' & Hj & _ & E1 & _)]; fold r in E1; rewrite E1; [auto|].
        unfold set_clock. destruct (Nat.eqb c (w_reset w)); [right; eauto|auto]. }
      destruct (r_handed r); [|eapply L; exact Et]. destruct (mesh p j tt s) as [[th s1]|]; [|discriminate].
      destruct (t_prog th); try (injection Et as <- <-; apply Rf); destruct (r_out r); injection Et as <- <-; apply G. }
    pose proof (Q OSend) as Q1. pose proof (Q OSendNoReset) as Q2. pose proof (Q ORecv) as Q3. clear Q. cbn [run] in Q1, Q2, Q3.
    unfold TimedMesh.ttstep in E. cbv zeta in E.
    destruct (t_trash (tm_thr tt)); [|destruct i as [[]| |]; try discriminate; eauto].
    destruct (tm_dead tt); [destruct i as [[]| |]; try discriminate; eauto|].
    destruct i as [i| |c].
    - destruct i as [|v|l|]; eauto;
        (destruct (t_prog (tm_thr tt)) as [ss [| |x r|? ?|? ? ?|? ? ?] hs|b l0 [|[[x h] ms] pend] own|a r hs|res|hs]; try discriminate; eauto;
         [destruct (callable n p x); [|discriminate];
          destruct (nth_error ss (comm_field p x - 1)) as [[|[t|b j] k|[t|b j] [| |]]|]; try discriminate; eauto; try (destruct (j =? p); [eauto|discriminate])
         |..]).
      destruct (reset_all (now p) (tm_todo tt) (tm_clocks tt) (tm_next tt)) as [[[] m'] k'] eqn:Er; eauto.
      destruct (mesh p ITau tt s) as [[th s1]|]; [|discriminate]. injection E as <- <-. exact (reset_all_later _ _ _ _ _ _ _ Er).
    - destruct (t_prog (tm_thr tt)) as [ss [| |x r|? ?|? ? ?|? ? ?] hs|b l0 [|[[x h] ms] pend] own|a r hs|res|hs]; try discriminate; eauto.
      destruct (callable n p x); [|discriminate].
      destruct (nth_error ss (comm_field p x - 1)) as [[|[t|b j] k|[t|b j] [| |]]|]; try discriminate; eauto;
        match type of E with (if ?c then _ else _) = _ => destruct c; [|discriminate] end;
        (destruct (mesh p ITau tt s); [discriminate|eauto]).
    - destruct (t_prog (tm_thr tt)); try discriminate; injection E as <- <-; split; cbn; auto; intros x; unfold set_clock; destruct (Nat.eqb x c); eauto.
  Qed.

  Lemma fits_step : forall p i tt s tt' s', 1 <= p <= n -> fits p tt -> quiet_inp i -> ttstep p i tt s = Some (tt', s') -> fits p tt'.
  Proof.
    intros p i tt s tt' s' Hp F Hq E. pose proof F as (I & Ti & D). split; [eapply ttstep_tabled; eauto|]. split; [eapply later_timely; [eapply ttstep_later; eauto|exact Ti]|].
    destruct (ttstep_calm O n branch branchw labels now p i tt s tt' s' (fits_calm p tt F) (fun _ _ => fits_on_time p tt F) Hq E) as [_ [D' _]]. exact D'.
  Qed.

  (** A step of the machine without time can be taken. *)
  Lemma timed_op_follow : forall o w p j tt s wins todo th s', kept (now p) (tm_clocks tt) (tm_next tt) w -> mesh p j tt s = Some (th, s') ->
    exists tt', timed_op O n branch labels (run o (now p) ready_timeout ready_block w (tm_clocks tt) (tm_next tt)) p j tt s wins todo = Some (tt', s') /\ tm_thr tt' = th.
  Proof.
    intros o w p j tt s wins todo th s' Hk Em. unfold timed_op. rewrite (kept_handed o _ _ _ _ Hk), (kept_ok o _ _ _ _ Hk), Em.
    destruct (t_prog th); cbn [lift]; eexists; split; reflexivity.
  Qed.
  Lemma ttstep_follow : forall p j tt s th s', fits p tt -> j <> ICrash -> tstep p j (tm_thr tt) s = Some (th, s') ->
    exists tt', ttstep p (TIn j) tt s = Some (tt', s') /\ tm_thr tt' = th.
  Proof.
    intros p j tt s th s' F Hj Em. pose proof (fits_on_time p tt F) as Hon. destruct (fits_calm p tt F) as [D Ht].
    assert (L : forall j, mesh p j tt s = Some (th, s') -> exists tt', lift tt (mesh p j tt s) = Some (tt', s') /\ tm_thr tt' = th).
    { intros j0 ->. cbn. eexists. split; reflexivity. }
    change (mesh p j tt s = Some (th, s')) in Em. pose proof Em as Hs. unfold TimedMesh.mesh, Mesh.tstep in Hs.
    unfold on_time, next_window in Hon. unfold TimedMesh.ttstep. cbv zeta. rewrite D.
    destruct (t_trash (tm_thr tt)); [|destruct j; try discriminate; apply L; exact Em].
    destruct (t_prog (tm_thr tt)) as [ss [| |x r|? ?|? ? ?|? ? ?] hs|b l [|[[x h] ms] pend] own|a r hs|res|hs];
      destruct j as [|v|l'|]; try congruence; try (apply L; exact Em).
    - destruct (callable n p x); [|congruence]. specialize (Hon _ eq_refl).
      destruct (nth_error ss (comm_field p x - 1)) as [[|[t|b j] k|[t|b j] k]|]; try congruence;
        [apply (timed_op_follow ORecv); assumption|].
      destruct k; try (destruct (nth_error hs (comm_field p x - 1)); congruence).
      destruct (j =? p); [apply (timed_op_follow ORecv); assumption|destruct (nth_error hs (comm_field p x - 1)); congruence].
    - destruct (callable n p x); [|congruence]. specialize (Hon _ eq_refl).
      destruct (nth_error ss (comm_field p x - 1)) as [[|[t|b j] k|[t|b j] k]|]; try congruence.
      apply (timed_op_follow OSend); assumption.
    - destruct (reset_all_ok (now p) (tm_todo tt) (tm_clocks tt) (tm_next tt) Ht) as (m' & k' & Er). rewrite Er, Em. eexists. split; reflexivity.
    - specialize (Hon _ eq_refl). apply (timed_op_follow OSendNoReset); assumption.
  Qed.

  (** ** Whole sessions *)

  Notation texec := (texec O n branch branchw labels now).
  Notation tsteps := (tsteps O n branch branchw labels now).
  Notation punctual := (punctual O n branch branchw labels now).
  Definition fits_all (st : @tstate S H) : Prop := forall p, 1 <= p <= n -> fits p (ts_thr st p).

  Lemma tsteps_tabled : forall a tr b, tsteps a tr b -> (forall p, 1 <= p <= n -> tabled p (ts_thr a p)) -> forall p, 1 <= p <= n -> tabled p (ts_thr b p).
  Proof.
    induction 1 as [st|st q i st1 tr st2 E Hs IH]; intros I; [exact I|]. apply IH. intros p Hp.
    destruct (texec_inv O n branch branchw labels now q i st st1 E) as (Hq & tt & s & Et & ->). cbn.
    destruct (Nat.eqb_spec p q) as [->|]; [|apply I, Hp]. eapply ttstep_tabled; [exact Hq|apply I, Hq|exact Et].
  Qed.
  Lemma fits_exec : forall q i st st1, fits_all st -> quiet_inp i -> texec q i st = Some st1 -> fits_all st1.
  Proof.
    intros q i st st1 F Hi E p Hp. destruct (texec_inv O n branch branchw labels now q i st st1 E) as (Hq & tt & s & Et & ->). cbn.
    destruct (Nat.eqb_spec p q) as [->|]; [|apply F, Hp]. eapply fits_step; [exact Hq|apply F, Hq|exact Hi|exact Et].
  Qed.

  (** Nobody can miss a window any more. *)
  Lemma fits_punctual : forall st tr st', tsteps st tr st' -> fits_all st -> (forall p i, In (p, i) tr -> quiet_inp i) -> punctual st tr st' /\ fits_all st'.
  Proof.
    induction 1 as [st|st p i st1 tr st2 E Hs IH]; intros F Hq; [split; [constructor|exact F]|].
    pose proof (Hq p i (or_introl eq_refl)) as [Q1 Q2]. destruct (texec_inv O n branch branchw labels now p i st st1 E) as (Hp & _).
    destruct IH as [IH1 IH2]; [eapply fits_exec; [exact F|split; [exact Q1|exact Q2]|exact E]|intros q j Hj; apply (Hq q j); right; exact Hj|].
    split; [|exact IH2]. econstructor; eauto. intros _ _. apply fits_on_time, F, Hp.
  Qed.

  Lemma texec_follow : forall p j st su su', agree (erase st) su -> fits_all st -> j <> ICrash -> exec O n branch labels true p j su = Some su' ->
    exists st', texec p (TIn j) st = Some st' /\ agree (erase st') su' /\ fits_all st'.
  Proof.
    intros p j st su su' [Es Et] F Hj E. unfold Mesh.exec in E.
    destruct ((1 <=? p) && (p <=? n)) eqn:Hb; [|discriminate]. cbn in Es, Et. rewrite <- Es, <- (Et p) in E.
    assert (Hp : 1 <= p <= n) by (apply andb_prop in Hb as [H1 H2]; apply Nat.leb_le in H1, H2; lia).
    destruct (tstep p j (tm_thr (ts_thr st p)) (ts_store st)) as [[th s1]|] eqn:Em; [|discriminate]. injection E as <-.
    destruct (ttstep_follow p j (ts_thr st p) (ts_store st) th s1 (F p Hp) Hj Em) as (tt' & Ett & <-).
    assert (Ex : texec p (TIn j) st = Some (TState s1 (fun q => if q =? p then tt' else ts_thr st q))) by (unfold TimedMesh.texec; rewrite Hb, Ett; reflexivity).
    exists (TState s1 (fun q => if q =? p then tt' else ts_thr st q)). split; [exact Ex|]. split.
    - split; [reflexivity|]. intros q. cbn. unfold set_thr. destruct (q =? p); [reflexivity|apply Et].
    - eapply fits_exec; [exact F| |exact Ex]. split; [congruence|discriminate].
  Qed.
  Lemma tsteps_follow : forall su tr su', steps O n branch labels true su tr su' -> forall st, agree (erase st) su -> fits_all st ->
    (forall p j, In (p, j) tr -> j <> ICrash) ->
    exists st', tsteps st (map (fun x => (fst x, TIn (snd x))) tr) st' /\ agree (erase st') su' /\ fits_all st'.
  Proof.
    induction 1 as [su|su p j su1 tr su2 E Hs IH]; intros st A F Hq; [exists st; split; [constructor|auto]|].
    destruct (texec_follow p j st su su1 A F (Hq p j (or_introl eq_refl)) E) as (st1 & E1 & A1 & F1).
    destruct (IH st1 A1 F1 (fun q i Hi => Hq q i (or_intror Hi))) as (st2 & S2 & A2 & F2). exists st2. split; [|auto]. cbn. econstructor; eauto.
  Qed.
End Open.

(** ** A role that has crashed is seen to have crashed *)
Section Crash.
  Context {S H : Type}.
  Variable O : ops S H.
  Variable n : nat.
  Variable branch : nat -> nat -> nat -> mty.
  Variable labels : nat -> nat.
  Variable strict : bool.

  Lemma fin_stays : forall p i th s th' s' r, t_prog th = PFin r -> tstep O n branch labels strict p i th s = Some (th', s') -> t_prog th' = PFin r.
  Proof.
    intros p i [pr tr rd lg] s th' s' r Ep E. cbn in Ep. subst pr. unfold tstep in E. cbn in E. destruct tr as [|y tr]; [discriminate|].
    destruct i; try discriminate. destruct (op_drop O y s). injection E as <- _. reflexivity.
  Qed.
  Lemma crash_shows : forall p th s th' s', tstep O n branch labels strict p ICrash th s = Some (th', s') -> t_prog th' = PFin RCrash.
  Proof.
    intros p [pr tr rd lg] s th' s' E. unfold tstep in E. cbn in E. destruct tr as [|y tr]; [|discriminate].
    destruct pr; try discriminate; injection E as <- _; reflexivity.
  Qed.
  Lemma steps_fin : forall a tr b, steps O n branch labels strict a tr b -> forall p r, t_prog (st_thr a p) = PFin r -> t_prog (st_thr b p) = PFin r.
  Proof.
    induction 1 as [st|st q i st1 tr st2 E Hs IH]; intros p r Ep; [exact Ep|]. apply IH. unfold exec in E. destruct ((1 <=? q) && (q <=? n)); [|discriminate].
    destruct (tstep O n branch labels strict q i (st_thr st q) (st_store st)) as [[th s1]|] eqn:Et; [|discriminate]. injection E as <-. cbn. unfold set_thr.
    destruct (Nat.eqb_spec p q) as [->|]; [|exact Ep]. eapply fin_stays; eauto.
  Qed.
  Lemma steps_quiet : forall a tr b, steps O n branch labels strict a tr b -> (forall p, 1 <= p <= n -> t_prog (st_thr b p) <> PFin RCrash) ->
    forall p j, In (p, j) tr -> j <> ICrash.
  Proof.
    induction 1 as [st|st q i st1 tr st2 E Hs IH]; intros Hn p j Hin; [destruct Hin|]. destruct Hin as [Hin|Hin]; [|eauto]. injection Hin as -> ->. intros ->.
    unfold exec in E. destruct ((1 <=? p) && (p <=? n)) eqn:Hb; [|discriminate]. apply andb_prop in Hb as [H1 H2]. apply Nat.leb_le in H1, H2.
    destruct (tstep O n branch labels strict p ICrash (st_thr st p) (st_store st)) as [[th s1]|] eqn:Et; [|discriminate]. injection E as <-.
    apply (Hn p ltac:(lia)). eapply steps_fin; [exact Hs|]. cbn. unfold set_thr. rewrite Nat.eqb_refl. eapply crash_shows; eauto.
  Qed.
End Crash.
