(** Proofs about TimedMesh.v: every step of a timed role is a step of Mesh.v, with a crash where the
    window tests refuse. *)
From Coq Require Import List Arith ZArith Bool Lia.
From Verif Require Import Types Wiring Session Mesh MeshWait Timed TimedProofs TimedMesh.
Import ListNotations.
Open Scope nat_scope.

(** ** Specification: the next operation of a role is on time *)

(** An operation with window w, whose first reading of the system clock is the k-th, is on time: the
    window has no bounds, or the clock runs and all readings of this operation (at most five) lie in the
    window. The clock to reset, if any, runs. *)
Definition kept (now : nat -> Z) (m : clocks) (k : nat) (w : window) : Prop :=
  (w_reset w = no_reset \/ m (w_reset w) <> None) /\ (w_start w <= w_end w <= u64_max)%Z /\
  ((w_end w < 0)%Z /\ w_incl_start w = false /\ w_incl_end w = false \/
   (0 <= w_end w)%Z /\ exists c, m (w_clock w) = Some c /\
     forall j, k <= j <= k + 4 -> well_inside w (elapsed (now j) c)).

(** The window of the next operation of a thread. *)
Definition next_window {H} (p : nat) (tt : @tthread H) : option window :=
  match t_prog (tm_thr tt) with
  | PRun _ (SRole x _) _ => Some (head_window (comm_field p x - 1) (tm_wins tt))
  | PChoose _ _ (_ :: _) _ => Some (head_window 0 (tm_wins tt))
  | _ => None
  end.
Definition on_time {H} (now : nat -> Z) (p : nat) (tt : @tthread H) : Prop :=
  forall w, next_window p tt = Some w -> kept now (tm_clocks tt) (tm_next tt) w.

(** ** One operation *)

Lemma kept_ok : forall o now m k w, kept now m k w ->
  r_out (run o now ready_timeout ready_block w m k) = Timed.Ok.
Proof.
  intros o now m k w (Hr & [Hs Hu] & [(He & I1 & I2)|(He & c & Hc & Hin)]).
  - assert (B : forall g, body now ready_timeout ready_block true g w m k = Result Timed.Ok m true (now k) (S k) /\
                 body now ready_timeout ready_block false g w m k = Result Timed.Ok m true (now k) (S k)).
    { intros g. unfold body. destruct (Z.ltb_spec (w_start w) 0); [|lia]. destruct (Z.leb_spec 0 (w_end w)); [lia|].
      rewrite I1, I2. split; reflexivity. }
    destruct o; cbn [run]; unfold tsend, tsend_without_reset, trecv; destruct (Z.ltb_spec (w_end w) (w_start w)); try lia;
      first [rewrite (proj1 (B _))|rewrite (proj2 (B _))]; reflexivity.
  - apply (run_accepts o now _ _ w m k c); try assumption; try lia; [reflexivity|intros t; exists t; reflexivity].
Qed.

Lemma kept_handed : forall o now m k w, kept now m k w ->
  r_handed (run o now ready_timeout ready_block w m k) = true.
Proof. intros. apply run_ok_handed, kept_ok; assumption. Qed.

(** Clocks are never lost. *)
Definition grows (m m' : clocks) : Prop := forall c, m c <> None -> m' c <> None.
Lemma grows_refl : forall m, grows m m.
Proof. intros m c H. exact H. Qed.
Lemma grows_set : forall m c t, grows m (set_clock m c t).
Proof. intros m c t x Hx. unfold set_clock. destruct (Nat.eqb x c); [discriminate|exact Hx]. Qed.
Lemma grows_trans : forall a b c, grows a b -> grows b c -> grows a c.
Proof. intros a b c H1 H2 x Hx. auto. Qed.
Lemma run_grows : forall o now ct cb w m k, grows m (r_clocks (run o now ct cb w m k)).
Proof.
  intros o now ct cb w m k. destruct (run_cases now ct cb o w m k) as [(_ & _ & ->)|Hp]; [apply grows_refl|].
  assert (D : exists rst k', done now rst w m k' (run o now ct cb w m k)) by (destruct Hp; eauto).
  destruct D as ([|] & k' & _ & D).
  - destruct D as [(_ & _ & -> & _)|(_ & _ & -> & _)]; [apply grows_refl|apply grows_set].
  - destruct D as (_ & -> & _). apply grows_refl.
Qed.
Lemma reset_all_grows : forall now cs m k o m' k', reset_all now cs m k = (o, m', k') -> grows m m'.
Proof.
  induction cs as [|c cs IH]; intros m k o m' k' E; cbn in E.
  - injection E as _ <- _. apply grows_refl.
  - destruct (m c) eqn:Em; [|injection E as _ <- _; apply grows_refl].
    eapply grows_trans; [apply grows_set|eapply IH; exact E].
Qed.
Lemma reset_all_ok : forall now cs m k, (forall c, In c cs -> m c <> None) ->
  exists m' k', reset_all now cs m k = (Timed.Ok, m', k').
Proof.
  induction cs as [|c cs IH]; intros m k Hc; cbn; [eauto|].
  destruct (m c) eqn:Em; [|exfalso; apply (Hc c); [left; reflexivity|exact Em]].
  apply IH. intros x Hx. apply grows_set, Hc. right. exact Hx.
Qed.

Section Steps.
  Context {S H : Type}.
  Variable O : ops S H.
  Variable n : nat.
  Variable branch : nat -> nat -> nat -> mty.
  Variable branchw : nat -> nat -> nat -> list (list window).
  Variable labels : nat -> nat.
  Variable now : nat -> nat -> Z.

  Notation tstep := (tstep O n branch labels true).
  Notation ttstep := (ttstep O n branch branchw labels now).
  Notation mesh := (mesh O n branch labels).
  Notation tthread := (@tthread H).

  (** ** Every step is a step of Mesh.v *)

  Definition is_clock (i : tinp) : bool := match i with TClock _ => true | _ => false end.

  (** What a step of tt by i does to the thread of Mesh.v. *)
  Definition simulates (p : nat) (i : tinp) (tt : tthread) (s : S) (tt' : tthread) (s' : S) : Prop :=
    if is_clock i then tm_thr tt' = tm_thr tt /\ s' = s
    else exists j, tstep p j (tm_thr tt) s = Some (tm_thr tt', s').

  Lemma lift_some : forall tt (r : option (@thread H * S)) tt' s', lift tt r = Some (tt', s') ->
    r = Some (tm_thr tt', s') /\ tm_dead tt' = tm_dead tt /\ tm_clocks tt' = tm_clocks tt /\ tm_next tt' = tm_next tt /\
    tm_todo tt' = tm_todo tt /\ tm_wins tt' = tm_wins tt.
  Proof. intros tt [[th s1]|] tt' s' E; [|discriminate]. injection E as <- <-. auto 8. Qed.

  Lemma timed_op_some : forall r p i tt s wins todo tt' s', timed_op O n branch labels r p i tt s wins todo = Some (tt', s') ->
    r_handed r = true /\ mesh p i tt s = Some (tm_thr tt', s') /\ tm_dead tt = tm_dead tt' \/
    r_handed r = true /\ mesh p i tt s = Some (tm_thr tt', s') /\ tm_dead tt' = (match r_out r with Timed.Ok => false | _ => true end) \/
    r_handed r = false /\ mesh p ICrash tt s = Some (tm_thr tt', s').
  Proof.
    intros r p i tt s wins todo tt' s' E. unfold timed_op in E. destruct (r_handed r).
    - destruct (mesh p i tt s) as [[th s1]|] eqn:Em; [|discriminate].
      destruct (t_prog th); try (injection E as <- <-; left; auto; fail);
        destruct (r_out r); injection E as <- <-; right; left; auto.
    - apply lift_some in E as [E _]. right. right. auto.
  Qed.

  Lemma ttstep_simulates : forall p i tt s tt' s', ttstep p i tt s = Some (tt', s') -> simulates p i tt s tt' s'.
  Proof.
    intros p i tt s tt' s' E. unfold simulates.
    assert (L : forall j, lift tt (mesh p j tt s) = Some (tt', s') -> exists j, tstep p j (tm_thr tt) s = Some (tm_thr tt', s')).
    { intros j El. apply lift_some in El as [El _]. exists j. exact El. }
    assert (Q : forall r j wins todo, timed_op O n branch labels r p j tt s wins todo = Some (tt', s') ->
              exists j, tstep p j (tm_thr tt) s = Some (tm_thr tt', s')).
    { intros r j wins todo Et. apply timed_op_some in Et as [(_ & Et & _)|[(_ & Et & _)|(_ & Et)]]; eexists; exact Et. }
    unfold TimedMesh.ttstep in E. cbv zeta in E.
    destruct (t_trash (tm_thr tt)); [|destruct i as [[]| |]; try discriminate; cbn [is_clock]; eauto].
    destruct (tm_dead tt); [destruct i as [[]| |]; try discriminate; cbn [is_clock]; eauto|].
    destruct i as [i| |c]; cbn [is_clock].
    - destruct i as [|v|l|]; eauto.
      + destruct (t_prog (tm_thr tt)) as [ss [| |x r|? ?|? ? ?|? ? ?] hs|b l [|[[x h] ms] pend] own|a r hs|res|hs]; try discriminate; eauto.
        * destruct (callable n p x); [|discriminate].
          destruct (nth_error ss (comm_field p x - 1)) as [[|[t|b j] k|[t|b j] [| |]]|]; try discriminate; eauto.
          destruct (j =? p); [eauto|discriminate].
        * destruct (reset_all (now p) (tm_todo tt) (tm_clocks tt) (tm_next tt)) as [[[] m'] k']; eauto.
          destruct (mesh p ITau tt s) as [[th s1]|] eqn:Em; [|discriminate]. injection E as <- <-. cbn. eexists. exact Em.
      + destruct (t_prog (tm_thr tt)) as [ss [| |x r|? ?|? ? ?|? ? ?] hs|b l [|[[x h] ms] pend] own|a r hs|res|hs]; try discriminate; eauto.
        destruct (callable n p x); [|discriminate].
        destruct (nth_error ss (comm_field p x - 1)) as [[|[t|b j] k|[t|b j] [| |]]|]; try discriminate; eauto.
      + destruct (t_prog (tm_thr tt)) as [ss [| |x r|? ?|? ? ?|? ? ?] hs|b l0 [|[[x h] ms] pend] own|a r hs|res|hs]; try discriminate; eauto.
        destruct (callable n p x); [|discriminate].
        destruct (nth_error ss (comm_field p x - 1)) as [[|[t|b j] k|[t|b j] [| |]]|]; try discriminate; eauto.
    - destruct (t_prog (tm_thr tt)) as [ss [| |x r|? ?|? ? ?|? ? ?] hs|b l0 [|[[x h] ms] pend] own|a r hs|res|hs]; try discriminate; eauto.
      destruct (callable n p x); [|discriminate].
      destruct (nth_error ss (comm_field p x - 1)) as [[|[t|b j] k|[t|b j] [| |]]|]; try discriminate; eauto;
        match type of E with (if ?c then _ else _) = _ => destruct c; [|discriminate] end;
        (destruct (mesh p ITau tt s); [discriminate|eauto]).
    - destruct (t_prog (tm_thr tt)); try discriminate; injection E as <- <-; auto.
  Qed.

  (** ** A role that can move in Mesh.v can move here, without giving up *)

  Lemma crash_enabled : forall p j tt s, t_trash (tm_thr tt) = [] -> tstep p j (tm_thr tt) s <> None ->
    mesh p ICrash tt s <> None.
  Proof.
    intros p j tt s Et Hs. unfold TimedMesh.mesh, Mesh.tstep in *. rewrite Et in *.
    destruct (t_prog (tm_thr tt)) as [ss r hs|b l pend own|a r hs|res|hs]; try congruence.
  Qed.
  Lemma lift_ne : forall tt (r : option (@thread H * S)), r <> None -> lift tt r <> None.
  Proof. intros tt [[th s1]|] E; [discriminate|contradiction]. Qed.
  Lemma timed_op_ne : forall r p i tt s wins todo, mesh p i tt s <> None -> mesh p ICrash tt s <> None ->
    timed_op O n branch labels r p i tt s wins todo <> None.
  Proof.
    intros r p i tt s wins todo E1 E2. unfold timed_op. destruct (r_handed r); [|apply lift_ne, E2].
    destruct (mesh p i tt s) as [[th s1]|]; [|contradiction]. destruct (t_prog th); try discriminate; destruct (r_out r); discriminate.
  Qed.

  Lemma ttstep_enabled : forall p j tt s, j <> ICrash -> tstep p j (tm_thr tt) s <> None ->
    exists i, i <> ICrash /\ ttstep p (TIn i) tt s <> None.
  Proof.
    intros p j tt s Hj Hs. unfold TimedMesh.ttstep. cbv zeta.
    destruct (t_trash (tm_thr tt)) as [|y ys] eqn:Et.
    2:{ exists ITau. split; [discriminate|]. apply lift_ne. unfold TimedMesh.mesh, Mesh.tstep in *. rewrite Et in *.
        destruct (op_drop O y s). discriminate. }
    pose proof (crash_enabled p j tt s Et Hs) as Hc.
    destruct (tm_dead tt).
    { exists ITau. split; [discriminate|]. apply lift_ne, Hc. }
    exists j. split; [exact Hj|].
    assert (E : TimedMesh.mesh O n branch labels p j tt s = Mesh.tstep O n branch labels true p j (tm_thr tt) s) by reflexivity.
    rewrite <- E in Hs. clear E. pose proof Hs as Hm. unfold TimedMesh.mesh, Mesh.tstep in Hs. rewrite Et in Hs.
    destruct (t_prog (tm_thr tt)) as [ss [| |x r|? ?|? ? ?|? ? ?] hs|b l [|[[x h] ms] pend] own|a r hs|res|hs];
      destruct j as [|v|l'|]; try congruence; try (apply lift_ne; exact Hm).
    - destruct (callable n p x); [|congruence].
      destruct (nth_error ss (comm_field p x - 1)) as [[|[t|b j] k|[t|b j] k]|]; try congruence;
        [apply timed_op_ne; assumption|].
      destruct k; try (destruct (nth_error hs (comm_field p x - 1)); congruence).
      destruct (j =? p); [apply timed_op_ne; assumption|destruct (nth_error hs (comm_field p x - 1)); congruence].
    - destruct (callable n p x); [|congruence].
      destruct (nth_error ss (comm_field p x - 1)) as [[|[t|b j] k|[t|b j] k]|]; try congruence.
      apply timed_op_ne; assumption.
    - destruct (reset_all (now p) (tm_todo tt) (tm_clocks tt) (tm_next tt)) as [[[] m'] k']; try (apply lift_ne; exact Hc).
      destruct (mesh p ITau tt s) as [[th s1]|]; [discriminate|contradiction].
    - apply timed_op_ne; assumption.
  Qed.

  (** ** Roles that are on time *)

  (** Clocks are never lost; the clocks to reset after a choice run; nobody is panicking. *)
  Definition calm (tt : tthread) : Prop :=
    tm_dead tt = false /\ forall c, In c (tm_todo tt) -> tm_clocks tt c <> None.

  Lemma ttstep_grows : forall p i tt s tt' s', ttstep p i tt s = Some (tt', s') -> grows (tm_clocks tt) (tm_clocks tt').
  Proof.
    intros p i tt s tt' s' E.
    assert (L : forall j, lift tt (mesh p j tt s) = Some (tt', s') -> grows (tm_clocks tt) (tm_clocks tt')).
    { intros j El. apply lift_some in El as (_ & _ & -> & _). apply grows_refl. }
    assert (Q : forall o w j wins todo, timed_op O n branch labels (run o (now p) ready_timeout ready_block w (tm_clocks tt) (tm_next tt)) p j tt s wins todo = Some (tt', s') ->
              grows (tm_clocks tt) (tm_clocks tt')).
    { intros o w j wins todo Et. unfold timed_op in Et. pose proof (run_grows o (now p) ready_timeout ready_block w (tm_clocks tt) (tm_next tt)) as G.
      destruct (r_handed _); [|eapply L; exact Et].
      destruct (mesh p j tt s) as [[th s1]|]; [|discriminate].
      destruct (t_prog th); try (injection Et as <- <-; apply grows_refl); destruct (r_out _); injection Et as <- <-; exact G. }
    pose proof (Q OSend) as Q1. pose proof (Q OSendNoReset) as Q2. pose proof (Q ORecv) as Q3. clear Q. cbn [run] in Q1, Q2, Q3.
    unfold TimedMesh.ttstep in E. cbv zeta in E.
    destruct (t_trash (tm_thr tt)); [|destruct i as [[]| |]; try discriminate; eauto].
    destruct (tm_dead tt); [destruct i as [[]| |]; try discriminate; eauto|].
    destruct i as [i| |c].
    - destruct i as [|v|l|]; eauto;
        (destruct (t_prog (tm_thr tt)) as [ss [| |x r|? ?|? ? ?|? ? ?] hs|b l0 [|[[x h] ms] pend] own|a r hs|res|hs]; try discriminate; eauto;
         [destruct (callable n p x); [|discriminate];
          destruct (nth_error ss (comm_field p x - 1)) as [[|[t|b j] k|[t|b j] [| |]]|]; try discriminate; eauto; try (destruct (j =? p); [eauto|discriminate])
         |..]).
      destruct (reset_all (now p) (tm_todo tt) (tm_clocks tt) (tm_next tt)) as [[[] m'] k'] eqn:Er; eauto.
      destruct (mesh p ITau tt s) as [[th s1]|]; [|discriminate]. injection E as <- <-. eapply reset_all_grows; exact Er.
    - destruct (t_prog (tm_thr tt)) as [ss [| |x r|? ?|? ? ?|? ? ?] hs|b l0 [|[[x h] ms] pend] own|a r hs|res|hs]; try discriminate; eauto.
      destruct (callable n p x); [|discriminate].
      destruct (nth_error ss (comm_field p x - 1)) as [[|[t|b j] k|[t|b j] [| |]]|]; try discriminate; eauto;
        match type of E with (if ?c then _ else _) = _ => destruct c; [|discriminate] end;
        (destruct (mesh p ITau tt s); [discriminate|eauto]).
    - destruct (t_prog (tm_thr tt)); try discriminate; injection E as <- <-; apply grows_set.
  Qed.

  (** A step that is neither a crash nor giving up, of a role that is on time, is not a crash in Mesh.v. *)
  Definition quiet_inp (i : tinp) : Prop := i <> TIn ICrash /\ i <> TTimeout.

  Lemma timed_op_calm : forall o w p j tt s wins todo tt' s', j <> ICrash ->
    kept (now p) (tm_clocks tt) (tm_next tt) w -> calm tt ->
    (forall c, In c todo -> tm_clocks tt c <> None) ->
    timed_op O n branch labels (run o (now p) ready_timeout ready_block w (tm_clocks tt) (tm_next tt)) p j tt s wins todo = Some (tt', s') ->
    (exists j, j <> ICrash /\ tstep p j (tm_thr tt) s = Some (tm_thr tt', s')) /\ calm tt'.
  Proof.
    intros o w p j tt s wins todo tt' s' Hj Hk [Hd Ht] Htodo E. unfold timed_op in E.
    rewrite (kept_handed o _ _ _ _ Hk), (kept_ok o _ _ _ _ Hk) in E.
    pose proof (run_grows o (now p) ready_timeout ready_block w (tm_clocks tt) (tm_next tt)) as G.
    destruct (mesh p j tt s) as [[th s1]|] eqn:Em; [|discriminate]. split.
    - exists j. split; [exact Hj|]. unfold TimedMesh.mesh in Em. rewrite Em.
      destruct (t_prog th); injection E as <- <-; reflexivity.
    - destruct (t_prog th); injection E as <- <-; split; cbn; auto.
  Qed.

  Lemma ttstep_calm : forall p i tt s tt' s', calm tt ->
    (is_clock i = false -> t_trash (tm_thr tt) = [] -> on_time (now p) p tt) -> quiet_inp i ->
    ttstep p i tt s = Some (tt', s') ->
    (if is_clock i then tm_thr tt' = tm_thr tt /\ s' = s
     else exists j, j <> ICrash /\ tstep p j (tm_thr tt) s = Some (tm_thr tt', s')) /\ calm tt'.
  Proof.
    intros p i tt s tt' s' C Hon [Q1 Q2] E.
    assert (L : forall j, j <> ICrash -> lift tt (mesh p j tt s) = Some (tt', s') ->
              (exists j, j <> ICrash /\ tstep p j (tm_thr tt) s = Some (tm_thr tt', s')) /\ calm tt').
    { intros j Hj El. apply lift_some in El as (El & E1 & E2 & _ & E3 & _). split; [exists j; auto|].
      unfold calm. rewrite E1, E2, E3. exact C. }
    pose proof C as [Hd Ht]. unfold on_time, next_window in Hon.
    unfold TimedMesh.ttstep in E. cbv zeta in E. rewrite Hd in E.
    destruct (t_trash (tm_thr tt)); [|destruct i as [[]| |]; try discriminate; cbn [is_clock]; eapply L; [|exact E]; discriminate].
    destruct i as [i| |c]; cbn [is_clock]; [|congruence|].
    - specialize (Hon eq_refl eq_refl). destruct i as [|v|l|]; try congruence.
      + destruct (t_prog (tm_thr tt)) as [ss [| |x r|? ?|? ? ?|? ? ?] hs|b l [|[[x h] ms] pend] own|a r hs|res|hs]; try discriminate;
          try (eapply L; [|exact E]; discriminate).
        * destruct (callable n p x); [|discriminate]. specialize (Hon _ eq_refl).
          destruct (nth_error ss (comm_field p x - 1)) as [[|[t|b j] k|[t|b j] [| |]]|]; try discriminate;
            try (eapply (timed_op_calm ORecv) in E; [exact E|discriminate|exact Hon|exact C|intros ? []]; fail).
          destruct (j =? p); [|discriminate].
          eapply (timed_op_calm ORecv) in E; [exact E|discriminate|exact Hon|exact C|intros ? []].
        * destruct (reset_all_ok (now p) (tm_todo tt) (tm_clocks tt) (tm_next tt) Ht) as (m' & k' & Er). rewrite Er in E.
          destruct (mesh p ITau tt s) as [[th s1]|] eqn:Em; [|discriminate]. injection E as <- <-. split.
          -- exists ITau. split; [discriminate|exact Em].
          -- split; [reflexivity|]. intros ? [].
        * specialize (Hon _ eq_refl). eapply (timed_op_calm OSendNoReset) in E; [exact E|discriminate|exact Hon|exact C|].
          intros c Hc. destruct (Nat.eqb_spec (w_reset (head_window 0 (tm_wins tt))) no_reset) as [Hn|Hn]; [auto|].
          apply in_app_or in Hc as [Hc|[<-|[]]]; [auto|]. destruct Hon as [[K|K] _]; [contradiction|exact K].
      + destruct (t_prog (tm_thr tt)) as [ss [| |x r|? ?|? ? ?|? ? ?] hs|b l [|[[x h] ms] pend] own|a r hs|res|hs]; try discriminate.
        destruct (callable n p x); [|discriminate]. specialize (Hon _ eq_refl).
        destruct (nth_error ss (comm_field p x - 1)) as [[|[t|b j] k|[t|b j] [| |]]|]; try discriminate.
        eapply (timed_op_calm OSend) in E; [exact E|discriminate|exact Hon|exact C|intros ? []].
      + destruct (t_prog (tm_thr tt)) as [ss [| |x r|? ?|? ? ?|? ? ?] hs|b l0 [|[[x h] ms] pend] own|a r hs|res|hs]; try discriminate.
        * eapply L; [|exact E]; discriminate.
        * destruct (callable n p x); [|discriminate].
          destruct (nth_error ss (comm_field p x - 1)) as [[|[t|b j] k|[t|b j] [| |]]|]; discriminate.
    - destruct (t_prog (tm_thr tt)); try discriminate; injection E as <- <-; (split; [auto|split; [reflexivity|]]);
        cbn; intros c0 H0; apply grows_set; auto.
  Qed.

  (** ** Whole sessions *)

  Definition erase (st : @tstate S H) : @state S H := State (ts_store st) (fun p => tm_thr (ts_thr st p)).

  Notation texec := (texec O n branch branchw labels now).
  Notation tsteps := (tsteps O n branch branchw labels now).
  Notation steps := (steps O n branch labels true).
  Notation exec := (exec O n branch labels true).

  Lemma texec_inv : forall p i st st', texec p i st = Some st' ->
    1 <= p <= n /\ exists tt s, ttstep p i (ts_thr st p) (ts_store st) = Some (tt, s) /\
      st' = TState s (fun q => if q =? p then tt else ts_thr st q).
  Proof.
    intros p i st st' E. unfold TimedMesh.texec in E. destruct ((1 <=? p) && (p <=? n)) eqn:Ep; [|discriminate].
    apply andb_prop in Ep as [E1 E2]. apply Nat.leb_le in E1, E2. split; [lia|].
    destruct (ttstep p i (ts_thr st p) (ts_store st)) as [[tt s]|]; [|discriminate]. injection E as <-. eauto.
  Qed.

  (** States with the same store and the same threads. *)
  Definition agree (a b : @state S H) : Prop := st_store a = st_store b /\ forall p, st_thr a p = st_thr b p.

  Lemma exec_of : forall p j tt s st su, 1 <= p <= n -> agree (erase st) su ->
    tstep p j (tm_thr (ts_thr st p)) (ts_store st) = Some (tm_thr tt, s) ->
    exists su', exec p j su = Some su' /\ agree (erase (TState s (fun q => if q =? p then tt else ts_thr st q))) su'.
  Proof.
    intros p j tt s st su Hp [Es Et] E. unfold Mesh.exec.
    assert (Hb : (1 <=? p) && (p <=? n) = true) by (apply andb_true_iff; rewrite !Nat.leb_le; lia). rewrite Hb.
    cbn in Es, Et. rewrite <- Es, <- (Et p), E. eexists. split; [reflexivity|]. split; [reflexivity|].
    intros q. cbn. unfold set_thr. destruct (q =? p); [reflexivity|apply Et].
  Qed.
  Lemma agree_same : forall p tt s st su, agree (erase st) su -> tm_thr tt = tm_thr (ts_thr st p) -> s = ts_store st ->
    agree (erase (TState s (fun q => if q =? p then tt else ts_thr st q))) su.
  Proof.
    intros p tt s st su [Es Et] E ->. split; [exact Es|]. intros q. cbn. destruct (Nat.eqb_spec q p) as [->|]; [|apply Et].
    rewrite E. apply Et.
  Qed.

  (** The steps that are not the start of a clock. *)
  Definition moves (tr : list (nat * tinp)) : list (nat * tinp) := filter (fun x => negb (is_clock (snd x))) tr.

  Lemma tsteps_erase : forall st tr st', tsteps st tr st' -> forall su, agree (erase st) su ->
    exists jr su', steps su jr su' /\ agree (erase st') su' /\ map fst jr = map fst (moves tr).
  Proof.
    induction 1 as [st|st p i st1 tr st2 E Hs IH]; intros su A.
    - exists [], su. split; [constructor|auto].
    - destruct (texec_inv p i st st1 E) as (Hp & tt & s & Et & ->). apply ttstep_simulates in Et. unfold simulates in Et.
      unfold moves. cbn [filter snd]. destruct (is_clock i); cbn [negb].
      + destruct Et as [E1 E2]. apply IH. apply agree_same; assumption.
      + destruct Et as [j Ej]. destruct (exec_of p j tt s st su Hp A Ej) as (su1 & Ex & A1).
        destruct (IH su1 A1) as (jr & su' & Hj & A' & Em). exists ((p, j) :: jr), su'.
        split; [econstructor; eauto|]. split; [exact A'|]. cbn. f_equal. exact Em.
  Qed.

  (** Executions in which nobody crashes or gives up, and whoever starts an operation is on time. *)
  Inductive punctual : @tstate S H -> list (nat * tinp) -> @tstate S H -> Prop :=
  | punctual_nil : forall st, punctual st [] st
  | punctual_cons : forall st p i st1 tr st2,
      texec p i st = Some st1 -> i <> TIn ICrash -> i <> TTimeout ->
      (is_clock i = false -> t_trash (tm_thr (ts_thr st p)) = [] -> on_time (now p) p (ts_thr st p)) ->
      punctual st1 tr st2 -> punctual st ((p, i) :: tr) st2.

  Lemma punctual_steps : forall st tr st', punctual st tr st' -> tsteps st tr st'.
  Proof. induction 1; econstructor; eauto. Qed.

  Lemma punctual_erase : forall st tr st', punctual st tr st' -> forall su, agree (erase st) su ->
    (forall p, calm (ts_thr st p)) ->
    exists jr su', steps su jr su' /\ agree (erase st') su' /\ (forall p j, In (p, j) jr -> j <> ICrash) /\
      (forall p, calm (ts_thr st' p)).
  Proof.
    induction 1 as [st|st p i st1 tr st2 E Q1 Q2 Hon Hs IH]; intros su A C.
    - exists [], su. split; [constructor|]. split; [exact A|]. split; [intros ? ? []|exact C].
    - destruct (texec_inv p i st st1 E) as (Hp & tt & s & Et & ->).
      destruct (ttstep_calm p i _ _ _ _ (C p) Hon (conj Q1 Q2) Et) as [Es Ct].
      assert (C1 : forall q, calm (ts_thr (TState s (fun q => if q =? p then tt else ts_thr st q)) q)).
      { intros q. cbn. destruct (q =? p); [exact Ct|apply C]. }
      destruct (is_clock i).
      + destruct Es as [E1 E2]. apply IH; [|exact C1]. apply agree_same; assumption.
      + destruct Es as (j & Hj & Ej). destruct (exec_of p j tt s st su Hp A Ej) as (su1 & Ex & A1).
        destruct (IH su1 A1 C1) as (jr & su' & Hjr & A' & NC & C'). exists ((p, j) :: jr), su'.
        split; [econstructor; eauto|]. split; [exact A'|]. split; [|exact C'].
        intros q k [Eq|Hin]; [injection Eq as <- <-; exact Hj|eauto].
  Qed.

  Lemma texec_enabled : forall p j st su su', agree (erase st) su -> j <> ICrash -> exec p j su = Some su' ->
    exists i st', i <> ICrash /\ texec p (TIn i) st = Some st'.
  Proof.
    intros p j st su su' [Es Et] Hj E. unfold Mesh.exec in E. unfold TimedMesh.texec.
    destruct ((1 <=? p) && (p <=? n)); [|discriminate]. cbn in Es, Et. rewrite <- Es, <- (Et p) in E.
    destruct (ttstep_enabled p j (ts_thr st p) (ts_store st) Hj) as (i & Hi & En).
    { destruct (tstep p j (tm_thr (ts_thr st p)) (ts_store st)); [discriminate|discriminate]. }
    exists i. destruct (ttstep p (TIn i) (ts_thr st p) (ts_store st)) as [[tt s]|]; [eauto|contradiction].
  Qed.

  Lemma erase_init : forall T W s, agree (erase (tinit O n T W s)) (init O n T s).
  Proof. intros. split; [reflexivity|]. intros p. reflexivity. Qed.
  Lemma init_calm : forall T W s p, calm (ts_thr (tinit O n T W s) p).
  Proof. intros. split; [reflexivity|]. intros c []. Qed.

  (** ** A receive with an upper bound does not wait for ever *)

  Lemma receiving_moves : forall p x tt s, receiving p (tm_thr tt) x -> 1 <= x <= n ->
    (0 <= w_end (head_window (comm_field p x - 1) (tm_wins tt)))%Z ->
    ttstep p (TIn ITau) tt s <> None \/ ttstep p TTimeout tt s <> None.
  Proof.
    intros p x tt s (Et & ss & r & hs & q & k & Ep & Hx & En & Hq) Hxn He.
    assert (Hc : mesh p ICrash tt s <> None) by (unfold TimedMesh.mesh, Mesh.tstep; rewrite Et, Ep; discriminate).
    assert (Ec : callable n p x = true).
    { unfold callable. destruct (Nat.eqb_spec x p); [contradiction|]. destruct (Nat.leb_spec 1 x), (Nat.leb_spec x n); try lia; reflexivity. }
    unfold TimedMesh.ttstep. cbv zeta. rewrite Et. destruct (tm_dead tt); [left; apply lift_ne, Hc|].
    rewrite Ep, Ec, En. set (w := head_window (comm_field p x - 1) (tm_wins tt)) in *.
    set (rr := trecv (now p) ready_timeout ready_block w (tm_clocks tt) (tm_next tt)).
    assert (K : forall wins todo, timed_op O n branch labels rr p ITau tt s wins todo <> None \/
              (if r_handed rr && (0 <=? w_end w)%Z
               then match mesh p ITau tt s with None => lift tt (mesh p ICrash tt s) | Some _ => None end else None) <> None).
    { intros wins todo. unfold timed_op. destruct (r_handed rr); [|left; apply lift_ne, Hc]. cbn [andb].
      destruct (Z.leb_spec 0 (w_end w)); [|lia]. destruct (mesh p ITau tt s) as [[th s1]|]; [left|right; apply lift_ne, Hc].
      destruct (t_prog th); try discriminate; destruct (r_out rr); discriminate. }
    destruct q as [t|b j]; [apply K|]. destruct Hq as [-> ->]. rewrite Nat.eqb_refl. apply K.
  Qed.

  (** ** An operation outside its window ends the role *)

  Lemma outside_refused : forall o f m k w c, monotone f -> m (w_clock w) = Some c ->
    (forall j, k <= j -> ~ in_window w (elapsed (f j) c)) ->
    r_handed (run o f ready_timeout ready_block w m k) = false.
  Proof.
    intros o f m k w c Hm Hc Hout. destruct (r_handed _) eqn:E; [|reflexivity]. exfalso.
    destruct (run_handed_in_window o f _ _ w m k Hm E) as [[H1 H2]|(c' & j & H1 & H2 & H3)].
    - apply (Hout k (le_n k)). split; intros; lia.
    - rewrite Hc in H1. injection H1 as <-. apply (Hout j ltac:(lia) H3).
  Qed.

  Lemma outside_ends : forall p i tt s tt' s' w c, monotone (now p) ->
    t_trash (tm_thr tt) = [] -> next_window p tt = Some w -> tm_clocks tt (w_clock w) = Some c ->
    (forall j, tm_next tt <= j -> ~ in_window w (elapsed (now p j) c)) ->
    is_clock i = false -> ttstep p i tt s = Some (tt', s') ->
    tm_thr tt' = fin (tm_thr tt) RCrash (held (t_prog (tm_thr tt))).
  Proof.
    intros p i tt s tt' s' w c Hm Et Hw Hc Hout Hi E.
    assert (L : lift tt (mesh p ICrash tt s) = Some (tt', s') ->
              tm_thr tt' = fin (tm_thr tt) RCrash (held (t_prog (tm_thr tt)))).
    { intros El. apply lift_some in El as [El _]. unfold TimedMesh.mesh, Mesh.tstep in El. rewrite Et in El.
      destruct (t_prog (tm_thr tt)) as [ss r hs|b l pend own|a r hs|res|hs]; try discriminate; injection El as El _; symmetry; exact El. }
    pose proof (fun o => outside_refused o _ _ _ _ _ Hm Hc Hout) as Rf.
    pose proof (Rf OSend) as R1. pose proof (Rf OSendNoReset) as R2. pose proof (Rf ORecv) as R3. clear Rf. cbn [run] in R1, R2, R3.
    unfold next_window in Hw. unfold TimedMesh.ttstep in E. cbv zeta in E. rewrite Et in E.
    destruct (tm_dead tt); [destruct i as [[]| |]; try discriminate; exact (L E)|].
    destruct (t_prog (tm_thr tt)) as [ss [| |x r|? ?|? ? ?|? ? ?] hs|b l [|[[x h] ms] pend] own|a r hs|res|hs]; try discriminate Hw;
      injection Hw as <-; unfold timed_op in E.
    - rewrite R1, R3 in E. destruct i as [[|v|l|]| |]; try exact (L E); try discriminate;
      (destruct (callable n p x); [|discriminate];
       destruct (nth_error ss (comm_field p x - 1)) as [[|[t|b j] k|[t|b j] [| |]]|]; try discriminate; try exact (L E)).
      destruct (j =? p); [exact (L E)|discriminate].
    - rewrite R2 in E. destruct i as [[|v|l'|]| |]; try exact (L E); discriminate.
  Qed.
End Steps.

(** ** Roles that have not called close *)

Section CloseLog.
  Context {S H : Type}.
  Variable O : ops S H.
  Variable n : nat.
  Variable branch : nat -> nat -> nat -> mty.
  Variable labels : nat -> nat.
  Variable strict : bool.

  Definition open_log (th : @thread H) : Prop :=
    match t_prog th with PRun _ _ _ | PChoose _ _ _ _ => ~ In EvClose (t_log th) | _ => True end.

  Lemma open_step : forall p i th s th' s', open_log th ->
    tstep O n branch labels strict p i th s = Some (th', s') -> open_log th'.
  Proof.
    intros p i [pr trash rd lg] s th' s' C E. unfold tstep in E. cbn [t_trash t_prog t_round t_log] in E.
    assert (K : forall e l, ~ In EvClose l -> e <> EvClose -> ~ In EvClose (l ++ [e])).
    { intros e l H1 H2 H3. apply in_app_or in H3 as [H3|[H3|[]]]; auto. }
    destruct trash.
    2:{ destruct i; try discriminate. destruct (op_drop O h s). injection E as <- _. exact C. }
    unfold open_log in C. cbn [t_prog t_log] in C.
    destruct pr as [ss r hs|b l pend own|a r hs|res|hs]; try discriminate.
    - destruct i.
      + destruct r; try discriminate.
        * destruct (forallb is_end ss); [|discriminate]. injection E as <- _. exact Logic.I.
        * destruct (callable n p x); [|discriminate].
          destruct (nth_error ss (comm_field p x - 1)) as [[|? ?|[t|b j] k]|]; try discriminate;
            destruct (nth_error hs _); try discriminate.
          -- unfold do_recv in E. destruct (op_recv O h s) as [v m h1 s1|s1| |]; try discriminate;
               [destruct v; [destruct m; [destruct (t0 =? t)|]|]| |]; injection E as <- _;
               first [exact Logic.I|apply K; [exact C|discriminate]].
          -- destruct k; try discriminate. destruct (j =? p); [|discriminate].
             unfold do_offer in E. destruct (op_recv O h s) as [v m h1 s1|s1| |]; try discriminate;
               [destruct v; [|destruct ((b0 =? b) && (j0 =? p) && (l <? labels b))]| |]; injection E as <- _;
               first [exact Logic.I|apply K; [exact C|discriminate]].
          -- destruct k; discriminate.
      + destruct r; try discriminate. destruct (callable n p x0); [|discriminate].
        destruct (nth_error ss (comm_field p x0 - 1)) as [[|[t|? ?] k|? ?]|]; try discriminate.
        destruct (nth_error hs _); try discriminate. unfold do_send in E.
        destruct (op_send O h (VData t x) [] k s); try discriminate; [|destruct strict|]; injection E as <- _;
          first [exact Logic.I|apply K; [exact C|discriminate]].
      + destruct r; try discriminate. destruct (choice_of p ss) as [b|]; [|discriminate].
        destruct (l <? labels b); [|discriminate].
        destruct (make_choice O n branch p b l hs s) as [[pr s1]|]; injection E as <- _; [|exact Logic.I].
        unfold open_log. cbn. destruct pr; auto.
      + injection E as <- _. exact Logic.I.
    - destruct i; try (destruct pend; discriminate).
      + destruct pend as [|[[x h] m] pend]; [injection E as <- _; exact C|].
        unfold do_choose_send in E. destruct (op_send O h (VLabel b l x) m End s); try discriminate;
          [|destruct strict|]; injection E as <- _; first [exact Logic.I|apply K; [exact C|discriminate]].
      + injection E as <- _. exact Logic.I.
    - destruct i; try discriminate; [|injection E as <- _; exact Logic.I].
      unfold do_close in E. destruct (nth_error hs a).
      + destruct (op_tell O h Stop s); try discriminate; injection E as <- _; exact Logic.I.
      + destruct (nth_error hs r); [|injection E as <- _; exact Logic.I].
        destruct (op_hear O h s); try discriminate; [destruct g| |]; injection E as <- _; exact Logic.I.
  Qed.

  Lemma open_steps : forall st tr st', steps O n branch labels strict st tr st' ->
    (forall p, open_log (st_thr st p)) -> forall p, open_log (st_thr st' p).
  Proof.
    induction 1 as [st|st q i st1 tr st2 E Hs IH]; intros C; [exact C|]. apply IH. intros p. unfold exec in E.
    destruct ((1 <=? q) && (q <=? n)); [|discriminate].
    destruct (tstep O n branch labels strict q i (st_thr st q) (st_store st)) as [[th s1]|] eqn:Et; [|discriminate].
    injection E as <-. cbn. unfold set_thr. destruct (p =? q); [|apply C]. eapply open_step; [apply C|exact Et].
  Qed.

  Lemma open_init : forall T s p, open_log (st_thr (init O n T s) p).
  Proof.
    intros T s p. unfold init. destruct (alloc O (pair_types n (fork_vars n) T) s) as [pairs s1]. cbn.
    destruct (fork_mesh n p) as [es|]; [destruct (pick_all pairs es)|]; try exact Logic.I. intros [].
  Qed.
End CloseLog.
