(** C60: a clock exists exactly if its role has started it, and an operation whose clock was not started fails the session.
    On the concrete machine of Session.v, Mesh.v and TimedMesh.v, for any windows and any readings of the system clock. *)
From Coq Require Import List Arith ZArith Bool Lia.
From Verif Require Import Types Wiring WiringProofs Session Mesh MeshSpec MeshReach Links MeshInv MeshStep MeshSafe Refine Sim Global
  MeshGlobal Properties_Mesh Properties_Global Timed TimedProofs TimedMesh TimedMeshProofs Properties_TimedMesh.
Import ListNotations.
Open Scope nat_scope.

(** ** Operations start no clocks *)
Definition no_new (m m' : clocks) : Prop := forall c, m c = None -> m' c = None.
Lemma no_new_set : forall m c t, m c <> None -> no_new m (set_clock m c t).
Proof. intros m c t Hc x Hx. unfold set_clock. destruct (Nat.eqb_spec x c); [congruence|exact Hx]. Qed.
Lemma run_no_new : forall o now ct cb w m k, no_new m (r_clocks (run o now ct cb w m k)).
Proof.
  intros o now ct cb w m k. destruct (run_clocks o now ct cb w m k) as [->|(j & _ & _ & -> & Hm & _)]; [intros c H; exact H|apply no_new_set, Hm].
Qed.
Lemma reset_all_no_new : forall now cs m k o m' k', reset_all now cs m k = (o, m', k') -> no_new m m'.
Proof.
  induction cs as [|c cs IH]; intros m k o m' k' E; cbn in E; [injection E as _ <- _; intros x H; exact H|].
  destruct (m c) eqn:Em; [|injection E as _ <- _; intros x H; exact H].
  intros x Hx. apply (IH _ _ _ _ _ E). apply no_new_set; [congruence|exact Hx].
Qed.

Section Steps.
  Variable n : nat.
  Variable branch : nat -> nat -> nat -> mty.
  Variable branchw : nat -> nat -> nat -> list (list window).
  Variable labels : nat -> nat.
  Variable now : nat -> nat -> Z.
  Notation ttstep := (ttstep heap_ops n branch branchw labels now).
  Notation mesh := (mesh heap_ops n branch labels).

  Lemma ttstep_no_new : forall p i tt s tt' s', ttstep p i tt s = Some (tt', s') -> is_clock i = false -> no_new (tm_clocks tt) (tm_clocks tt').
  Proof.
    intros p i tt s tt' s' E Hi.
    assert (L : forall j, lift tt (mesh p j tt s) = Some (tt', s') -> no_new (tm_clocks tt) (tm_clocks tt')).
    { intros j El. apply lift_some in El as (_ & _ & -> & _). intros x Hx; exact Hx. }
    assert (Q : forall o w j wins todo, timed_op heap_ops n branch labels (run o (now p) ready_timeout ready_block w (tm_clocks tt) (tm_next tt)) p j tt s wins todo = Some (tt', s') ->
              no_new (tm_clocks tt) (tm_clocks tt')).
    { intros o w j wins todo Et. unfold timed_op in Et. pose proof (run_no_new o (now p) ready_timeout ready_block w (tm_clocks tt) (tm_next tt)) as G.
      destruct (r_handed _); [|eapply L; exact Et].
      destruct (mesh p j tt s) as [[th s1]|]; [|discriminate].
      destruct (t_prog th); try (injection Et as <- <-; intros x Hx; exact Hx); destruct (r_out _); injection Et as <- <-; exact G. }
    pose proof (Q OSend) as Q1. pose proof (Q OSendNoReset) as Q2. pose proof (Q ORecv) as Q3. clear Q. cbn [run] in Q1, Q2, Q3.
    unfold TimedMesh.ttstep in E. cbv zeta in E.
    destruct (t_trash (tm_thr tt)); [|destruct i as [[]| |]; try discriminate; eauto].
    destruct (tm_dead tt); [destruct i as [[]| |]; try discriminate; eauto|].
    destruct i as [i| |c]; [| |discriminate].
    - destruct i as [|v|l|]; eauto;
        (destruct (t_prog (tm_thr tt)) as [ss [| |x r|? ?|? ? ?|? ? ?] hs|b l0 [|[[x h] ms] pend] own|a r hs|res|hs]; try discriminate; eauto;
         [destruct (callable n p x); [|discriminate];
          destruct (nth_error ss (comm_field p x - 1)) as [[|[t|b j] k|[t|b j] [| |]]|]; try discriminate; eauto; try (destruct (j =? p); [eauto|discriminate])
         |..]).
      destruct (reset_all (now p) (tm_todo tt) (tm_clocks tt) (tm_next tt)) as [[[] m'] k'] eqn:Er; eauto.
      destruct (mesh p ITau tt s) as [[th s1]|]; [|discriminate]. injection E as <- <-. eapply reset_all_no_new; exact Er.
    - destruct (t_prog (tm_thr tt)) as [ss [| |x r|? ?|? ? ?|? ? ?] hs|b l0 [|[[x h] ms] pend] own|a r hs|res|hs]; try discriminate; eauto.
      destruct (callable n p x); [|discriminate].
      destruct (nth_error ss (comm_field p x - 1)) as [[|[t|b j] k|[t|b j] [| |]]|]; try discriminate; eauto;
        destruct (_ && _)%bool; try discriminate; destruct (mesh p ITau tt s); try discriminate; eauto.
  Qed.

  Lemma ttstep_clock : forall p c tt s tt' s', ttstep p (TClock c) tt s = Some (tt', s') ->
    exists t, tm_clocks tt' = set_clock (tm_clocks tt) c t.
  Proof.
    intros p c tt s tt' s' E. unfold TimedMesh.ttstep in E. cbv zeta in E. destruct (t_trash (tm_thr tt)); [|discriminate].
    destruct (tm_dead tt); [discriminate|]. destruct (t_prog (tm_thr tt)); try discriminate; injection E as <- _; eexists; reflexivity.
  Qed.

  (** If all three operations refuse, the role ends. *)
  Lemma refused_ends : forall p i tt s tt' s' w, t_trash (tm_thr tt) = [] -> next_window p tt = Some w ->
    (forall o, r_handed (run o (now p) ready_timeout ready_block w (tm_clocks tt) (tm_next tt)) = false) ->
    is_clock i = false -> ttstep p i tt s = Some (tt', s') ->
    tm_thr tt' = fin (tm_thr tt) RCrash (held (t_prog (tm_thr tt))).
  Proof.
    intros p i tt s tt' s' w Et Hw Rf Hi E.
    assert (L : lift tt (mesh p ICrash tt s) = Some (tt', s') ->
              tm_thr tt' = fin (tm_thr tt) RCrash (held (t_prog (tm_thr tt)))).
    { intros El. apply lift_some in El as [El _]. unfold TimedMesh.mesh, Mesh.tstep in El. rewrite Et in El.
      destruct (t_prog (tm_thr tt)) as [ss r hs|b l pend own|a r hs|res|hs]; try discriminate; injection El as El _; symmetry; exact El. }
    pose proof (Rf OSend) as R1. pose proof (Rf OSendNoReset) as R2. pose proof (Rf ORecv) as R3. clear Rf. cbn [run] in R1, R2, R3.
    unfold next_window in Hw. unfold TimedMesh.ttstep in E. cbv zeta in E. rewrite Et in E.
    destruct (tm_dead tt); [destruct i as [[]| |]; try discriminate; exact (L E)|].
    destruct (t_prog (tm_thr tt)) as [ss [| |x r|? ?|? ? ?|? ? ?] hs|b l [|[[x h] ms] pend] own|a r hs|res|hs]; try discriminate Hw;
      injection Hw as <-; unfold timed_op in E.
    - rewrite R1, R3 in E. destruct i as [[|v|l|]| |]; try exact (L E); try discriminate;
      (destruct (callable n p x); [|discriminate];
       destruct (nth_error ss (comm_field p x - 1)) as [[|[t|b j] k|[t|b j] [| |]]|]; try discriminate; try exact (L E)).
      destruct (j =? p); [exact (L E)|discriminate].
    - rewrite R2 in E. destruct i as [[|v|l'|]| |]; try exact (L E); discriminate.
  Qed.
End Steps.

(** Without its clock an operation with a bound hands nothing over. *)
Lemma no_clock_refused : forall o now ct cb w m k, m (w_clock w) = None -> (0 <= w_start w \/ 0 <= w_end w)%Z -> r_handed (run o now ct cb w m k) = false.
Proof.
  intros o now ct cb w m k Hc Hb.
  assert (B : forall snd g, (forall t tr, r_handed (g t tr) = false) -> r_handed (body now ct cb snd g w m k) = false).
  { intros snd g Hg. unfold body. destruct (Z.ltb_spec (w_start w) 0).
    - destruct (Z.leb_spec 0 (w_end w)); [apply Hg|lia].
    - destruct (Z.ltb_spec (w_end w) 0); [apply Hg|]. destruct (_ <? _)%Z; [reflexivity|apply Hg]. }
  destruct o; cbn [run]; unfold tsend, tsend_without_reset, trecv; try (destruct (_ <? _)%Z; [reflexivity|]); apply B; intros t tr.
  - unfold guarded. rewrite Hc. reflexivity.
  - unfold guarded_nr. rewrite Hc. reflexivity.
  - unfold guarded. rewrite Hc. reflexivity.
Qed.

(** * A clock exists exactly if its role has started it *)
Theorem clock_exists_iff_started : forall n branch labels T BW now W tr st,
  tsteps heap_ops n branch BW labels now (tstart n T W) tr st ->
  forall p c, tm_clocks (ts_thr st p) c <> None <-> In (p, TClock c) tr.
Proof.
  intros n branch labels T BW now W tr st H p c.
  assert (K : forall a tr b, tsteps heap_ops n branch BW labels now a tr b ->
            (tm_clocks (ts_thr b p) c <> None <-> tm_clocks (ts_thr a p) c <> None \/ In (p, TClock c) tr)).
  { clear. intros a tr b H. induction H as [a|a q i a1 tr b E Hs IH]; [cbn; tauto|]. rewrite IH. clear IH Hs.
    destruct (texec_inv heap_ops n branch BW labels now q i a a1 E) as (_ & tt & s & Es & ->). cbn [ts_thr In].
    destruct (Nat.eqb_spec p q) as [->|Hne].
    - destruct (is_clock i) eqn:Hi.
      + destruct i as [| |c']; try discriminate. destruct (ttstep_clock _ _ _ _ _ _ _ _ _ _ _ Es) as [t Et]. rewrite Et. unfold set_clock.
        destruct (Nat.eqb_spec c c') as [->|Hc]; [split; [auto|left; discriminate]|].
        split; [tauto|]. intros [H|[H|H]]; auto. exfalso. apply Hc. congruence.
      + pose proof (ttstep_grows _ _ _ _ _ _ _ _ _ _ _ _ Es) as G. pose proof (ttstep_no_new _ _ _ _ _ _ _ _ _ _ _ Es Hi) as N.
        split; [intros [H|H]; [left; intros H'; apply H, N, H'|auto]|]. intros [H|[H|H]]; [left; apply G, H| |auto]. injection H as ->. discriminate.
    - split; [tauto|]. intros [H|[H|H]]; [auto|congruence|auto]. }
  rewrite (K _ _ _ H). cbn. split; [intros [H0|H0]; [congruence|exact H0]|auto].
Qed.
Print Assumptions clock_exists_iff_started.

(** * An operation whose clock was not started fails the session *)

(** A role that has not started the clock of its next operation (whose window has a bound): the next thing it does, other
    than starting a clock, ends it, and from then on nobody can return Ok. *)
Theorem unstarted_clock_fails_all : forall n branch labels T BW now W tr st p w,
  (forall b l, l < labels b -> dual_mesh n (branch b l)) -> dual_mesh n T ->
  tsteps heap_ops n branch BW labels now (tstart n T W) tr st ->
  1 <= p <= n -> t_trash (tm_thr (ts_thr st p)) = [] ->
  next_window p (ts_thr st p) = Some w -> (0 <= w_start w \/ 0 <= w_end w)%Z -> ~ In (p, TClock (w_clock w)) tr ->
  forall i st1, (forall c, i <> TClock c) -> texec heap_ops n branch BW labels now p i st = Some st1 ->
  tresult st1 p = Some RCrash /\
  forall tr' st2, tsteps heap_ops n branch BW labels now st1 tr' st2 ->
  forall q, 1 <= q <= n -> tresult st2 q <> Some ROk.
Proof.
  intros n branch labels T BW now W tr st p w HB HT H Hp Et Hw Hb Hno i st1 Hi E.
  assert (Hc : tm_clocks (ts_thr st p) (w_clock w) = None).
  { destruct (tm_clocks (ts_thr st p) (w_clock w)) eqn:Ec; [|reflexivity]. exfalso. apply Hno.
    apply (clock_exists_iff_started n branch labels T BW now W tr st H p (w_clock w)). congruence. }
  destruct (texec_inv heap_ops n branch BW labels now p i st st1 E) as (_ & tt & s & Es & E1).
  assert (Hic : is_clock i = false) by (destruct i; try reflexivity; exfalso; eapply Hi; reflexivity).
  pose proof (refused_ends n branch BW labels now p i _ _ _ _ w Et Hw (fun o => no_clock_refused o _ _ _ w _ _ Hc Hb) Hic Es) as Eth.
  assert (Hr : tresult st1 p = Some RCrash).
  { subst st1. unfold tresult. cbn. rewrite Nat.eqb_refl, Eth. reflexivity. }
  split; [exact Hr|]. intros tr' st2 H2 q Hq Hok.
  destruct (tsteps_erase heap_ops n branch BW labels now _ _ _ H (start n T) (erase_init _ _ _ _ _)) as (jr & su & Hj & A & _).
  apply ttstep_simulates in Es. unfold simulates in Es. rewrite Hic in Es. destruct Es as [j Ej].
  destruct (exec_of heap_ops n branch labels p j tt s st su Hp A Ej) as (su1 & Ex & A1). rewrite <- E1 in A1.
  destruct (tsteps_erase heap_ops n branch BW labels now _ _ _ H2 su1 A1) as (jr2 & su2 & Hj2 & A2 & _).
  assert (Hs1 : Mesh.steps heap_ops n branch labels true (start n T) (jr ++ [(p, j)]) su1).
  { eapply steps_app; [exact Hj|]. econstructor; [exact Ex|constructor]. }
  apply (no_ok_after_early_end n branch labels true T _ jr2 su1 su2 HB HT Hs1 Hj2 p RCrash Hp) with (p := q); try assumption.
  - rewrite (agree_result _ _ p A1). exact Hr.
  - pose proof (open_steps heap_ops n branch labels true _ _ _ Hj (open_init _ _ _ _) p) as Ho.
    rewrite <- (proj2 A p) in Ho. rewrite <- (proj2 A1 p). subst st1. cbn. rewrite Nat.eqb_refl, Eth. cbn.
    unfold open_log in Ho. cbn in Ho. unfold next_window in Hw. destruct (t_prog (tm_thr (ts_thr st p))); try discriminate; exact Ho.
  - rewrite (agree_result _ _ q A2). exact Hok.
Qed.
Print Assumptions unstarted_clock_fails_all.

(** ** Example: the protocol [once] with windows; role 1 forgets its clock *)
Definition forgetful : list (nat * tinp) := [(2, TClock 97); (3, TClock 97)] ++ timed_of ([(3, ILabel 0)] ++ tau 3 7 ++ tau 1 5).
Example once_forgetful : exists st,
  texecutes 3 ask_labels once once_BW fast once_W forgetful st /\
  t_trash (tm_thr (ts_thr st 1)) = [] /\ next_window 1 (ts_thr st 1) = Some w10 /\ ~ In (1, TClock (w_clock w10)) forgetful /\
  tm_clocks (ts_thr st 2) 97 <> None /\
  exists st1 st2, tnext 3 ask_labels once once_BW fast 1 (TIn (IVal 42)) st = Some st1 /\
    tsteps heap_ops 3 (branches once 3) once_BW ask_labels fast st1 (timed_of (tau 1 3 ++ tau 2 7 ++ tau 3 3)) st2 /\
    (tresult st2 1, tresult st2 2, tresult st2 3) = (Some RCrash, Some RErr, Some RErr).
Proof.
  destruct (trun 3 (branches once 3) once_BW ask_labels fast once_start forgetful) as [st|] eqn:Er; [|vm_compute in Er; discriminate].
  assert (Hs : texecutes 3 ask_labels once once_BW fast once_W forgetful st) by (apply trun_steps, Er).
  exists st. split; [exact Hs|].
  assert (E : option_map (fun st => (t_trash (tm_thr (ts_thr st 1)), next_window 1 (ts_thr st 1)))
             (trun 3 (branches once 3) once_BW ask_labels fast once_start forgetful) = Some ([], Some w10)) by (vm_compute; reflexivity).
  rewrite Er in E. cbn [option_map] in E. injection E as E1 E2.
  split; [exact E1|]. split; [exact E2|]. split.
  { intros HI. cbn in HI. repeat (destruct HI as [HI|HI]; [discriminate HI|]). exact HI. }
  split.
  { apply (clock_exists_iff_started 3 (branches once 3) ask_labels _ once_BW fast once_W forgetful st Hs 2 97). left. reflexivity. }
  assert (E : match trun 3 (branches once 3) once_BW ask_labels fast once_start forgetful with
              | Some st => match tnext 3 ask_labels once once_BW fast 1 (TIn (IVal 42)) st with
                | Some st1 => option_map (fun st2 => (tresult st2 1, tresult st2 2, tresult st2 3))
                     (trun 3 (branches once 3) once_BW ask_labels fast st1 (timed_of (tau 1 3 ++ tau 2 7 ++ tau 3 3)))
                | None => None end
              | None => None end = Some (Some RCrash, Some RErr, Some RErr)) by (vm_compute; reflexivity).
  rewrite Er in E. destruct (tnext 3 ask_labels once once_BW fast 1 (TIn (IVal 42)) st) as [st1|]; [|discriminate].
  exists st1. destruct (trun 3 (branches once 3) once_BW ask_labels fast st1 _) as [st2|] eqn:Er2; [|discriminate].
  exists st2. split; [reflexivity|]. split; [apply trun_steps, Er2|]. cbn [option_map] in E. congruence.
Qed.
