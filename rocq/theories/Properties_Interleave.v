(** C49: several sessions at once. Threads that hold endpoints of several sessions and use them in any order
    (fork_interleaved_mpst, fork_mpst_multi_solo, closures that capture endpoints). *)
From Coq Require Import List Arith Bool Lia.
From Verif Require Import Types Diag Wiring WiringProofs Session Mesh MeshSpec Global MeshGlobal Interleave InterleaveProofs
  Properties_Wiring Properties_Mesh Properties_Global.
Import ListNotations.

(** A session whose roles follow the projections of a global protocol. *)
Record gsession := GSess { g_roles : nat; g_labels : nat -> nat; g_strict : bool; g_prot : protocol }.
Definition typed_by (g : gsession) : session :=
  Sess (g_roles g) (proj (g_roles g) (first_round (g_prot g))) (branches (g_prot g) (g_roles g)) (g_labels g) (g_strict g).
Definition wf_session (g : gsession) : Prop := wf_protocol (g_roles g) (g_labels g) (g_prot g).

(** Endpoints are shared without cycles: no thread has two roles of one session, and every session has at most one
    thread in common with the sessions before it. (The sessions of any acyclic sharing can be numbered so.) *)
Definition forest (k : nat) (G : nat -> gsession) (owner : nat -> nat -> nat) : Prop :=
  (forall s p q, s < k -> 1 <= p <= g_roles (G s) -> 1 <= q <= g_roles (G s) -> owner s p = owner s q -> p = q) /\
  forall j, j < k -> exists t0, forall s p q, s < j -> 1 <= p <= g_roles (G s) -> 1 <= q <= g_roles (G j) ->
    owner s p = owner j q -> owner j q = t0.

(** Every thread starts with an endpoint it holds. *)
Definition starts_at (k : nat) (G : nat -> gsession) (owner : nat -> nat -> nat) (w : nat -> nat * nat) : Prop :=
  forall s p, s < k -> 1 <= p <= g_roles (G s) ->
    fst (w (owner s p)) < k /\ 1 <= snd (w (owner s p)) <= g_roles (G (fst (w (owner s p)))) /\
    owner (fst (w (owner s p))) (snd (w (owner s p))) = owner s p.

(** Executions of the whole. *)
Definition interleaves k G owner unwind w tr st : Prop :=
  starts_at k G owner w /\ yruns k (fun s => typed_by (G s)) owner unwind (ystart (fun s => typed_by (G s)) w) tr st.
Definition goes k G owner unwind s p i w st := yexec k (fun s => typed_by (G s)) owner unwind s p i w st.

(** Every role of every session has returned and dropped all it owned. *)
Definition everything_over (k : nat) (G : nat -> gsession) (st : sys) : Prop :=
  forall s, s < k -> all_over (g_roles (G s)) (y_sess st s).

(** The thread t has met an error, or panicked, in one of its sessions. *)
Definition has_failed (k : nat) (G : nat -> gsession) (owner : nat -> nat -> nat) (st : sys) (t : nat) : Prop :=
  exists s p, s < k /\ 1 <= p <= g_roles (G s) /\ owner s p = t /\
    (result_of (y_sess st s) p = Some RErr \/ result_of (y_sess st s) p = Some RCrash).

Lemma over_returned : forall G st s, sess_over (fun s => typed_by (G s)) st s <-> all_over (g_roles (G s)) (y_sess st s).
Proof.
  intros G st s. unfold sess_over, all_over, role_over, thr_of. cbn. split; intros H p Hp; specialize (H p Hp).
  - unfold returned in H. destruct (t_prog (st_thr (y_sess st s) p)); try discriminate.
    destruct (t_trash (st_thr (y_sess st s) p)); [|discriminate]. eauto.
  - destruct H as [[r E] Et]. unfold returned. rewrite E, Et. reflexivity.
Qed.
Lemma failed_has : forall k G owner st t, failed k (fun s => typed_by (G s)) owner st t = true <-> has_failed k G owner st t.
Proof.
  intros k G owner st t. unfold failed. rewrite existsb_exists. unfold has_failed, result_of. split.
  - intros ([s p] & Hin & Hf). apply in_roles in Hin as (Hs & Hp & Ho). exists s, p. cbn in Hp. repeat split; try tauto; try lia.
    unfold fails, thr_of in Hf. cbn in Hf. destruct (t_prog (st_thr (y_sess st s) p)) as [| | |[]|]; try discriminate; auto.
  - intros (s & p & Hs & Hp & Ho & Hf). exists (s, p). split; [apply in_roles; auto|].
    unfold fails, thr_of. cbn. destruct (t_prog (st_thr (y_sess st s) p)) as [| | |[]|]; destruct Hf as [Hf|Hf]; try discriminate; reflexivity.
Qed.

Lemma start_running : forall n T p, 1 <= p <= n -> exists ss r hs, t_prog (st_thr (start n T) p) = PRun ss r hs /\ t_trash (st_thr (start n T) p) = [] \/
  t_prog (st_thr (start n T) p) = PStuck hs.
Proof.
  intros n T p Hp. unfold start, init. destruct (alloc _ _ _) as [pairs s1]. cbn.
  destruct (fork_mesh n p) as [es|]; [|exists [], SEnd, []; right; reflexivity].
  destruct (pick_all pairs es) as [hs|]; [|exists [], SEnd, []; right; reflexivity].
  exists (fst (T p)), (snd (T p)), hs. left. auto.
Qed.
Lemma start_open : forall n T p, 1 <= p <= n -> returned (st_thr (start n T) p) = false.
Proof.
  intros n T p Hp. destruct (start_running n T p Hp) as (ss & r & hs & [[E _]|E]); unfold returned; rewrite E; reflexivity.
Qed.

Lemma start_placed : forall k G owner w, starts_at k G owner w ->
  placed k (fun s => typed_by (G s)) owner (ystart (fun s => typed_by (G s)) w).
Proof.
  intros k G owner w H t. apply may_be_iff.
  match goal with |- ?l = [] \/ _ => destruct l as [|[s p] l0] eqn:E end; [left; reflexivity|]. right. rewrite <- E.
  assert (Hin : In (s, p) (open_roles k (fun s => typed_by (G s)) owner (ystart (fun s => typed_by (G s)) w) t)) by (rewrite E; left; reflexivity).
  apply in_open in Hin as (Hs & Hp & Ho & _). destruct (H s p Hs Hp) as (H1 & H2 & H3). rewrite Ho in *.
  change (y_at (ystart (fun s : nat => typed_by (G s)) w) t) with (w t).
  destruct (w t) as [s1 p1]. cbn in *. apply in_open. cbn. repeat split; try tauto; try lia.
  apply start_open. exact H2.
Qed.

(** * Each session by itself *)

(** Whatever the sharing and the order: each session runs as it would alone. So C14 to C19 hold of each of them. *)
Theorem interleaved_each : forall k G owner unwind w tr st, interleaves k G owner unwind w tr st ->
  forall s, executes (g_roles (G s)) (g_labels (G s)) (g_strict (G s)) (g_prot (G s)) (steps_in s tr) (y_sess st s).
Proof. intros k G owner unwind w tr st [_ H] s. exact (runs_each _ _ _ _ _ _ _ H s). Qed.
Print Assumptions interleaved_each.

(** * Progress *)

(** Any number of sessions of any well-formed global protocols, shared without cycles; each thread may switch between
    its endpoints after every step of the machine, in the middle of a choice or of a close too; any crashes; threads
    that meet an error stop everything ([unwind]) or only leave that session: in every reachable state either all is
    over, or something can happen that is not a crash, except the end of a thread that stops everything. *)
Theorem forest_progress : forall k G owner unwind w tr st,
  (forall s, s < k -> wf_session (G s)) -> forest k G owner -> interleaves k G owner unwind w tr st ->
  everything_over k G st \/
  exists s p i w' st', goes k G owner unwind s p i w' st = Some st' /\
    (i = ICrash -> unwind = true /\ has_failed k G owner st (owner s p)).
Proof.
  intros k G owner unwind w tr st W [F1 F2] [HW H].
  destruct (forest_goes_on k (fun s => typed_by (G s)) owner unwind F1) with (st := st) as [Ho|(s & p & i & w' & st' & E & Hi)].
  - intros j Hj. destruct (F2 j Hj) as [t0 HT]. exists t0. exact HT.
  - exact (placed_runs _ _ _ _ _ _ _ H (start_placed _ _ _ _ HW)).
  - intros s Hs. destruct (global_progress (g_roles (G s)) (g_labels (G s)) (g_strict (G s)) (g_prot (G s)) (steps_in s tr) (y_sess st s))
      as [Ho|(p & i & m & Hp & Hi & E)]; [apply W; exact Hs|exact (interleaved_each _ _ _ _ _ _ _ (conj HW H) s)| |].
    + left. apply over_returned; exact Ho.
    + right. exists p, i, m. auto.
  - left. intros s Hs. apply over_returned; auto.
  - right. exists s, p, i, w', st'. split; [exact E|]. intros Ei. destruct (Hi Ei) as [Hu Hf]. split; [exact Hu|].
    apply failed_has. exact Hf.
Qed.
Print Assumptions forest_progress.

(** Finite protocols: all executions together are bounded, and one that cannot be continued is over. *)
Theorem forest_terminates : forall k G owner unwind w tr st size,
  (forall s, s < k -> wf_session (G s)) -> forest k G owner -> interleaves k G owner unwind w tr st ->
  (forall s, s < k -> finite_protocol (g_roles (G s)) (g_labels (G s)) (g_prot (G s)) (size s)) ->
  length tr <= sum (fun s => longest (g_roles (G s)) (size s) (g_prot (G s))) k /\
  ((forall s p i w', goes k G owner unwind s p i w' st = None) -> everything_over k G st).
Proof.
  intros k G owner unwind w tr st size W F H FN. split.
  - destruct H as [HW H]. rewrite (runs_length _ _ _ _ _ _ _ H). apply sum_le. intros s Hs.
    apply (finite_protocols_terminate (g_roles (G s)) (g_labels (G s)) (g_strict (G s)) (g_prot (G s)) (size s) (steps_in s tr) (y_sess st s));
      [apply W; exact Hs|apply FN; exact Hs|]. exact (interleaved_each _ _ _ _ _ _ _ (conj HW H) s).
  - intros Hmax. destruct (forest_progress k G owner unwind w tr st W F H) as [Ho|(s & p & i & w' & st' & E & _)]; [exact Ho|].
    rewrite Hmax in E. discriminate.
Qed.
Print Assumptions forest_terminates.

(** Nobody crashes: nothing fails, and when nothing more can happen all closes of all sessions have returned Ok and
    everything sent has been received. *)
Theorem forest_all_ok : forall k G owner unwind w tr st,
  (forall s, s < k -> wf_session (G s)) -> forest k G owner -> interleaves k G owner unwind w tr st ->
  (forall s, crash_free (steps_in s tr)) ->
  (forall s p r, s < k -> 1 <= p <= g_roles (G s) -> result_of (y_sess st s) p = Some r -> r = ROk) /\
  ((forall s p i w', i <> ICrash -> goes k G owner unwind s p i w' st = None) ->
   forall s, s < k ->
   (forall p, 1 <= p <= g_roles (G s) -> result_of (y_sess st s) p = Some ROk) /\
   forall g p q, 1 <= p <= g_roles (G s) -> 1 <= q <= g_roles (G s) -> p <> q ->
     ins (evs g q (t_log (st_thr (y_sess st s) p))) = outs (evs g p (t_log (st_thr (y_sess st s) q)))).
Proof.
  intros k G owner unwind w tr st W F H NC.
  pose proof (fun s Hs => no_crash_all_ok _ _ _ _ _ _ (W s Hs) (interleaved_each _ _ _ _ _ _ _ H s) (NC s)) as HK.
  assert (Hres : forall s p r, s < k -> 1 <= p <= g_roles (G s) -> result_of (y_sess st s) p = Some r -> r = ROk).
  { intros s p r Hs Hp. exact (proj1 (HK s Hs) p r Hp). }
  split; [exact Hres|]. intros Hmax s Hs. apply (proj2 (HK s Hs)).
  assert (Ho : everything_over k G st).
  { destruct (forest_progress k G owner unwind w tr st W F H) as [Ho|(s1 & p & i & w' & st' & E & Hi)]; [exact Ho|].
    exfalso. assert (i <> ICrash).
    { intros Ei. destruct (Hi Ei) as (_ & s2 & q & Hs2 & Hq & _ & [X|X]); apply Hres in X; try assumption; discriminate. }
    rewrite Hmax in E by assumption. discriminate. }
  intros p i _. unfold next, exec. destruct ((1 <=? p) && (p <=? g_roles (G s))) eqn:Ep; [|reflexivity].
  apply andb_prop in Ep as [Ea Eb]. apply Nat.leb_le in Ea, Eb. destruct (Ho s Hs p ltac:(lia)) as [[r Er] Et].
  unfold tstep. rewrite Et, Er. reflexivity.
Qed.
Print Assumptions forest_all_ok.

(** * Failures *)

Lemma crash_step_log : forall n branch labels strict p i m m', exec heap_ops n branch labels strict p i m = Some m' ->
  i = ICrash \/ t_trash (st_thr m p) <> [] -> t_log (st_thr m' p) = t_log (st_thr m p).
Proof.
  intros n branch labels strict p i m m' H Hor. unfold exec in H. destruct ((1 <=? p) && (p <=? n)); [|discriminate].
  destruct (tstep heap_ops n branch labels strict p i (st_thr m p) (st_store m)) as [[th s1]|] eqn:E; [|discriminate].
  injection H as <-. cbn. unfold set_thr. rewrite Nat.eqb_refl. unfold tstep in E.
  destruct (t_trash (st_thr m p)) as [|x l].
  - destruct Hor as [->|X]; [|congruence]. destruct (t_prog (st_thr m p)); try discriminate; injection E as <- _; reflexivity.
  - destruct i; try discriminate. destruct (op_drop heap_ops x (st_store m)). injection E as <- _. reflexivity.
Qed.
Lemma result_stays : forall n branch labels strict p i m m' q r, exec heap_ops n branch labels strict p i m = Some m' ->
  result_of m q = Some r -> result_of m' q = Some r.
Proof.
  intros n branch labels strict p i m m' q r H Hr. unfold exec in H. destruct ((1 <=? p) && (p <=? n)); [|discriminate].
  destruct (tstep heap_ops n branch labels strict p i (st_thr m p) (st_store m)) as [[th s1]|] eqn:E; [|discriminate].
  injection H as <-. unfold result_of in *. cbn. unfold set_thr. destruct (Nat.eqb_spec q p) as [->|]; [|exact Hr].
  unfold tstep in E. destruct (t_trash (st_thr m p)) as [|x l]; destruct (t_prog (st_thr m p)) as [| | |res|]; try discriminate.
  destruct i; try discriminate. destruct (op_drop heap_ops x (st_store m)). injection E as <- _. exact Hr.
Qed.

(** A failure in one session spreads to the others through the threads they share: once a thread has failed in a
    session and stops everything, then in every other session it is in, in which it has not called close yet, nobody
    ever gets Ok. Any sharing. *)
Theorem failure_spreads : forall k G owner w tr st tr' st',
  interleaves k G owner true w tr st -> yruns k (fun s => typed_by (G s)) owner true st tr' st' ->
  forall t, has_failed k G owner st t ->
  forall s q, s < k -> 1 <= q <= g_roles (G s) -> owner s q = t -> ~ In EvClose (t_log (st_thr (y_sess st s) q)) ->
  forall p, 1 <= p <= g_roles (G s) -> result_of (y_sess st' s) p <> Some ROk.
Proof.
  intros k G owner w tr st tr' st' [HW H] H' t Hf s q Hs Hq Ho Hc p Hp Hok.
  assert (Hlog : t_log (st_thr (y_sess st' s) q) = t_log (st_thr (y_sess st s) q)).
  { clear Hok Hc H HW. induction H' as [st|st s0 p0 i w' st1 tr1 st2 Hx Hr IH]; [reflexivity|].
    destruct (yexec_inv _ _ _ _ _ _ _ _ _ _ Hx) as (_ & Hp0 & Ha & Hu & E & Fr & _).
    assert (Hf1 : has_failed k G owner st1 t).
    { destruct Hf as (s2 & p2 & A & B & C & X). exists s2, p2. repeat split; try tauto; try lia.
      destruct (Nat.eq_dec s2 s0) as [->|Hne]; [|rewrite Fr by exact Hne; exact X].
      destruct X as [X|X]; [left|right]; eapply result_stays; eauto. }
    rewrite (IH Hf1). destruct (Nat.eq_dec s s0) as [->|Hne]; [|rewrite Fr by exact Hne; reflexivity].
    destruct (Nat.eq_dec q p0) as [->|Hqp].
    - eapply crash_step_log; [exact E|]. apply Hu; [reflexivity|]. apply failed_has. rewrite Ho. exact Hf.
    - f_equal. exact (sexec_frame (fun s => typed_by (G s)) s0 p0 i _ _ q E Hqp). }
  assert (HI : In EvClose (t_log (st_thr (y_sess st' s) q))).
  { eapply (close_ok_means_all_called_close (g_roles (G s)) (branch_g (g_roles (G s)) (g_prot (G s))) (g_labels (G s)) (g_strict (G s)) (T_g (g_roles (G s)) (g_prot (G s)))).
    - apply branch_g_dual.
    - apply T_g_dual.
    - exact (interleaved_each k G owner true w (tr ++ tr') st' (conj HW (yruns_app _ _ _ _ _ _ _ H _ _ H')) s).
    - exact Hp.
    - exact Hok.
    - exact Hq. }
  rewrite Hlog in HI. contradiction.
Qed.
Print Assumptions failure_spreads.

(** * The fork of two interleaved sessions *)

Lemma il_owner_cases : forall n1 n2 idx1 idx2 s p, 2 <= n1 -> 2 <= n2 -> 1 <= idx1 <= n1 -> 1 <= idx2 <= n2 ->
  let v := match s with 0 => p | _ => n1 + p end in 1 <= v <= n1 + n2 ->
  il_owner n1 n2 idx1 idx2 s p = 0 /\ (v = idx1 \/ v = n1 + idx2) \/
  1 <= il_owner n1 n2 idx1 idx2 s p /\ il_thread n1 idx1 idx2 (il_owner n1 n2 idx1 idx2 s p) = v.
Proof.
  intros n1 n2 idx1 idx2 s p Hn1 Hn2 H1 H2 v Hv. unfold il_owner, il_mesh_one, il_mesh_two. fold v. cbn [il_interleaved fst snd].
  destruct (Nat.eqb_spec v idx1) as [E|E]; [left; auto|]. destruct (Nat.eqb_spec v (n1 + idx2)) as [E'|E']; [left; auto|]. cbn [orb].
  right. destruct (find (fun f => il_thread n1 idx1 idx2 f =? v) (seq 1 (n1 + n2 - 2))) as [f|] eqn:Ef.
  - apply find_some in Ef as [Hin Hf]. apply in_seq in Hin. apply Nat.eqb_eq in Hf. split; [lia|exact Hf].
  - exfalso. destruct (Properties_Wiring.interleaved_fork_consistent n1 n2 idx1 idx2 Hn1 Hn2 H1 H2) as (_ & _ & HP).
    assert (Hin : In v (seq 1 (n1 + n2))) by (apply in_seq; lia).
    apply (Permutation.Permutation_in _ (Permutation.Permutation_sym HP)) in Hin. apply in_app_or in Hin as [Hin|Hin].
    + apply in_map_iff in Hin as (f & Hf & Hin). apply (find_none _ _ Ef) in Hin. apply Nat.eqb_neq in Hin. contradiction.
    + cbn in Hin. intuition congruence.
Qed.

(** The threads made by fork_interleaved_mpst (as computed by the code of the macro) share the endpoints without
    cycles, whatever the numbers of roles and the two indices: only the interleaved thread is in both sessions. *)
Theorem fork_interleaved_forest : forall n1 n2 idx1 idx2 G, 2 <= n1 -> 2 <= n2 -> 1 <= idx1 <= n1 -> 1 <= idx2 <= n2 ->
  g_roles (G 0) = n1 -> g_roles (G 1) = n2 -> forest 2 G (il_owner n1 n2 idx1 idx2).
Proof.
  intros n1 n2 idx1 idx2 G Hn1 Hn2 H1 H2 E0 E1. subst n1 n2. set (n1 := g_roles (G 0)) in *. set (n2 := g_roles (G 1)) in *. split.
  - intros s p q Hs Hp Hq Eo.
    pose proof (il_owner_cases n1 n2 idx1 idx2 s p Hn1 Hn2 H1 H2) as Cp.
    pose proof (il_owner_cases n1 n2 idx1 idx2 s q Hn1 Hn2 H1 H2) as Cq.
    destruct s as [|[|s]]; [| |lia]; cbv beta iota zeta in Cp, Cq; fold n1 n2 in Hp, Hq;
      destruct (Cp ltac:(lia)) as [[A B]|[A B]]; destruct (Cq ltac:(lia)) as [[A' B']|[A' B']]; try lia; rewrite Eo in B; lia.
  - intros j Hj. exists 0. intros s p q Hs Hp Hq Eo. assert (j = 1) by lia. assert (s = 0) by lia. subst j s.
    pose proof (il_owner_cases n1 n2 idx1 idx2 0 p Hn1 Hn2 H1 H2) as Cp.
    pose proof (il_owner_cases n1 n2 idx1 idx2 1 q Hn1 Hn2 H1 H2) as Cq. cbv beta iota zeta in Cp, Cq. fold n1 in Hp. fold n2 in Hq.
    destruct (Cq ltac:(lia)) as [[A' B']|[A' B']]; [exact A'|].
    destruct (Cp ltac:(lia)) as [[A B]|[A B]]; [lia|]. rewrite Eo in B. lia.
Qed.
Print Assumptions fork_interleaved_forest.

(** So two protocols interleaved by that fork never deadlock, whatever the program of the interleaved thread. *)
Theorem fork_interleaved_progress : forall idx1 idx2 G unwind w tr st,
  wf_session (G 0) -> wf_session (G 1) -> 1 <= idx1 <= g_roles (G 0) -> 1 <= idx2 <= g_roles (G 1) ->
  let owner := il_owner (g_roles (G 0)) (g_roles (G 1)) idx1 idx2 in
  interleaves 2 G owner unwind w tr st ->
  everything_over 2 G st \/
  exists s p i w' st', goes 2 G owner unwind s p i w' st = Some st' /\
    (i = ICrash -> unwind = true /\ has_failed 2 G owner st (owner s p)).
Proof.
  intros idx1 idx2 G unwind w tr st W0 W1 H1 H2 owner H. apply (forest_progress 2 G owner unwind w tr st).
  - intros [|[|s]] Hs; [exact W0|exact W1|lia].
  - pose proof (proj1 W0). pose proof (proj1 W1). apply fork_interleaved_forest; auto.
  - exact H.
Qed.
Print Assumptions fork_interleaved_progress.

(** * Outside: cycles *)

(** Two roles each; in the first session 2 sends to 1, in the second 1 sends to 2. *)
Definition down : gsession := GSess 2 (fun _ => 0) true (Protocol ([Msg3 2 1 7], GEnd) (fun _ _ => ([], GEnd))).
Definition up : gsession := GSess 2 (fun _ => 0) true (Protocol ([Msg3 1 2 8], GEnd) (fun _ _ => ([], GEnd))).
Lemma down_wf : wf_session down.
Proof. split; [cbn; lia|]. split; [split; [repeat constructor; cbn; lia|exact Logic.I]|cbn; lia]. Qed.
Lemma up_wf : wf_session up.
Proof. split; [cbn; lia|]. split; [split; [repeat constructor; cbn; lia|exact Logic.I]|cbn; lia]. Qed.

(** Two threads that share two sessions can wait for each other forever. *)
Theorem shared_twice_refuted : exists k G owner w,
  (forall s, s < k -> wf_session (G s)) /\
  (forall s p q, s < k -> 1 <= p <= g_roles (G s) -> 1 <= q <= g_roles (G s) -> owner s p = owner s q -> p = q) /\
  forall unwind, exists st, interleaves k G owner unwind w [] st /\ ~ everything_over k G st /\
    forall s p i w', i <> ICrash -> goes k G owner unwind s p i w' st = None.
Proof.
  exists 2, (fun s => match s with 0 => down | _ => up end), (fun _ p => p), (fun t => if t =? 1 then (0, 1) else (1, t)).
  split; [intros [|s] _; [exact down_wf|exact up_wf]|]. split; [intros; assumption|]. intros unwind.
  eexists. split; [split; [|constructor]|split].
  - intros s p Hs Hp. assert (1 <= p <= 2) by (destruct s; exact Hp). destruct (Nat.eqb_spec p 1) as [->|]; cbn; repeat split; lia.
  - intros X. destruct (X 0 ltac:(lia) 1 ltac:(cbn; lia)) as [[r E] _]. vm_compute in E. discriminate.
  - intros s p i w' Hi. unfold goes, yexec. destruct s as [|[|s]].
    + destruct p as [|[|p]]; try reflexivity. destruct unwind, i; try reflexivity; congruence.
    + destruct p as [|[|[|p]]]; try reflexivity.
      * destruct unwind, i; reflexivity.
      * destruct unwind, i; try reflexivity; congruence.
      * match goal with |- (if ?c then _ else _) = _ => destruct c; reflexivity end.
    + reflexivity.
Qed.
Print Assumptions shared_twice_refuted.

(** One thread that holds two endpoints of the same session (fork_mpst_multi_solo) can wait for itself. *)
Theorem solo_refuted : exists G w, wf_session (G 0) /\
  forall unwind, exists st, interleaves 1 G (fun _ _ => 0) unwind w [] st /\ ~ everything_over 1 G st /\
    forall s p i w', i <> ICrash -> goes 1 G (fun _ _ => 0) unwind s p i w' st = None.
Proof.
  exists (fun _ => down), (fun _ => (0, 1)). split; [exact down_wf|]. intros unwind. eexists. split; [split; [|constructor]|split].
  - intros s p Hs Hp. cbn. lia.
  - intros X. destruct (X 0 ltac:(lia) 1 ltac:(cbn; lia)) as [[r E] _]. vm_compute in E. discriminate.
  - intros s p i w' Hi. unfold goes, yexec. destruct s as [|s]; [|reflexivity].
    destruct p as [|[|p]]; try reflexivity. destruct unwind, i; try reflexivity; congruence.
Qed.
Print Assumptions solo_refuted.

(** * There is always an order *)

Lemma executes_snoc : forall n labels strict P tr st p i st', executes n labels strict P tr st ->
  exec heap_ops n (branches P n) labels strict p i st = Some st' -> executes n labels strict P (tr ++ [(p, i)]) st'.
Proof.
  intros n labels strict P tr st p i st' H E. unfold executes in *.
  induction H; [econstructor; [exact E|constructor]|]. cbn. econstructor; [eassumption|]. apply IHsteps. exact E.
Qed.

(** A session alone can be run to its end. *)
Lemma complete_run : forall g size, wf_session g -> finite_protocol (g_roles g) (g_labels g) (g_prot g) size ->
  exists tr st, executes (g_roles g) (g_labels g) (g_strict g) (g_prot g) tr st /\ crash_free tr /\ all_over (g_roles g) st.
Proof.
  intros g size W FN.
  assert (H : forall b tr st, executes (g_roles g) (g_labels g) (g_strict g) (g_prot g) tr st -> crash_free tr ->
            longest (g_roles g) size (g_prot g) - length tr <= b ->
            exists tr st, executes (g_roles g) (g_labels g) (g_strict g) (g_prot g) tr st /\ crash_free tr /\ all_over (g_roles g) st).
  { induction b as [|b IH]; intros tr st Hx Hc Hb.
    - destruct (global_progress _ _ _ _ _ _ W Hx) as [Ho|(p & i & st' & Hp & Hi & E)]; [eauto|]. exfalso.
      assert (Hx' : executes (g_roles g) (g_labels g) (g_strict g) (g_prot g) (tr ++ [(p, i)]) st').
      { eapply executes_snoc; eauto. }
      pose proof (proj1 (finite_protocols_terminate _ _ _ _ _ _ _ W FN Hx')) as HL. rewrite app_length in HL. cbn [length] in HL. lia.
    - destruct (global_progress _ _ _ _ _ _ W Hx) as [Ho|(p & i & st' & Hp & Hi & E)]; [eauto|].
      apply (IH (tr ++ [(p, i)]) st').
      + eapply executes_snoc; eauto.
      + intros p0 i0 Hin. apply in_app_or in Hin as [Hin|[Hin|[]]]; [exact (Hc p0 i0 Hin)|]. injection Hin as <- <-. exact Hi.
      + rewrite app_length. cbn [length]. lia. }
  apply (H (longest (g_roles g) size (g_prot g)) [] (start (g_roles g) (proj (g_roles g) (first_round (g_prot g))))).
  - constructor.
  - intros p i [].
  - lia.
Qed.

Section Order.
  Variable k : nat.
  Variable G : nat -> gsession.
  Variable owner : nat -> nat -> nat.
  Variable unwind : bool.
  Notation D := (fun s => typed_by (G s)).
  Notation sexec s := (exec heap_ops (g_roles (G s)) (branches (g_prot (G s)) (g_roles (G s))) (g_labels (G s)) (g_strict (G s))).

  (** Steps of the sessions, without threads. *)
  Inductive raw : (nat -> @state heap ep) -> list (nat * (nat * inp)) -> (nat -> @state heap ep) -> Prop :=
  | raw_nil : forall Y, raw Y [] Y
  | raw_cons : forall Y s p i m tr Y2, s < k -> sexec s p i (Y s) = Some m ->
      raw (fun s' => if s' =? s then m else Y s') tr Y2 -> raw Y ((s, (p, i)) :: tr) Y2.
  Lemma raw_app : forall Y a Y1, raw Y a Y1 -> forall b Y2, raw Y1 b Y2 -> raw Y (a ++ b) Y2.
  Proof. intros Y a Y1 H. induction H; intros; [assumption|]. cbn. econstructor; eauto. Qed.
  Lemma raw_lift : forall s tr m m', s < k ->
    steps heap_ops (g_roles (G s)) (branches (g_prot (G s)) (g_roles (G s))) (g_labels (G s)) (g_strict (G s)) m tr m' ->
    forall Y, Y s = m -> exists Y', raw Y (map (pair s) tr) Y' /\ Y' s = m' /\ forall s', s' <> s -> Y' s' = Y s'.
  Proof.
    intros s tr m m' Hs H. induction H as [m|m p i m1 tr m2 Hx Hr IH]; intros Y E.
    - exists Y. split; [constructor|auto].
    - destruct (IH (fun s' => if s' =? s then m1 else Y s')) as (Y' & R & E1 & F).
      { rewrite Nat.eqb_refl. reflexivity. }
      exists Y'. split; [cbn; econstructor; [exact Hs|rewrite E; exact Hx|exact R]|]. split; [exact E1|].
      intros s' Hne. rewrite F by exact Hne. destruct (Nat.eqb_spec s' s); [contradiction|reflexivity].
  Qed.

  (** One session after the other. *)
  Lemma raw_all : forall size Y, (forall s, Y s = start (g_roles (G s)) (proj (g_roles (G s)) (first_round (g_prot (G s))))) ->
    (forall s, s < k -> wf_session (G s)) ->
    (forall s, s < k -> finite_protocol (g_roles (G s)) (g_labels (G s)) (g_prot (G s)) (size s)) ->
    forall j, j <= k -> exists tr Y', raw Y tr Y' /\ (forall s p i, In (s, (p, i)) tr -> i <> ICrash) /\
      (forall s, s < j -> all_over (g_roles (G s)) (Y' s)) /\ (forall s, j <= s -> Y' s = Y s).
  Proof.
    intros size Y E W FN. induction j as [|j IH]; intros Hj.
    - exists [], Y. split; [constructor|]. split; [intros s p i []|]. split; [lia|auto].
    - destruct (IH ltac:(lia)) as (tr & Y1 & R & Hc & Ho & Hk).
      destruct (complete_run (G j) (size j) (W j ltac:(lia)) (FN j ltac:(lia))) as (tr2 & st & Hx & Hcf & Hov).
      destruct (raw_lift j tr2 _ _ ltac:(lia) Hx Y1) as (Y2 & R2 & E2 & F2); [rewrite Hk, E by lia; reflexivity|].
      exists (tr ++ map (pair j) tr2), Y2. split; [eapply raw_app; eauto|]. split; [|split].
      + intros s p i Hin. apply in_app_or in Hin as [Hin|Hin]; [eapply Hc; eauto|].
        apply in_map_iff in Hin as (x & Ex & Hin). injection Ex as _ ->. exact (Hcf p i Hin).
      + intros s Hs. destruct (Nat.eq_dec s j) as [->|Hne]; [rewrite E2; exact Hov|]. rewrite F2 by exact Hne. apply Ho. lia.
      + intros s Hs. rewrite F2 by lia. apply Hk. lia.
  Qed.

  (** Where thread t is next. *)
  Fixpoint next_place (t : nat) (tr : list (nat * (nat * inp))) : nat * nat :=
    match tr with
    | [] => (0, 0)
    | (s, (p, i)) :: tr' => if owner s p =? t then (s, p) else next_place t tr'
    end.
  Fixpoint placed_trace (tr : list (nat * (nat * inp))) : list (nat * (nat * inp) * (nat * nat)) :=
    match tr with
    | [] => []
    | (s, (p, i)) :: tr' => (s, (p, i), next_place (owner s p) tr') :: placed_trace tr'
    end.

  Lemma raw_frame : forall Y tr Y', raw Y tr Y' -> forall s p, s < k -> 1 <= p <= g_roles (G s) ->
    (forall i, ~ In (s, (p, i)) tr) -> st_thr (Y' s) p = st_thr (Y s) p.
  Proof.
    intros Y tr Y' R. induction R as [Y|Y s0 p0 i m tr Y2 Hs0 E R IH]; intros s p Hs Hp Hno; [reflexivity|].
    rewrite (IH s p Hs Hp) by (intros i0 Hi0; apply (Hno i0); right; exact Hi0). cbv beta.
    destruct (Nat.eqb_spec s s0) as [->|]; [|reflexivity]. apply (sexec_frame D s0 p0 i _ _ p E).
    intros ->. apply (Hno i). left. reflexivity.
  Qed.
  (** A thread with an open role whose roles are all over in the end is next at an open role. *)
  Lemma next_open : forall Y tr Y', raw Y tr Y' -> (forall s, s < k -> all_over (g_roles (G s)) (Y' s)) ->
    forall f t, may_be_at k D owner (Sys Y f) t (next_place t tr) = true.
  Proof.
    intros Y tr Y' R Ho f t. apply may_be_iff. revert Ho.
    induction R as [Y|Y s0 p0 i m tr Y2 Hs0 E R IH]; intros Ho.
    - left. destruct (open_roles k D owner (Sys Y f) t) as [|[s p] l] eqn:El; [reflexivity|]. exfalso.
      assert (Hin : In (s, p) (open_roles k D owner (Sys Y f) t)) by (rewrite El; left; reflexivity).
      apply in_open in Hin as (Hs & Hp & _ & Hr). destruct (Ho s Hs p Hp) as [[r Er] Et].
      unfold returned, thr_of in Hr. cbn in Hr. rewrite Er, Et in Hr. discriminate.
    - cbn [next_place]. destruct (Nat.eqb_spec (owner s0 p0) t) as [Et|Hne].
      + right. apply in_open. split; [exact Hs0|]. split; [|split; [exact Et|]].
        * unfold exec in E. destruct ((1 <=? p0) && (p0 <=? g_roles (G s0))) eqn:Ep; [|discriminate].
          apply andb_prop in Ep as [Ea Eb]. apply Nat.leb_le in Ea, Eb. cbn. lia.
        * exact (moves_open D (Sys Y f) s0 p0 i m E).
      + assert (Eo : open_roles k D owner (Sys Y f) t = open_roles k D owner (Sys (fun s' => if s' =? s0 then m else Y s') f) t).
        { unfold open_roles. apply filter_ext_in. intros [s p] Hin. apply in_roles in Hin as (Hs & Hp & Hw). f_equal. f_equal.
          unfold thr_of. cbn. destruct (Nat.eqb_spec s s0) as [->|]; [|reflexivity]. symmetry. apply (sexec_frame D s0 p0 i _ _ p E). congruence. }
        rewrite Eo. apply IH. exact Ho.
  Qed.

  Lemma raw_yruns : (forall s, s < k -> wf_session (G s)) ->
    forall Y tr Y', raw Y tr Y' -> (forall s, s < k -> all_over (g_roles (G s)) (Y' s)) ->
    (forall s p i, In (s, (p, i)) tr -> i <> ICrash) ->
    (forall s, s < k -> exists past, executes (g_roles (G s)) (g_labels (G s)) (g_strict (G s)) (g_prot (G s)) past (Y s) /\ crash_free past) ->
    forall f, (forall t, f t = next_place t tr) ->
    exists st, yruns k D owner unwind (Sys Y f) (placed_trace tr) st /\ (forall s, s < k -> y_sess st s = Y' s).
  Proof.
    intros W Y tr Y' R. induction R as [Y|Y s0 p0 i m tr Y2 Hs0 E R IH]; intros Ho Hc Hpast f Hf.
    - exists (Sys Y f). split; [constructor|reflexivity].
    - cbn [placed_trace].
      set (Y1 := fun s' => if s' =? s0 then m else Y s') in *.
      set (f1 := fun t' => if t' =? owner s0 p0 then next_place (owner s0 p0) tr else f t').
      destruct (IH Ho) with (f := f1) as (st & Hr & Es).
      + intros s p i0 Hin. apply (Hc s p i0). right. exact Hin.
      + intros s Hs. unfold Y1. destruct (Nat.eqb_spec s s0) as [->|]; [|apply Hpast; exact Hs].
        destruct (Hpast s0 Hs) as (past & Hx & Hcf). exists (past ++ [(p0, i)]). split.
        * eapply executes_snoc; eauto.
        * intros p1 i1 Hin. apply in_app_or in Hin as [Hin|[Hin|[]]]; [exact (Hcf p1 i1 Hin)|]. injection Hin as <- <-.
          apply (Hc s0 p0 i). left. reflexivity.
      + intros t. unfold f1. destruct (Nat.eqb_spec t (owner s0 p0)) as [->|Hne]; [reflexivity|]. rewrite Hf. cbn [next_place].
        destruct (Nat.eqb_spec (owner s0 p0) t); [congruence|reflexivity].
      + exists st. split; [|exact Es]. econstructor; [|exact Hr]. unfold yexec. cbn [y_at y_sess].
        rewrite (proj2 (Nat.ltb_lt s0 k) Hs0), Hf. cbn [next_place]. rewrite Nat.eqb_refl, (proj2 (place_eqb_eq (s0, p0) (s0, p0)) eq_refl).
        assert (Hnf : failed k D owner (Sys Y f) (owner s0 p0) = false).
        { destruct (failed k D owner (Sys Y f) (owner s0 p0)) eqn:Ef; [|reflexivity]. exfalso.
          apply failed_has in Ef as (s & p & Hs & Hp & _ & X). destruct (Hpast s Hs) as (past & Hx & Hcf).
          pose proof (proj1 (no_crash_all_ok _ _ _ _ _ _ (W s Hs) Hx Hcf)) as HK. cbn in X.
          destruct X as [X|X]; apply HK in X; try exact Hp; discriminate. }
        rewrite Hnf, andb_false_r. cbn [negb andb orb typed_by s_roles s_branch s_labels s_strict]. rewrite E. fold Y1. fold f1.
        match goal with |- (if ?c then _ else _) = _ => assert (Hm : c = true) end; [|rewrite Hm; reflexivity].
        apply (next_open Y1 tr Y2 R Ho).
  Qed.

  (** Finite protocols, shared in any way between the threads, with cycles too: there is a start for each thread and a
      complete run in which all closes return Ok. A deadlock is only ever due to the order chosen by the programs. *)
  Theorem some_order_completes : forall size,
    (forall s, s < k -> wf_session (G s)) ->
    (forall s, s < k -> finite_protocol (g_roles (G s)) (g_labels (G s)) (g_prot (G s)) (size s)) ->
    exists w tr st, interleaves k G owner unwind w tr st /\ everything_over k G st /\
      forall s p, s < k -> 1 <= p <= g_roles (G s) -> result_of (y_sess st s) p = Some ROk.
  Proof.
    intros size W FN.
    set (Y := fun s => start (g_roles (G s)) (proj (g_roles (G s)) (first_round (g_prot (G s))))).
    destruct (raw_all size Y (fun s => eq_refl) W FN k (le_n k)) as (tr & Y' & R & Hc & Ho & _).
    assert (Hpast : forall s, s < k -> exists past, executes (g_roles (G s)) (g_labels (G s)) (g_strict (G s)) (g_prot (G s)) past (Y s) /\ crash_free past).
    { intros s _. exists []. split; [constructor|intros p i []]. }
    destruct (raw_yruns W Y tr Y' R Ho Hc Hpast (fun t => next_place t tr) (fun t => eq_refl)) as (st & Hr & Es).
    exists (fun t => next_place t tr), (placed_trace tr), st.
    assert (HI : interleaves k G owner unwind (fun t => next_place t tr) (placed_trace tr) st).
    { split; [|exact Hr]. intros s p Hs Hp.
      pose proof (next_open Y tr Y' R Ho (fun _ => (0, 0)) (owner s p)) as Hm. apply may_be_iff in Hm.
      assert (Hin : In (s, p) (open_roles k D owner (Sys Y (fun _ => (0, 0))) (owner s p))).
      { apply in_open. cbn. repeat split; auto; try lia. apply start_open. exact Hp. }
      destruct Hm as [Hm|Hm]; [rewrite Hm in Hin; contradiction|]. destruct (next_place (owner s p) tr) as [s1 p1].
      apply in_open in Hm as (A & B & C & _). cbn in *. auto. }
    split; [exact HI|]. assert (Hov : everything_over k G st) by (intros s Hs; rewrite Es by exact Hs; apply Ho; exact Hs).
    split; [exact Hov|]. intros s p Hs Hp.
    assert (Hcf : crash_free (steps_in s (placed_trace tr))).
    { intros p0 i0 Hin. unfold steps_in in Hin. apply in_flat_map in Hin as ([[s1 [p1 i1]] w1] & Hin1 & Hin2). cbn in Hin2.
      destruct (s1 =? s); [|contradiction]. destruct Hin2 as [Hin2|[]]. injection Hin2 as -> ->.
      assert (HX : forall l, In (s1, (p0, i0), w1) (placed_trace l) -> In (s1, (p0, i0)) l).
      { clear. induction l as [|[s [p i]] l IH]; cbn; [tauto|]. intros [H|H]; [injection H as -> -> -> _; auto|auto]. }
      exact (Hc s1 p0 i0 (HX tr Hin1)). }
    destruct (Hov s Hs p Hp) as [[r Er] _].
    assert (Er' : result_of (y_sess st s) p = Some r) by (unfold result_of; rewrite Er; reflexivity).
    pose proof (proj1 (no_crash_all_ok _ _ _ _ _ _ (W s Hs) (interleaved_each _ _ _ _ _ _ _ HI s) Hcf) p r Hp Er') as ->. exact Er'.
  Qed.
End Order.
Print Assumptions some_order_completes.

(** * Examples *)

(** Running a schedule. *)
Fixpoint yrun (k : nat) (D : nat -> session) (owner : nat -> nat -> nat) (unwind : bool) (st : sys)
         (tr : list (nat * (nat * inp) * (nat * nat))) : option sys :=
  match tr with
  | [] => Some st
  | (s, (p, i), w) :: tr' => match yexec k D owner unwind s p i w st with Some st1 => yrun k D owner unwind st1 tr' | None => None end
  end.
Lemma yrun_yruns : forall k D owner unwind tr st st', yrun k D owner unwind st tr = Some st' -> yruns k D owner unwind st tr st'.
Proof.
  induction tr as [|[[s [p i]] w] tr IH]; intros st st' H; cbn in H; [injection H as <-; constructor|].
  destruct (yexec k D owner unwind s p i w st) as [st1|] eqn:E; [|discriminate]. econstructor; [exact E|]. apply IH. exact H.
Qed.
Definition youtcome {A} k G owner unwind raw_tr (f : sys -> A) : option A :=
  option_map f (yrun k (fun s => typed_by (G s)) owner unwind (ystart (fun s => typed_by (G s)) (fun t => next_place owner t raw_tr))
                     (placed_trace owner raw_tr)).
Lemma youtcome_runs : forall A k G owner unwind raw_tr (f : sys -> A) a, youtcome k G owner unwind raw_tr f = Some a ->
  starts_at k G owner (fun t => next_place owner t raw_tr) ->
  exists st, interleaves k G owner unwind (fun t => next_place owner t raw_tr) (placed_trace owner raw_tr) st /\ f st = a.
Proof.
  intros A k G owner unwind raw_tr f a H HS. unfold youtcome in H.
  destruct (yrun k _ owner unwind _ (placed_trace owner raw_tr)) as [st|] eqn:E; [|discriminate]. injection H as <-.
  exists st. split; [split; [exact HS|apply yrun_yruns; exact E]|reflexivity].
Qed.

(** Role 1 of the three-role protocol [once] and role 1 of [down] are one thread, made by fork_interleaved_mpst. *)
Definition two : nat -> gsession := fun s => match s with 0 => GSess 3 ask_labels true once | _ => down end.
Definition two_owner : nat -> nat -> nat := il_owner 3 2 1 1.
Example two_threads : map (two_owner 0) [1; 2; 3] = [0; 1; 2] /\ map (two_owner 1) [1; 2] = [0; 3].
Proof. split; reflexivity. Qed.
Example two_forest : forest 2 two two_owner /\ forall s, s < 2 -> wf_session (two s).
Proof.
  split; [apply fork_interleaved_forest; cbn; lia|]. intros [|s] _; [exact once_wf|exact down_wf].
Qed.
Lemma two_starts : forall w, w 0 = (0, 1) \/ w 0 = (1, 1) -> w 1 = (0, 2) -> w 2 = (0, 3) -> w 3 = (1, 2) -> starts_at 2 two two_owner w.
Proof.
  intros w H0 H1 H2 H3 s p Hs Hp. destruct s as [|[|s]]; [| |lia].
  - assert (p = 1 \/ p = 2 \/ p = 3) as [-> | [-> | ->]] by (cbn in Hp; lia).
    + change (two_owner 0 1) with 0. destruct H0 as [-> | ->]; cbn; repeat split; lia.
    + change (two_owner 0 2) with 1. rewrite H1. cbn. repeat split; lia.
    + change (two_owner 0 3) with 2. rewrite H2. cbn. repeat split; lia.
  - assert (p = 1 \/ p = 2) as [-> | ->] by (cbn in Hp; lia).
    + change (two_owner 1 1) with 0. destruct H0 as [-> | ->]; cbn; repeat split; lia.
    + change (two_owner 1 2) with 3. rewrite H3. cbn. repeat split; lia.
Qed.

(** The interleaved thread learns the choice of the first session, receives in the second, sends in the first, starts the
    close of the second, closes the first and finishes the close of the second: all five closes return Ok. *)
Definition two_schedule : list (nat * (nat * inp)) :=
  map (pair 0) ([(3, ILabel 0)] ++ tau 3 7 ++ tau 1 5) ++ map (pair 1) [(2, IVal 5); (1, ITau)] ++
  map (pair 0) ([(1, IVal 42)] ++ tau 2 6 ++ [(2, IVal 43)] ++ tau 3 1) ++ map (pair 1) (tau 1 2) ++
  map (pair 0) (tau 1 3 ++ tau 2 3 ++ tau 3 10 ++ tau 1 7 ++ tau 2 7) ++ map (pair 1) (tau 2 6 ++ tau 1 4).
Definition results (st : sys) : list (option result) :=
  map (result_of (y_sess st 0)) [1; 2; 3] ++ map (result_of (y_sess st 1)) [1; 2].
Example two_runs : exists st, interleaves 2 two two_owner true (fun t => next_place two_owner t two_schedule) (placed_trace two_owner two_schedule) st /\
  (results st, existsb (fun '(s, (p, i), w) => negb (place_eqb w (s, p))) (placed_trace two_owner two_schedule)) = (repeat (Some ROk) 5, true).
Proof.
  apply youtcome_runs; [vm_compute; reflexivity|]. apply two_starts; vm_compute; auto.
Qed.

(** Role 2 of the first session crashes while the interleaved thread has not received in the second: the interleaved
    thread meets an error when it sends to role 2, stops everything, and its peer in the second session gets
    an error when it closes. *)
Definition two_crash : list (nat * (nat * inp)) :=
  map (pair 0) ([(3, ILabel 0)] ++ tau 3 7 ++ tau 1 5 ++ [(2, ICrash)] ++ tau 2 7 ++ [(1, IVal 42)] ++ tau 1 6) ++
  map (pair 1) ([(2, IVal 5)] ++ [(1, ICrash)] ++ tau 1 3 ++ tau 2 4) ++ map (pair 0) (tau 3 3).
Example two_fails : exists st, interleaves 2 two two_owner true (fun t => next_place two_owner t two_crash) (placed_trace two_owner two_crash) st /\
  results st = [Some RErr; Some RCrash; Some RErr; Some RCrash; Some RErr].
Proof.
  apply youtcome_runs; [vm_compute; reflexivity|]. apply two_starts; vm_compute; auto.
Qed.

(** A thread that handles the error can still finish the other session: [failure_spreads] needs threads that stop. *)
Definition two_handled : list (nat * (nat * inp)) :=
  map (pair 0) ([(3, ILabel 0)] ++ tau 3 7 ++ tau 1 5 ++ [(2, ICrash)] ++ tau 2 7 ++ [(1, IVal 42)] ++ tau 1 6) ++
  map (pair 1) ([(2, IVal 5)] ++ tau 1 3 ++ tau 2 6 ++ tau 1 4) ++ map (pair 0) (tau 3 3).
Theorem failure_contained_refuted : exists k G owner w tr st, (forall s, s < k -> wf_session (G s)) /\ forest k G owner /\
  interleaves k G owner false w tr st /\ has_failed k G owner st 0 /\ owner 1 1 = 0 /\ 1 < k /\
  forall p, 1 <= p <= g_roles (G 1) -> result_of (y_sess st 1) p = Some ROk.
Proof.
  assert (E : exists st, interleaves 2 two two_owner false (fun t => next_place two_owner t two_handled) (placed_trace two_owner two_handled) st /\
            results st = [Some RErr; Some RCrash; Some RErr; Some ROk; Some ROk]).
  { apply youtcome_runs; [vm_compute; reflexivity|]. apply two_starts; vm_compute; auto. }
  destruct E as (st & H & E). unfold results in E. cbn [map app] in E. injection E as E1 E2 E3 E4 E5.
  exists 2, two, two_owner. eexists. eexists. exists st. split; [apply two_forest|]. split; [apply two_forest|]. split; [exact H|].
  split; [exists 0, 1; cbn; repeat split; auto; lia|]. split; [reflexivity|]. split; [lia|].
  intros p Hp. cbn in Hp. assert (p = 1 \/ p = 2) as [-> | ->] by lia; assumption.
Qed.
Print Assumptions failure_contained_refuted.
