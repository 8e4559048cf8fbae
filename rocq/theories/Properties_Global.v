(** C15, C16, C17: roles that follow the projections of one global protocol. The theorems are about the
    concrete machine of Session.v and Mesh.v: threads, one-place channels, drops, crashes. *)
From Coq Require Import List Arith Bool Lia.
From Verif Require Import Types Wiring WiringProofs Session Mesh MeshSpec Links MeshInv MeshStep MeshSafe MeshReach Refine Sim Global MeshGlobal
  MeshSignal MeshProgress MeshBound MeshClean Properties_Mesh.
Import ListNotations.

(** The enums of the choices of a protocol, and its executions. *)
Definition branches (P : protocol) (n b l : nat) : nat -> mty := proj n (body P b l).
Definition executes (n : nat) (labels : nat -> nat) (strict : bool) (P : protocol) (tr : list (nat * inp)) (st : @state heap ep) : Prop :=
  steps heap_ops n (branches P n) labels strict (start n (proj n (first_round P))) tr st.

(** Role p does i next. *)
Definition next (n : nat) (labels : nat -> nat) (strict : bool) (P : protocol) (p : nat) (i : inp) (st : @state heap ep) :=
  exec heap_ops n (branches P n) labels strict p i st.

(** Every thread has returned and dropped all it owned. *)
Definition all_over (n : nat) (st : @state heap ep) : Prop :=
  forall p, 1 <= p <= n -> (exists r, t_prog (st_thr st p) = PFin r) /\ t_trash (st_thr st p) = [].

(** ** Transfer from the specification store *)

Lemma map_fin : forall (f : handle -> ep) pr r, map_prog f pr = PFin r -> pr = PFin r.
Proof. intros f pr r H. destruct pr; try discriminate. cbn in H. congruence. Qed.

Lemma follows_exec : forall n labels strict P e sh sl p i,
  inv n (branch_g n P) labels (st_store sl) (st_thr sl) -> follows n e sh sl -> 1 <= p <= n ->
  tstep link_ops n (branch_g n P) labels strict p i (st_thr sl p) (st_store sl) <> None ->
  exists st', next n labels strict P p i sh = Some st'.
Proof.
  intros n labels strict P e sh sl p i I F Hp H.
  pose proof (exec_follows n (branch_g n P) labels strict p i e sh sl I F) as HE.
  unfold next. change (branches P n) with (branch_g n P).
  destruct (exec heap_ops n (branch_g n P) labels strict p i sh) as [st'|] eqn:E1; [eauto|].
  unfold exec at 1 in HE.
  assert (Hb : (1 <=? p) && (p <=? n) = true) by (apply andb_true_iff; rewrite !Nat.leb_le; lia). rewrite Hb in HE.
  destruct (tstep link_ops n (branch_g n P) labels strict p i (st_thr sl p) (st_store sl)) as [[th s1]|]; [contradiction|congruence].
Qed.

Lemma follows_over : forall n e sh sl, follows n e sh sl -> (forall p, 1 <= p <= n -> finished (st_thr sl p)) -> all_over n sh.
Proof.
  intros n e sh sl [_ F] H p Hp. destruct (H p Hp) as [[r E] Et]. rewrite (F p Hp). cbn. rewrite E, Et. split; [exists r|]; reflexivity.
Qed.

(** * C15 and the first half of C17 *)

(** For any number of roles, any well-formed global protocol (finite or recursive), with [send] or with
    [send_canceled], any schedule, any values and branches, and any roles crashing at any points: in
    every reachable state either every role has returned, or some role can do something other than
    crash. *)
Theorem global_progress : forall n labels strict P tr st,
  wf_protocol n labels P -> executes n labels strict P tr st ->
  all_over n st \/ exists p i st', 1 <= p <= n /\ i <> ICrash /\ next n labels strict P p i st = Some st'.
Proof.
  intros n labels strict P tr st W H. unfold executes, start in H. change (branches P n) with (branch_g n P) in H.
  destruct (steps_follow n (branch_g n P) labels strict (branch_g_dual n labels P) (T_g n P) tr st (T_g_dual n P) H)
    as (sl & Hs & _ & e & F).
  destruct (reach_inv n (branch_g n P) labels strict (branch_g_dual n labels P) (T_g n P) (T_g_dual n P)
              (fun _ hist L thr => ginv n labels P hist thr /\ sinv n L thr)) with (tr := tr) (st := sl)
    as (hist & I & R & _ & G & S); [| |exact Hs|].
  - split; [apply ginv_init; exact W|apply sinv_init; apply T_g_dual].
  - intros tr0 hist L thr p i th' L' Hp I R D [G S] C. split; [eapply ginv_step with (L := L) (strict := strict); eauto|].
    eapply sinv_step; eauto. apply branch_g_dual.
  - destruct (progress_links n labels strict P W hist _ _ I R G S) as [Hf|(p & Hp & i & Hi & Hc)].
    + left. eapply follows_over; eauto.
    + right. destruct (follows_exec n labels strict P e st sl p i I F Hp Hc) as [st' E]. exists p, i, st'. auto.
Qed.
Print Assumptions global_progress.

(** A recursive protocol of three roles: role 3 chooses between "add" (role 1 sends a number to role 2,
    and again) and "bye". Its projections are the types of Properties_Mesh.v. *)
Definition asking : protocol :=
  Protocol ([], GChoose 3 0) (fun b l => match l with 0 => ([Msg3 1 2 7], GChoose 3 0) | _ => ([], GEnd) end).
Example asking_wf : wf_protocol 3 ask_labels asking.
Proof.
  split; [lia|]. split; [split; [constructor|cbn; unfold ask_labels; lia]|].
  intros b [|l] H; (split; [|cbn; unfold ask_labels; try lia; exact I]); repeat constructor; cbn; lia.
Qed.
Example asking_types : forall p, 1 <= p <= 3 ->
  proj 3 (first_round asking) p = ask p /\ branches asking 3 0 0 p = add_then_ask p /\ branches asking 3 0 1 p = bye p.
Proof. intros p Hp. assert (p = 1 \/ p = 2 \/ p = 3) as [-> | [-> | ->]] by lia; auto. Qed.

(** Role 2 crashes after the first "add"; role 1 does not notice at once; role 3 waits for nobody. *)
Example asking_crash : exists st, executes 3 ask_labels false asking ask_schedule st /\
  result_of st 2 = Some RCrash /\ result_of st 1 = None /\ ~ all_over 3 st.
Proof.
  assert (E : exists st, executes 3 ask_labels false asking ask_schedule st /\
            (result_of st 2, result_of st 1) = (Some RCrash, None)).
  { apply outcome_steps. vm_compute. reflexivity. }
  destruct E as (st & H & E). injection E as E1 E2. exists st. split; [exact H|]. split; [exact E1|]. split; [exact E2|].
  intros HA. destruct (HA 1 ltac:(lia)) as [[r Hr] _]. unfold result_of in E2. rewrite Hr in E2. discriminate.
Qed.

(** * C17: termination *)

(** An explicit bound on the length of all executions of a finite protocol. *)
Definition longest (n : nat) (size : nat -> nat) (P : protocol) : nat :=
  let pairs := n * (n - 1) / 2 in 4 * pairs + (4 * pairs + 3) * (n * weight n size (first_round P)).

Lemma npairs_half : forall n, npairs n = n * (n - 1) / 2.
Proof. intros. unfold npairs. rewrite Nat.mul_comm. reflexivity. Qed.

(** Whoever crashes, whatever the schedule: every execution of a finite protocol has at most [longest]
    steps (so no execution is infinite), and one that cannot be continued has ended every thread. *)
Theorem finite_protocols_terminate : forall n labels strict P size tr st,
  wf_protocol n labels P -> finite_protocol n labels P size -> executes n labels strict P tr st ->
  length tr <= longest n size P /\
  ((forall p i, i <> ICrash -> next n labels strict P p i st = None) -> all_over n st).
Proof.
  intros n labels strict P size tr st W FN H. split.
  - unfold executes, start in H. change (branches P n) with (branch_g n P) in H.
    destruct (steps_follow n (branch_g n P) labels strict (branch_g_dual n labels P) (T_g n P) tr st (T_g_dual n P) H)
      as (sl & Hs & _ & e & F).
    pose proof (bounded_links n labels strict P W (fun _ => size) (fun _ => FN) tr sl Hs) as HB. unfold bound, factor in HB.
    rewrite npairs_half in HB. exact HB.
  - intros Hmax. destruct (global_progress n labels strict P tr st W H) as [HA|(p & i & st' & _ & Hi & E)]; [exact HA|].
    rewrite (Hmax p i Hi) in E. discriminate.
Qed.
Print Assumptions finite_protocols_terminate.

(** * C16 *)

Definition crash_free (tr : list (nat * inp)) : Prop := forall p i, In (p, i) tr -> i <> ICrash.

(** If nobody crashes, no operation of any role ever fails: whoever has returned has returned Ok. In a
    state where nothing more can happen, every role has returned Ok from close, and every role has
    received everything that was sent to it, in every round. *)
Theorem no_crash_all_ok : forall n labels strict P tr st,
  wf_protocol n labels P -> executes n labels strict P tr st -> crash_free tr ->
  (forall p r, 1 <= p <= n -> result_of st p = Some r -> r = ROk) /\
  ((forall p i, i <> ICrash -> next n labels strict P p i st = None) ->
   (forall p, 1 <= p <= n -> result_of st p = Some ROk) /\
   forall g p q, 1 <= p <= n -> 1 <= q <= n -> p <> q ->
     ins (evs g q (t_log (st_thr st p))) = outs (evs g p (t_log (st_thr st q)))).
Proof.
  intros n labels strict P tr st W H NC. pose proof H as H0.
  unfold executes, start in H. change (branches P n) with (branch_g n P) in H.
  destruct (steps_follow n (branch_g n P) labels strict (branch_g_dual n labels P) (T_g n P) tr st (T_g_dual n P) H)
    as (sl & Hs & _ & e & F).
  destruct (reach_inv n (branch_g n P) labels strict (branch_g_dual n labels P) (T_g n P) (T_g_dual n P)
              (fun t hist L thr => crash_free t -> ginv n labels P hist thr /\ sinv n L thr /\ cinv n L thr)) with (tr := tr) (st := sl)
    as (hist & I & R & D & HC); [| |exact Hs|].
  - intros _. split; [apply ginv_init; exact W|]. split; [apply sinv_init; apply T_g_dual|apply cinv_init].
  - intros tr0 hist L thr p i th' L' Hp I R D IH C Hcf.
    destruct IH as (G & S & CI); [intros p0 i0 Hin; apply (Hcf p0 i0); apply in_or_app; left; exact Hin|].
    split; [eapply ginv_step with (L := L) (strict := strict); eauto|].
    split; [eapply sinv_step; eauto; apply branch_g_dual|].
    eapply cinv_step with (hist := hist) (L := L) (i := i); eauto. apply (Hcf p i). apply in_or_app. right. left. reflexivity.
  - destruct (HC NC) as (G & S & CI).
    assert (Hres : forall p r, 1 <= p <= n -> result_of st p = Some r -> r = ROk).
    { intros p r Hp Hr. unfold result_of in Hr. destruct F as [_ F]. rewrite (F p Hp) in Hr. cbn in Hr.
      destruct (map_prog (beta e) (t_prog (st_thr sl p))) as [| | |r0|] eqn:E; try discriminate. injection Hr as ->.
      apply map_fin in E. eapply (c_ok _ _ _ CI p r Hp). exact E. }
    split; [exact Hres|]. intros Hmax.
    destruct (progress_links n labels strict P W hist _ _ I R G S) as [Hf|(p & Hp & i & Hi & Hc)].
    + pose proof (follows_over n e st sl F Hf) as HA. split.
      * intros p Hp. destruct (HA p Hp) as [[r Hr] _]. assert (E : result_of st p = Some r) by (unfold result_of; rewrite Hr; reflexivity).
        rewrite (Hres p r Hp E) in E. exact E.
      * intros g p q Hp Hq Hne. pose proof (all_received n labels P hist _ _ I R D CI Hf g p q Hp) as HR.
        destruct F as [_ F]. rewrite (F p Hp), (F q Hq). cbn [map_thread t_log]. symmetry. apply HR. split; [congruence|exact Hq].
    + destruct (follows_exec n labels strict P e st sl p i I F Hp Hc) as [st' E]. rewrite (Hmax p i Hi) in E. discriminate.
Qed.
Print Assumptions no_crash_all_ok.

(** A finite protocol of three roles: role 3 chooses; if "add", role 1 sends a number to role 2 and role 2
    answers role 3. *)
Definition once : protocol :=
  Protocol ([], GChoose 3 0) (fun b l => match l with 0 => ([Msg3 1 2 7; Msg3 2 3 8], GEnd) | _ => ([], GEnd) end).
Example once_wf : wf_protocol 3 ask_labels once.
Proof.
  split; [lia|]. split; [split; [constructor|cbn; unfold ask_labels; lia]|].
  intros b [|l] H; (split; [|exact I]); repeat constructor; cbn; lia.
Qed.
Example once_finite : finite_protocol 3 ask_labels once (fun _ => 8).
Proof. intros b [|l] H; cbn; lia. Qed.

(** A complete execution without crashes. *)
Definition once_schedule : list (nat * inp) :=
  [(3, ILabel 0)] ++ tau 3 7 ++ tau 1 5 ++ [(1, IVal 42)] ++ tau 2 6 ++ [(2, IVal 43)] ++ tau 3 1 ++
  tau 1 3 ++ tau 2 3 ++ tau 3 10 ++ tau 1 7 ++ tau 2 7.
Definition idle (labels : nat -> nat) (strict : bool) (P : protocol) (st : @state heap ep) : bool :=
  forallb (fun p => match result_of st p, t_trash (st_thr st p) with Some _, [] => true | _, _ => false end) [1; 2; 3].
Example once_runs : exists st, executes 3 ask_labels true once once_schedule st /\ crash_free once_schedule /\
  (logs3 st, idle ask_labels true once st) =
  ([EvRecv 0 3 (VLabel 0 0 1); EvSend 1 2 (VData 7 42); EvClose],
   [EvRecv 0 3 (VLabel 0 0 2); EvRecv 1 1 (VData 7 42); EvSend 1 3 (VData 8 43); EvClose],
   [EvSend 0 1 (VLabel 0 0 1); EvSend 0 2 (VLabel 0 0 2); EvRecv 1 2 (VData 8 43); EvClose], true).
Proof.
  assert (E : exists st, executes 3 ask_labels true once once_schedule st /\
    (logs3 st, idle ask_labels true once st) =
    ([EvRecv 0 3 (VLabel 0 0 1); EvSend 1 2 (VData 7 42); EvClose],
     [EvRecv 0 3 (VLabel 0 0 2); EvRecv 1 1 (VData 7 42); EvSend 1 3 (VData 8 43); EvClose],
     [EvSend 0 1 (VLabel 0 0 1); EvSend 0 2 (VLabel 0 0 2); EvRecv 1 2 (VData 8 43); EvClose], true)).
  { apply outcome_steps. vm_compute. reflexivity. }
  destruct E as (st & H & E). exists st. split; [exact H|]. split; [|exact E].
  intros p i Hin. unfold once_schedule, tau in Hin. cbn in Hin. repeat destruct Hin as [Hin|Hin]; try discriminate; try contradiction;
    injection Hin as _ <-; discriminate.
Qed.

(** Role 2 crashes instead of answering: role 3, which waits for it, gets an error, and so does role 1 when
    it closes. *)
Definition once_crash : list (nat * inp) :=
  [(3, ILabel 0)] ++ tau 3 7 ++ tau 1 5 ++ [(1, IVal 42)] ++ tau 2 6 ++ [(2, ICrash)] ++ tau 2 3 ++ tau 3 1 ++ tau 3 2.
Example once_crash_runs : exists st, executes 3 ask_labels true once once_crash st /\
  (result_of st 2, result_of st 3, result_of st 1) = (Some RCrash, Some RErr, None).
Proof. apply outcome_steps. vm_compute. reflexivity. Qed.
