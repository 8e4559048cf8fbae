(** C54: no role is left behind. Roles that follow the projections of one global protocol, on the concrete
    machine of Session.v and Mesh.v. *)
From Coq Require Import List Arith Bool Lia.
From Verif Require Import Types Diag Wiring Session Mesh MeshSpec Links MeshInv MeshStep MeshSafe MeshReach Refine Sim Global MeshGlobal
  MeshProgress MeshBound MeshClean MeshFair Properties_Mesh Properties_Global FairSpec MeshLive FairTurns MeshChase.
Import ListNotations.

(** * Nobody is left behind for good *)

(** For any number of roles, any well-formed global protocol (finite or recursive), with [send] or with
    [send_canceled], after any schedule, values, branches and crashes: whichever role has not returned,
    the other roles alone can bring it to a point where it can go on, without any further crash and
    whatever branches they take from then on. *)
Theorem nobody_left_behind : forall n labels strict P tr st p pick,
  wf_protocol n labels P -> executes n labels strict P tr st -> 1 <= p <= n -> result_of st p = None ->
  (forall b, 0 < labels b -> pick b < labels b) ->
  exists st', others_go n labels strict P pick p st st' /\ enabled n labels strict P p st'.
Proof. intros n labels strict P tr st p pick W H Hp Hr Hpick. eapply lock_free_links; eauto. Qed.
Print Assumptions nobody_left_behind.

(** * No starvation *)

(** In every fair execution in which the drops that are begun come to an end (crashes are allowed), every
    role that has not returned, or not dropped all it owned, is run again. *)
Theorem no_starvation : forall n labels strict P x,
  wf_protocol n labels P -> valid n labels strict P x -> fair n labels strict P x -> drops_end n x ->
  forall p t, 1 <= p <= n -> ~ over p (at_time x t) -> exists t', t <= t' /\ steps_at x p t'.
Proof.
  intros n labels strict P x W V F D. apply (no_starvation_links n labels strict P W (fun _ => 0)); auto.
Qed.
Print Assumptions no_starvation.

(** If nobody crashes, fairness is enough. *)
Theorem no_starvation_without_crashes : forall n labels strict P x,
  wf_protocol n labels P -> valid n labels strict P x -> fair n labels strict P x -> no_crash x ->
  forall p t, 1 <= p <= n -> ~ over p (at_time x t) -> exists t', t <= t' /\ steps_at x p t'.
Proof.
  intros n labels strict P x W V F NC. apply no_starvation with (labels := labels) (strict := strict) (P := P); auto.
  apply (drops_end_links n labels strict P W x V F NC).
Qed.
Print Assumptions no_starvation_without_crashes.

(** * Finite protocols *)

Lemma over_dec : forall n (st : @state heap ep), all_over n st \/ ~ all_over n st.
Proof.
  intros n st. assert (H : forall m, (forall p, 1 <= p <= m -> (exists r, t_prog (st_thr st p) = PFin r) /\ t_trash (st_thr st p) = []) \/
    ~ (forall p, 1 <= p <= m -> (exists r, t_prog (st_thr st p) = PFin r) /\ t_trash (st_thr st p) = [])).
  { induction m as [|m [IH|IH]]; [left; intros; lia| |right; intros H; apply IH; intros p Hp; apply H; lia].
    destruct (t_prog (st_thr st (S m))) as [| | |r|] eqn:E; try (right; intros H; destruct (H (S m) ltac:(lia)) as [[r0 Hr] _]; congruence).
    destruct (t_trash (st_thr st (S m))) as [|y ys] eqn:Et; [|right; intros H; destruct (H (S m) ltac:(lia)) as [_ Hr]; congruence].
    left. intros p Hp. destruct (Nat.eq_dec p (S m)) as [->|]; [eauto|apply IH; lia]. }
  apply H.
Qed.

(** In every fair execution of a finite protocol, whoever crashes, every role returns and drops all it owned. *)
Theorem fair_finite_all_return : forall n labels strict P size x,
  wf_protocol n labels P -> finite_protocol n labels P size -> valid n labels strict P x -> fair n labels strict P x ->
  exists t, all_over n (at_time x t).
Proof.
  intros n labels strict P size x W FN V F.
  assert (H : forall k t, longest n size P - length (steps_before x t) <= k -> exists t', all_over n (at_time x t')).
  { induction k as [k IH] using lt_wf_ind. intros t Hk.
    destruct (over_dec n (at_time x t)) as [H|H]; [exists t; exact H|].
    pose proof (prefix_executes n labels strict P x V t) as E.
    destruct (global_progress n labels strict P _ _ W E) as [H'|(q & i & st' & Hq & Hi & En)]; [contradiction|].
    destruct (F q t Hq) as (t1 & Ht1 & Hd).
    (* somebody is run between t and t1 *)
    assert (Hrun : exists u, t <= u /\ doing x u <> None).
    { assert (Hno : forall d, (exists u, t <= u < t + d /\ doing x u <> None) \/ at_time x (t + d) = at_time x t).
      { induction d as [|d [(u & Hu & Hx)|Hs]]; [right; rewrite Nat.add_0_r; reflexivity|left; exists u; split; [lia|exact Hx]|].
        destruct V as [_ V1]. specialize (V1 (t + d)). rewrite Nat.add_succ_r. destruct (doing x (t + d)) as [[y j]|] eqn:Ed.
        - left. exists (t + d). split; [lia|congruence].
        - right. rewrite V1. exact Hs. }
      destruct (Hno (t1 - t)) as [(u & Hu & Hx)|Hs]; [exists u; split; [lia|exact Hx]|].
      replace (t + (t1 - t)) with t1 in Hs by lia. destruct Hd as [[j Hj]|Hne]; [exists t1; split; [lia|congruence]|].
      exfalso. apply Hne. rewrite Hs. exists i, st'. auto. }
    destruct Hrun as (u & Hu & Hx).
    assert (Hlen : length (steps_before x t) < length (steps_before x (S u))).
    { assert (Hm : forall a b, a <= b -> length (steps_before x a) <= length (steps_before x b)).
      { intros a b Hab. unfold steps_before. replace b with (a + (b - a)) by lia. rewrite seq_app, flat_map_app, app_length. lia. }
      specialize (Hm t u Hu). unfold steps_before at 2. rewrite seq_S, flat_map_app, app_length. fold (steps_before x u). cbn [flat_map Nat.add].
      destruct (doing x u); [cbn [length app]; lia|congruence]. }
    pose proof (finite_protocols_terminate n labels strict P size _ _ W FN (prefix_executes n labels strict P x V (S u))) as [Hb _].
    apply (IH (longest n size P - length (steps_before x (S u))) ltac:(lia) (S u)). lia. }
  exact (H _ 0 (le_n _)).
Qed.
Print Assumptions fair_finite_all_return.

(** * Fair executions exist *)

(** Whatever branches are to be taken, whoever is to crash, and in whatever order the roles are given their
    turns, as long as everyone's turn comes again: the result is a fair execution. *)
Theorem turns_fair : forall n labels strict P pick order,
  wf_protocol n labels P -> (forall b, 0 < labels b -> pick b < labels b) ->
  (forall p t, 1 <= p <= n -> exists t', t <= t' /\ order t' = (p, false)) ->
  let x := turns n labels strict P pick order in
  valid n labels strict P x /\ fair n labels strict P x /\
  ((forall t, snd (order t) = false) -> no_crash x /\ forall t p i, doing x t = Some (p, i) -> obeys pick p i (at_time x t)).
Proof.
  intros n labels strict P pick order W Hpick Hord x.
  assert (V : valid n labels strict P x).
  { split; [reflexivity|]. intros t. unfold x, turns. cbn [doing at_time turn]. cbv zeta.
    destruct (act (next n labels strict P) pick order t (turn (next n labels strict P) pick order (start n (proj n (first_round P))) t)) as [[i st']|] eqn:E; cbn [option_map fst]; [|reflexivity].
    unfold act in E. destruct (snd (order t)); [|apply attempt_next in E; apply E].
    destruct (next n labels strict P (fst (order t)) ICrash (turn (next n labels strict P) pick order (start n (proj n (first_round P))) t)) as [s1|] eqn:E1; [|discriminate].
    cbn [option_map] in E. injection E as <- <-. exact E1. }
  split; [exact V|]. split.
  - intros p t Hp. destruct (Hord p t Hp) as (t' & Ht & Eo). exists t'. split; [exact Ht|].
    destruct (attempt (next n labels strict P) pick p (at_time x t')) as [[i st']|] eqn:E.
    + left. exists i. unfold x, turns. cbn [doing]. unfold act. rewrite Eo. cbn [fst snd]. unfold x, turns in E. cbn [at_time] in E. rewrite E. reflexivity.
    + right. intros Hen. pose proof (prefix_executes n labels strict P x V t') as HE.
      destruct (reached n labels strict P W _ _ HE) as (hist & sl & e & O & F).
      apply (attempt_complete n labels strict P pick e (at_time x t') sl p Hpick (proj1 O) F Hen). exact E.
  - intros Hcalm.
    assert (Ho : forall t p i, doing x t = Some (p, i) -> obeys pick p i (at_time x t)).
    { intros t p i H. unfold x, turns in *. cbn [doing at_time] in *. unfold act in H. rewrite Hcalm in H.
      destruct (attempt (next n labels strict P) pick (fst (order t)) (turn (next n labels strict P) pick order (start n (proj n (first_round P))) t)) as [[j st']|] eqn:E; [|discriminate].
      cbn [option_map fst] in H. injection H as <- <-. apply attempt_next in E. apply E. }
    split; [|exact Ho]. intros t p i H. apply (Ho t p i H).
Qed.
Print Assumptions turns_fair.

(** Everybody in turn; role q crashes at time c, if at all. *)
Definition cyclic (n : nat) (crash : option (nat * nat)) (t : nat) : nat * bool :=
  match crash with Some (q, c) => if t =? c then (q, true) else (t mod n + 1, false) | None => (t mod n + 1, false) end.
Lemma cyclic_all : forall n crash p t, 1 <= p <= n -> exists t', t <= t' /\ cyclic n crash t' = (p, false).
Proof.
  intros n crash p t Hp.
  assert (H : forall k, (k * n + (p - 1)) mod n + 1 = p).
  { intros k. rewrite (Nat.add_comm (k * n)), Nat.mod_add, Nat.mod_small by lia. lia. }
  set (c := match crash with Some (_, c) => c | None => 0 end).
  exists ((t + c + 1) * n + (p - 1)). split; [nia|]. unfold cyclic. destruct crash as [[q c']|]; rewrite H; [|reflexivity].
  cbn in c. destruct (Nat.eqb_spec ((t + c + 1) * n + (p - 1)) c') as [E|]; [|reflexivity].
  exfalso. unfold c in E. nia.
Qed.

(** ** Examples *)

(** At the start of the recursive protocol of Properties_Global.v role 1 cannot do anything but crash; after
    role 3 has taken any branch it can. *)
Example asking_waits : let st := start 3 (proj 3 (first_round asking)) in
  executes 3 ask_labels false asking [] st /\ result_of st 1 = None /\ ~ enabled 3 ask_labels false asking 1 st.
Proof.
  cbv zeta. split; [constructor|]. split; [reflexivity|]. intros (i & st' & Hi & E).
  destruct i as [|v|l|]; [| | |congruence]; vm_compute in E; discriminate.
Qed.
Example asking_goes_on : exists st', others_go 3 ask_labels false asking (fun _ => 1) 1 (start 3 (proj 3 (first_round asking))) st' /\
  enabled 3 ask_labels false asking 1 st'.
Proof.
  destruct asking_waits as (H1 & H2 & _).
  apply (nobody_left_behind 3 ask_labels false asking [] _ 1 (fun _ => 1) asking_wf H1 ltac:(lia) H2).
  intros b _. unfold ask_labels. lia.
Qed.

(** Role 3 always chooses "add": a fair execution that never ends, in which role 2 has received five numbers
    after 150 turns. *)
Definition adding : execution := turns 3 ask_labels false asking (fun _ => 0) (cyclic 3 None).
Example adding_fair : valid 3 ask_labels false asking adding /\ fair 3 ask_labels false asking adding /\ no_crash adding.
Proof.
  destruct (turns_fair 3 ask_labels false asking (fun _ => 0) (cyclic 3 None) asking_wf (fun b H => H) (cyclic_all 3 None)) as (H1 & H2 & H3).
  split; [exact H1|]. split; [exact H2|]. apply H3. reflexivity.
Qed.
Example adding_runs : let log := t_log (st_thr (at_time adding 150) 2) in
  (length (filter (fun e => match e with EvRecv _ 1 (VData 7 0) => true | _ => false end) log), result_of (at_time adding 150) 2) = (5, None).
Proof. vm_compute. reflexivity. Qed.

(** The finite protocol of Properties_Global.v, with a crash of role 2 at time 30: role 3, which waits for
    role 2, and role 1, which closes, get errors, and all drop what they own. *)
Definition crashing : execution := turns 3 ask_labels true once (fun _ => 0) (cyclic 3 (Some (2, 30))).
Example crashing_fair : valid 3 ask_labels true once crashing /\ fair 3 ask_labels true once crashing.
Proof.
  destruct (turns_fair 3 ask_labels true once (fun _ => 0) (cyclic 3 (Some (2, 30))) once_wf (fun b H => H) (cyclic_all 3 (Some (2, 30)))) as (H1 & H2 & _).
  auto.
Qed.
Example crashing_runs : (map (result_of (at_time crashing 120)) [1; 2; 3], idle ask_labels true once (at_time crashing 120)) =
  ([Some RErr; Some RCrash; Some RErr], true).
Proof. vm_compute. reflexivity. Qed.

Lemma over_stays : forall n labels strict P x, valid n labels strict P x -> forall t d, all_over n (at_time x t) -> at_time x (t + d) = at_time x t.
Proof.
  intros n labels strict P x [_ V1] t d H. induction d as [|d IH]; [rewrite Nat.add_0_r; reflexivity|].
  rewrite Nat.add_succ_r. specialize (V1 (t + d)). destruct (doing x (t + d)) as [[p i]|]; [|congruence].
  exfalso. rewrite IH in V1. unfold next, exec in V1. destruct ((1 <=? p) && (p <=? n)) eqn:Hb; [|discriminate].
  apply andb_true_iff in Hb. rewrite !Nat.leb_le in Hb. destruct (H p Hb) as [[r Er] Et]. unfold tstep in V1. rewrite Et, Er in V1. discriminate.
Qed.

(** The drops of a fair execution of a finite protocol end, so that [no_starvation] applies with crashes. *)
Lemma finite_drops_end : forall n labels strict P size x,
  wf_protocol n labels P -> finite_protocol n labels P size -> valid n labels strict P x -> fair n labels strict P x -> drops_end n x.
Proof.
  intros n labels strict P size x W FN V F p t Hp. destruct (fair_finite_all_return n labels strict P size x W FN V F) as [t0 H].
  exists (t0 + t). split; [lia|]. rewrite (over_stays n labels strict P x V t0 t H). apply (H p Hp).
Qed.
Example crashing_drops_end : drops_end 3 crashing.
Proof. destruct crashing_fair as [V F]. exact (finite_drops_end 3 ask_labels true once _ crashing once_wf once_finite V F). Qed.

(** * Crashes and endless drops *)

(** The hypothesis [drops_end] is needed. Role 1 chooses again and again; in every round role 3 has to send a
    number to role 2. Role 3 crashes at the start and drops its MeshedChannels: the end towards role 1 first.
    In it lies the message of role 1 with the MeshedChannels of the next round, in whose end towards role 1
    there is already the next message, and so on. As long as role 1 is faster, role 3 never gets to drop its
    end towards role 2, and role 2 waits for it for ever, though every thread is run fairly and role 3 crashed
    at once. *)
Example chase_wf : wf_protocol 3 one_label chase.
Proof.
  split; [lia|]. split; [split; [repeat constructor; cbn; lia|cbn; unfold one_label; lia]|].
  intros b l H. split; [repeat constructor; cbn; lia|cbn; unfold one_label; lia].
Qed.

Definition chasing : execution := turns 3 one_label false chase zero plan.

Theorem endless_drop_refuted : exists n labels strict P x p,
  wf_protocol n labels P /\ valid n labels strict P x /\ fair n labels strict P x /\
  (forall t q, doing x t = Some (q, ICrash) -> t = 0) /\ 1 <= p <= n /\
  result_of (at_time x 0) p = None /\ forall t, ~ steps_at x p t.
Proof.
  exists 3, one_label, false, chase, chasing, 2.
  assert (Hplan : forall p t, 1 <= p <= 3 -> exists t', t <= t' /\ plan t' = (p, false)).
  { intros p t Hp. assert (Hj : exists j, j < 10 /\ (match j with 8 => 3 | 9 => 2 | _ => 1 end) = p).
    { assert (p = 1 \/ p = 2 \/ p = 3) as [-> | [-> | ->]] by lia; [exists 0|exists 9|exists 8]; (split; [lia|reflexivity]). }
    destruct Hj as (j & Hj & <-). exists (S (10 * t) + j). split; [lia|]. apply plan_at. exact Hj. }
  assert (Hrole : forall t, 1 <= fst (plan t) <= 3).
  { intros [|u]; cbn [plan fst]; [lia|]. destruct (u mod 10) as [|[|[|[|[|[|[|[|[|[|j]]]]]]]]]]; lia. }
  destruct (turns_fair 3 one_label false chase zero plan chase_wf (fun b H => H) Hplan) as (V & F & _).
  split; [exact chase_wf|]. split; [exact V|]. split; [exact F|]. split; [|split; [lia|split; [reflexivity|]]].
  - intros [|u] q H; [reflexivity|]. exfalso. unfold chasing, turns in H. cbn [doing] in H. unfold act in H. cbn [plan snd] in H.
    match type of H with option_map _ ?a = _ => destruct a as [[i st']|] eqn:E; [|discriminate] end.
    cbn [option_map fst] in H. injection H as _ ->. apply attempt_next in E. destruct E as [_ [E _]]. congruence.
  - intros t [i Hi].
    assert (Hp : fst (plan t) = 2).
    { unfold chasing, turns in Hi. cbn [doing] in Hi.
      match type of Hi with option_map _ ?a = _ => destruct a as [[j st']|]; [|discriminate] end. cbn [option_map] in Hi. congruence. }
    pose proof (two_waits t Hp) as HN.
    apply (turn_acts 3 one_label false chase chase_wf zero plan Hrole t) in HN. unfold chasing in Hi. congruence.
Qed.
Print Assumptions endless_drop_refuted.
