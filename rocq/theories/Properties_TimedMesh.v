(** C43, C44: multiparty sessions whose roles send, receive and choose under time windows, and where a role
    can wait. The theorems are about the concrete machine of Session.v, Mesh.v and TimedMesh.v, for any
    windows and any readings of the system clock. *)
From Coq Require Import List Arith ZArith Bool Lia.
From Verif Require Import Types Wiring WiringProofs Session Mesh MeshSpec MeshReach Links MeshInv MeshStep MeshSafe Refine Sim Global
  MeshGlobal MeshSignal MeshProgress MeshWait Properties_Mesh Properties_Global Timed TimedProofs TimedMesh TimedMeshProofs.
Import ListNotations.
Open Scope nat_scope.

(** * C44: where a role can wait *)

(** Any schedule, any crashes. A role that has not ended can do something by itself, or is about to
    receive, or is in close and has sent all its signals. In particular no role ever waits in a send, in a
    choice it makes, or while it drops what it holds. *)
Theorem waits_only_in_receive_or_close : forall n labels strict P tr st p,
  wf_protocol n labels P -> executes n labels strict P tr st -> 1 <= p <= n ->
  ((exists r, t_prog (st_thr st p) = PFin r) /\ t_trash (st_thr st p) = []) \/
  (exists i st', i <> ICrash /\ next n labels strict P p i st = Some st') \/
  (exists x, 1 <= x <= n /\ receiving p (st_thr st p) x) \/ closing n (st_thr st p).
Proof.
  intros n labels strict P tr st p W H Hp. unfold executes, start in H. change (branches P n) with (branch_g n P) in H.
  destruct (steps_follow n (branch_g n P) labels strict (branch_g_dual n labels P) (T_g n P) tr st (T_g_dual n P) H)
    as (sl & Hs & _ & e & F).
  destruct (reach_inv n (branch_g n P) labels strict (branch_g_dual n labels P) (T_g n P) (T_g_dual n P)
              (fun _ hist L thr => ginv n labels P hist thr)) with (tr := tr) (st := sl)
    as (hist & I & R & _ & G); [| |exact Hs|].
  - apply ginv_init; exact W.
  - intros tr0 hist L thr q i th' L' Hq I R D G C. eapply ginv_step with (L := L) (strict := strict); eauto.
  - pose proof (proj2 F p Hp) as Ef.
    destruct (waits_links n labels strict P W hist _ _ p I R G Hp) as [[[r Er] Et]|[(i & Hi & Hc)|[(x & Hx & Hr)|Hc]]].
    + left. rewrite Ef. cbn. rewrite Er, Et. split; [exists r|]; reflexivity.
    + right. left. destruct (follows_exec n labels strict P e st sl p i I F Hp Hc) as [st' E]. eauto.
    + right. right. left. exists x. split; [exact Hx|].
      destruct Hr as (Et & ss & r & hs & q & k & Ep & Hx' & En & Hq). split; [rewrite Ef; cbn; rewrite Et; reflexivity|].
      exists ss, r, (map (beta e) hs), q, k. rewrite Ef. cbn. rewrite Ep. auto.
    + right. right. right. destruct Hc as (Et & a & r & hs & Ep & H1 & H2). split; [rewrite Ef; cbn; rewrite Et; reflexivity|].
      exists a, r, (map (beta e) hs). rewrite Ef. cbn. rewrite Ep. auto.
Qed.
Print Assumptions waits_only_in_receive_or_close.

(** At the start of [once] (role 3 chooses), roles 1 and 2 wait and role 3 does not. *)
Example once_waits : exists st, executes 3 ask_labels true once [] st /\
  receiving 1 (st_thr st 1) 3 /\ next 3 ask_labels true once 1 ITau st = None /\
  receiving 2 (st_thr st 2) 3 /\ next 3 ask_labels true once 3 (ILabel 0) st <> None.
Proof.
  eexists. split; [constructor|].
  assert (R : forall p, p = 1 \/ p = 2 -> receiving p (st_thr (start 3 (proj 3 (first_round once))) p) 3).
  { intros p [-> | ->]; (split; [reflexivity|]); eexists _, _, _, _, _; (split; [reflexivity|split; [lia|split; [reflexivity|split; reflexivity]]]). }
  split; [apply R; auto|]. split; [reflexivity|]. split; [apply R; auto|]. vm_compute. discriminate.
Qed.

(** * C43: timed sessions *)

(** The start of a session: types T, windows W, no clocks. *)
Definition tstart (n : nat) (T : nat -> mty) (W : nat -> list (list window)) : @tstate heap ep :=
  tinit heap_ops n T W empty_heap.
Definition texecutes (n : nat) (labels : nat -> nat) (P : protocol) (BW : nat -> nat -> nat -> list (list window))
    (now : nat -> nat -> Z) (W : nat -> list (list window)) (tr : list (nat * tinp)) (st : @tstate heap ep) : Prop :=
  tsteps heap_ops n (branches P n) BW labels now (tstart n (proj n (first_round P)) W) tr st.
Definition tnext (n : nat) (labels : nat -> nat) (P : protocol) (BW : nat -> nat -> nat -> list (list window))
    (now : nat -> nat -> Z) (p : nat) (i : tinp) (st : @tstate heap ep) : option tstate :=
  texec heap_ops n (branches P n) BW labels now p i st.

(** How role p has ended; what it has logged. *)
Definition tresult (st : @tstate heap ep) (p : nat) : option Mesh.result :=
  match t_prog (tm_thr (ts_thr st p)) with PFin r => Some r | _ => None end.
Definition tlog (st : @tstate heap ep) (p : nat) : list event := t_log (tm_thr (ts_thr st p)).
Definition tover (st : @tstate heap ep) (p : nat) : Prop :=
  (exists r, tresult st p = Some r) /\ t_trash (tm_thr (ts_thr st p)) = [].

Lemma agree_result : forall st su p, agree (erase st) su -> result_of su p = tresult st p.
Proof. intros st su p [_ Et]. unfold result_of, tresult. rewrite <- (Et p). reflexivity. Qed.
Lemma agree_over : forall n st su, agree (erase st) su -> all_over n su -> forall p, 1 <= p <= n -> tover st p.
Proof.
  intros n st su [_ Et] HA p Hp. destruct (HA p Hp) as [[r Er] E0]. rewrite <- (Et p) in *. cbn in *. split; [|exact E0].
  exists r. unfold tresult. rewrite Er. reflexivity.
Qed.

(** ** Safety: any pairwise dual types *)

(** Whatever the windows and the clocks, what the roles of a timed session do is what roles without time
    could have done: there is one list of choices that explains everything, and nobody meets a message of
    the wrong type. *)
Theorem timed_safe : forall n branch labels T BW now W tr st,
  (forall b l, l < labels b -> dual_mesh n (branch b l)) -> dual_mesh n T ->
  tsteps heap_ops n branch BW labels now (tstart n T W) tr st ->
  exists hist,
    faithful n branch labels T hist (tlog st) /\
    (forall p hs, 1 <= p <= n -> t_prog (tm_thr (ts_thr st p)) <> PStuck hs) /\
    (forall p, 1 <= p <= n -> tresult st p = Some ROk -> forall q, 1 <= q <= n -> In EvClose (tlog st q)).
Proof.
  intros n branch labels T BW now W tr st HB HT H.
  destruct (tsteps_erase heap_ops n branch BW labels now _ _ _ H (start n T) (erase_init _ _ _ _ _)) as (jr & su & Hj & A & _).
  destruct (multiparty_safe n branch labels true T jr su HB HT Hj) as (hist & F & _ & Hstuck & _).
  pose proof (close_ok_means_all_called_close n branch labels true T jr su HB HT Hj) as Hcl.
  assert (El : forall p, t_log (st_thr su p) = tlog st p) by (intros p; rewrite <- (proj2 A p); reflexivity).
  exists hist. split; [|split].
  - destruct F as [F1 F2 F3 F4]. split.
    + intros g p q. rewrite <- !El. apply F1.
    + intros g p q. rewrite <- El. apply F2.
    + intros g p x b l j Hp. rewrite <- El. apply F3, Hp.
    + intros g p x b l j Hp. rewrite <- El. apply F4, Hp.
  - intros p hs Hp. specialize (Hstuck p hs Hp). rewrite <- (proj2 A p) in Hstuck. exact Hstuck.
  - intros p Hp Hr q Hq. rewrite <- (agree_result _ _ p A) in Hr. rewrite <- El. exact (Hcl p Hp Hr q Hq).
Qed.
Print Assumptions timed_safe.

(** ** Progress *)

(** Roles that follow a global protocol, any windows, any readings, whoever crashes, gives up or misses
    its window: in every reachable state every role has ended, or some role can do something other than
    crash or give up. *)
Theorem timed_progress : forall n labels P BW now W tr st,
  wf_protocol n labels P -> texecutes n labels P BW now W tr st ->
  (forall p, 1 <= p <= n -> tover st p) \/
  exists p i st', 1 <= p <= n /\ i <> ICrash /\ tnext n labels P BW now p (TIn i) st = Some st'.
Proof.
  intros n labels P BW now W tr st Wf H.
  destruct (tsteps_erase heap_ops n _ BW labels now _ _ _ H (start n (proj n (first_round P))) (erase_init _ _ _ _ _))
    as (jr & su & Hj & A & _).
  destruct (global_progress n labels true P jr su Wf Hj) as [HA|(p & j & su' & Hp & Hjc & En)].
  - left. exact (agree_over n st su A HA).
  - right. destruct (texec_enabled heap_ops n _ BW labels now p j st su su' A Hjc En) as (i & st' & Hi & E). exists p, i, st'. auto.
Qed.
Print Assumptions timed_progress.

(** Finite protocols: the number of steps (other than starting clocks) has the bound of C17. *)
Theorem timed_bounded : forall n labels P size BW now W tr st,
  wf_protocol n labels P -> finite_protocol n labels P size -> texecutes n labels P BW now W tr st ->
  length (filter (fun x => match snd x with TClock _ => false | _ => true end) tr) <= longest n size P.
Proof.
  intros n labels P size BW now W tr st Wf Fin H.
  destruct (tsteps_erase heap_ops n _ BW labels now _ _ _ H (start n (proj n (first_round P))) (erase_init _ _ _ _ _))
    as (jr & su & Hj & A & E).
  pose proof (proj1 (finite_protocols_terminate n labels true P size jr su Wf Fin Hj)) as B.
  apply (f_equal (@length _)) in E. rewrite !map_length in E. rewrite E in B.
  unfold moves in B. erewrite filter_ext; [exact B|]. intros [p i]. destruct i; reflexivity.
Qed.
Print Assumptions timed_bounded.

(** A role whose next operation has an upper bound never waits for another role: it can receive or give
    up. So a role that has not ended can move by itself, except in a receive without upper bound and in
    close, which has no window. *)
Theorem deadline_frees : forall n labels P BW now W tr st p,
  wf_protocol n labels P -> texecutes n labels P BW now W tr st -> 1 <= p <= n ->
  tover st p \/
  (exists i st', i <> TIn ICrash /\ tnext n labels P BW now p i st = Some st') \/
  (exists x, 1 <= x <= n /\ receiving p (tm_thr (ts_thr st p)) x /\
     (w_end (head_window (comm_field p x - 1) (tm_wins (ts_thr st p))) < 0)%Z) \/
  closing n (tm_thr (ts_thr st p)).
Proof.
  intros n labels P BW now W tr st p Wf H Hp.
  destruct (tsteps_erase heap_ops n _ BW labels now _ _ _ H (start n (proj n (first_round P))) (erase_init _ _ _ _ _))
    as (jr & su & Hj & A & _).
  destruct (waits_only_in_receive_or_close n labels true P jr su p Wf Hj Hp) as [[[r Er] Et]|[(j & su' & Hjc & En)|[(x & Hx & Hr)|Hc]]].
  - left. rewrite <- (proj2 A p) in Er, Et. split; [exists r; unfold tresult; cbn in Er; rewrite Er; reflexivity|exact Et].
  - right. left. destruct (texec_enabled heap_ops n _ BW labels now p j st su su' A Hjc En) as (i & st' & Hi & E).
    exists (TIn i), st'. split; [congruence|exact E].
  - rewrite <- (proj2 A p) in Hr. cbn in Hr. right.
    destruct (Z_lt_le_dec (w_end (head_window (comm_field p x - 1) (tm_wins (ts_thr st p)))) 0) as [Hn|Hn].
    + right. left. exists x. auto.
    + left. assert (Hb : (1 <=? p) && (p <=? n) = true) by (apply andb_true_iff; rewrite !Nat.leb_le; lia).
      unfold tnext, texec. rewrite Hb.
      destruct (receiving_moves heap_ops n (branches P n) BW labels now p x (ts_thr st p) (ts_store st) Hr Hx Hn) as [M|M].
      * exists (TIn ITau). destruct (ttstep _ _ _ _ _ _ p (TIn ITau) _ _) as [[tt s]|]; [|contradiction]. eexists. split; [discriminate|reflexivity].
      * exists TTimeout. destruct (ttstep _ _ _ _ _ _ p TTimeout _ _) as [[tt s]|]; [|contradiction]. eexists. split; [discriminate|reflexivity].
  - right. right. right. rewrite <- (proj2 A p) in Hc. exact Hc.
Qed.
Print Assumptions deadline_frees.

(** ** On time *)

(** If nobody crashes or gives up and every role is inside its window whenever it moves, then no operation
    fails: whoever has ended has returned Ok, and in a state where nothing more can happen every role has
    returned Ok and received everything that was sent to it. *)
Theorem on_time_all_ok : forall n labels P BW now W tr st,
  wf_protocol n labels P ->
  punctual heap_ops n (branches P n) BW labels now (tstart n (proj n (first_round P)) W) tr st ->
  (forall p r, 1 <= p <= n -> tresult st p = Some r -> r = ROk) /\
  ((forall p i, i <> ICrash -> tnext n labels P BW now p (TIn i) st = None) ->
   (forall p, 1 <= p <= n -> tresult st p = Some ROk) /\
   forall g p q, 1 <= p <= n -> 1 <= q <= n -> p <> q ->
     ins (evs g q (tlog st p)) = outs (evs g p (tlog st q))).
Proof.
  intros n labels P BW now W tr st Wf H.
  destruct (punctual_erase heap_ops n _ BW labels now _ _ _ H (start n (proj n (first_round P))) (erase_init _ _ _ _ _) (init_calm _ _ _ _ _))
    as (jr & su & Hj & A & NC & _).
  destruct (no_crash_all_ok n labels true P jr su Wf Hj NC) as [K1 K2]. split.
  - intros p r Hp Hr. apply (K1 p r Hp). rewrite (agree_result _ _ p A). exact Hr.
  - intros Hmax. destruct K2 as [K2 K3].
    + intros p j Hjc. destruct (next n labels true P p j su) as [su'|] eqn:En; [|reflexivity]. exfalso.
      destruct (texec_enabled heap_ops n _ BW labels now p j st su su' A Hjc En) as (i & st' & Hi & E).
      pose proof (Hmax p i Hi) as Hx. unfold tnext in Hx. congruence.
    + split.
      * intros p Hp. rewrite <- (agree_result _ _ p A). exact (K2 p Hp).
      * intros g p q Hp Hq Hne. unfold tlog. pose proof (K3 g p q Hp Hq Hne) as K. rewrite <- !(proj2 A) in K. exact K.
Qed.
Print Assumptions on_time_all_ok.

(** ** Out of time *)

Lemma steps_app : forall n branch labels strict a t1 b, Mesh.steps heap_ops n branch labels strict a t1 b -> forall t2 c,
  Mesh.steps heap_ops n branch labels strict b t2 c -> Mesh.steps heap_ops n branch labels strict a (t1 ++ t2) c.
Proof. intros n branch labels strict a t1 b Hs. induction Hs; intros t2 c Hs2; [exact Hs2|]. cbn. econstructor; eauto. Qed.

(** If the clock of the next operation of a role is outside its window now and at all later readings (too
    late, for ever), the next thing the role does, other than starting a clock, ends it, and from then on
    nobody can return Ok. *)
Theorem missed_window_fails_all : forall n branch labels T BW now W tr st p w c,
  (forall b l, l < labels b -> dual_mesh n (branch b l)) -> dual_mesh n T ->
  tsteps heap_ops n branch BW labels now (tstart n T W) tr st ->
  1 <= p <= n -> monotone (now p) -> t_trash (tm_thr (ts_thr st p)) = [] ->
  next_window p (ts_thr st p) = Some w -> tm_clocks (ts_thr st p) (w_clock w) = Some c ->
  (forall j, tm_next (ts_thr st p) <= j -> ~ in_window w (elapsed (now p j) c)) ->
  forall i st1, (forall c, i <> TClock c) -> texec heap_ops n branch BW labels now p i st = Some st1 ->
  tresult st1 p = Some RCrash /\
  forall tr' st2, tsteps heap_ops n branch BW labels now st1 tr' st2 ->
  forall q, 1 <= q <= n -> tresult st2 q <> Some ROk.
Proof.
  intros n branch labels T BW now W tr st p w c HB HT H Hp Hm Et Hw Hc Hout i st1 Hi E.
  destruct (texec_inv heap_ops n branch BW labels now p i st st1 E) as (_ & tt & s & Es & E1).
  assert (Hic : is_clock i = false) by (destruct i; try reflexivity; exfalso; eapply Hi; reflexivity).
  pose proof (outside_ends heap_ops n branch BW labels now p i _ _ _ _ w c Hm Et Hw Hc Hout Hic Es) as Eth.
  assert (Hr : tresult st1 p = Some RCrash).
  { subst st1. unfold tresult. cbn. rewrite Nat.eqb_refl, Eth. reflexivity. }
  split; [exact Hr|]. intros tr' st2 H2 q Hq Hok.
  destruct (tsteps_erase heap_ops n branch BW labels now _ _ _ H (start n T) (erase_init _ _ _ _ _)) as (jr & su & Hj & A & _).
  apply ttstep_simulates in Es. unfold simulates in Es. rewrite Hic in Es. destruct Es as [j Ej].
  destruct (exec_of heap_ops n branch labels p j tt s st su Hp A Ej) as (su1 & Ex & A1). rewrite <- E1 in A1.
  destruct (tsteps_erase heap_ops n branch BW labels now _ _ _ H2 su1 A1) as (jr2 & su2 & Hj2 & A2 & _).
  assert (Hs1 : Mesh.steps heap_ops n branch labels true (start n T) (jr ++ [(p, j)]) su1).
  { eapply steps_app; [exact Hj|]. econstructor; [exact Ex|constructor]. }
  apply (no_ok_after_early_end n branch labels true T _ jr2 su1 su2 HB HT Hs1 Hj2 p RCrash Hp) with (p := q); try assumption.
  - rewrite (agree_result _ _ p A1). exact Hr.
  - pose proof (open_steps heap_ops n branch labels true _ _ _ Hj (open_init _ _ _ _) p) as Ho.
    rewrite <- (proj2 A p) in Ho. rewrite <- (proj2 A1 p). subst st1. cbn. rewrite Nat.eqb_refl, Eth. cbn.
    unfold open_log in Ho. cbn in Ho. unfold next_window in Hw. destruct (t_prog (tm_thr (ts_thr st p))); try discriminate; exact Ho.
  - rewrite (agree_result _ _ q A2). exact Hok.
Qed.
Print Assumptions missed_window_fails_all.

(** ** Example: the protocol [once] with windows *)

(** Running a schedule; the second runner also checks that everybody is on time. *)
Definition well_insideb (w : window) (e : Z) : bool :=
  ((w_start w <? 0) || (if w_incl_start w then w_start w * second <=? e else (w_start w + 1) * second <=? e))%Z &&
  ((w_end w <? 0) || (if w_incl_end w then e <=? w_end w * second else e <? w_end w * second))%Z.
Definition keptb (now : nat -> Z) (m : clocks) (k : nat) (w : window) : bool :=
  ((w_reset w =? no_reset) || (match m (w_reset w) with Some _ => true | None => false end)) &&
  ((w_start w <=? w_end w) && (w_end w <=? u64_max))%Z &&
  (((w_end w <? 0)%Z && negb (w_incl_start w) && negb (w_incl_end w)) ||
   ((0 <=? w_end w)%Z && match m (w_clock w) with
                         | Some c => forallb (fun j => well_insideb w (elapsed (now j) c)) (seq k 5)
                         | None => false
                         end)).
Lemma keptb_sound : forall now m k w, keptb now m k w = true -> kept now m k w.
Proof.
  intros now m k w E. unfold keptb in E. apply andb_prop in E as [E E3]. apply andb_prop in E as [E1 E2].
  apply andb_prop in E2 as [E2 E2']. apply Z.leb_le in E2, E2'. split; [|split; [lia|]].
  - apply orb_prop in E1 as [E1|E1]; [left; apply Nat.eqb_eq, E1|right]. destruct (m (w_reset w)); discriminate.
  - apply orb_prop in E3 as [E3|E3].
    + left. apply andb_prop in E3 as [E3 E5]. apply andb_prop in E3 as [E3 E4]. apply Z.ltb_lt in E3.
      apply negb_true_iff in E4, E5. auto.
    + right. apply andb_prop in E3 as [E3 E4]. apply Z.leb_le in E3. split; [exact E3|].
      destruct (m (w_clock w)) as [c|]; [|discriminate]. exists c. split; [reflexivity|]. intros j Hj.
      rewrite forallb_forall in E4. specialize (E4 j). rewrite in_seq in E4. specialize (E4 ltac:(lia)).
      unfold well_insideb in E4. apply andb_prop in E4 as [A B]. unfold well_inside, in_window.
      assert (A' : (0 <= w_start w)%Z -> (if w_incl_start w then w_start w * second <= elapsed (now j) c
                     else (w_start w + 1) * second <= elapsed (now j) c)%Z).
      { intros Hs. apply orb_prop in A as [A|A]; [apply Z.ltb_lt in A; lia|]. destruct (w_incl_start w); apply Z.leb_le, A. }
      assert (B' : (0 <= w_end w)%Z -> (if w_incl_end w then elapsed (now j) c <= w_end w * second
                     else elapsed (now j) c < w_end w * second)%Z).
      { intros Hs. apply orb_prop in B as [B|B]; [apply Z.ltb_lt in B; lia|]. destruct (w_incl_end w); [apply Z.leb_le, B|apply Z.ltb_lt, B]. }
      clear A B. split; [split; [|exact B']|].
      * intros Hs. specialize (A' Hs). destruct (w_incl_start w); [exact A'|]. unfold second in *. lia.
      * intros Hs Ei. specialize (A' Hs). rewrite Ei in A'. exact A'.
Qed.

Section TimedSchedule.
  Variables (n : nat) (branch : nat -> nat -> nat -> mty) (BW : nat -> nat -> nat -> list (list window)).
  Variables (labels : nat -> nat) (now : nat -> nat -> Z).
  Fixpoint trun (st : @tstate heap ep) (tr : list (nat * tinp)) : option (@tstate heap ep) :=
    match tr with
    | [] => Some st
    | (p, i) :: tr' => match texec heap_ops n branch BW labels now p i st with Some st1 => trun st1 tr' | None => None end
    end.
  Lemma trun_steps : forall tr st st', trun st tr = Some st' -> tsteps heap_ops n branch BW labels now st tr st'.
  Proof.
    induction tr as [|[p i] tr IH]; intros st st' Hr; cbn in Hr; [injection Hr as <-; constructor|].
    destruct (texec heap_ops n branch BW labels now p i st) as [st1|] eqn:E; [|discriminate]. econstructor; eauto.
  Qed.
  Fixpoint prun (st : @tstate heap ep) (tr : list (nat * tinp)) : option (@tstate heap ep) :=
    match tr with
    | [] => Some st
    | (p, i) :: tr' =>
        if (match i with TIn ICrash | TTimeout => false | _ => true end) &&
           (is_clock i || negb (match t_trash (tm_thr (ts_thr st p)) with [] => true | _ => false end) ||
            match next_window p (ts_thr st p) with
            | Some w => keptb (now p) (tm_clocks (ts_thr st p)) (tm_next (ts_thr st p)) w
            | None => true
            end)
        then match texec heap_ops n branch BW labels now p i st with Some st1 => prun st1 tr' | None => None end
        else None
    end.
  Lemma prun_punctual : forall tr st st', prun st tr = Some st' -> punctual heap_ops n branch BW labels now st tr st'.
  Proof.
    induction tr as [|[p i] tr IH]; intros st st' Hr; cbn [prun] in Hr; [injection Hr as <-; constructor|].
    match type of Hr with (if ?c then _ else _) = _ => destruct c eqn:Ec; [|discriminate] end.
    apply andb_prop in Ec as [E1 E2].
    destruct (texec heap_ops n branch BW labels now p i st) as [st1|] eqn:E; [|discriminate].
    econstructor; [exact E| | | |apply IH, Hr].
    - intros ->. discriminate.
    - intros ->. discriminate.
    - intros Hc Ht w Hw. rewrite Hc, Ht, Hw in E2. apply keptb_sound, E2.
  Qed.
End TimedSchedule.

Local Open Scope Z_scope.
(** The choice has no bounds. Clock 97; role 1 sends to role 2 within 10 seconds; role 2 answers role 3
    within 20 seconds, both restart their clock. *)
Definition w10 : window := Window 97 0 true 10 true 32.
Definition w20 : window := Window 97 (-1) false 20 false 97.
Definition once_W (p : nat) : list (list window) :=
  match p with
  | 1%nat => [[]; [free_window]] | 2%nat => [[]; [free_window]] | _ => [[free_window]; [free_window]]
  end.
Definition once_BW (b l p : nat) : list (list window) :=
  match l, p with
  | 0%nat, 1%nat => [[w10]; []] | 0%nat, 2%nat => [[w10]; [w20]] | 0%nat, 3%nat => [[]; [w20]] | _, _ => [[]; []]
  end.
(** Everybody reads the clock every tenth of a second; role 1 is slow: it reads it every thirty seconds. *)
Definition fast (p k : nat) : Z := Z.of_nat k * 100000000.
Definition slow (p k : nat) : Z := match p with 1%nat => Z.of_nat k * 30 * second | _ => fast p k end.
Local Open Scope nat_scope.

Definition timed_of (tr : list (nat * inp)) : list (nat * tinp) := map (fun x => (fst x, TIn (snd x))) tr.
Definition clocks_on : list (nat * tinp) := [(1, TClock 97); (2, TClock 97); (3, TClock 97)].
Definition once_start : @tstate heap ep := tstart 3 (proj 3 (first_round once)) once_W.

Definition tview (st : @tstate heap ep) := (tresult st 1, tresult st 2, tresult st 3, tlog st 2, tm_clocks (ts_thr st 2) 97).
Example once_on_time : exists st,
  punctual heap_ops 3 (branches once 3) once_BW ask_labels fast once_start (clocks_on ++ timed_of once_schedule) st /\
  tview st = (Some ROk, Some ROk, Some ROk,
              [EvRecv 0 3 (VLabel 0 0 2); EvRecv 1 1 (VData 7 42); EvSend 1 3 (VData 8 43); EvClose], Some 1100000000%Z).
Proof.
  assert (E : option_map tview (prun 3 (branches once 3) once_BW ask_labels fast once_start (clocks_on ++ timed_of once_schedule)) =
    Some (Some ROk, Some ROk, Some ROk,
              [EvRecv 0 3 (VLabel 0 0 2); EvRecv 1 1 (VData 7 42); EvSend 1 3 (VData 8 43); EvClose], Some 1100000000%Z))
    by (vm_compute; reflexivity).
  destruct (prun 3 (branches once 3) once_BW ask_labels fast once_start (clocks_on ++ timed_of once_schedule)) as [st|] eqn:Er; [|discriminate].
  exists st. split; [apply prun_punctual, Er|]. cbn in E. congruence.
Qed.

(** Role 1 is late: it ends instead of sending, and the others fail. *)
Definition late_prefix : list (nat * tinp) := clocks_on ++ timed_of ([(3, ILabel 0)] ++ tau 3 7 ++ tau 1 5).
Example once_late : exists st,
  texecutes 3 ask_labels once once_BW slow once_W late_prefix st /\
  t_trash (tm_thr (ts_thr st 1)) = [] /\ next_window 1 (ts_thr st 1) = Some w10 /\
  tm_clocks (ts_thr st 1) (w_clock w10) = Some 0%Z /\ monotone (slow 1) /\
  (forall j, tm_next (ts_thr st 1) <= j -> ~ in_window w10 (elapsed (slow 1 j) 0)) /\
  exists st1 st2, tnext 3 ask_labels once once_BW slow 1 (TIn (IVal 42)) st = Some st1 /\
    tsteps heap_ops 3 (branches once 3) once_BW ask_labels slow st1 (timed_of (tau 1 3 ++ tau 2 7 ++ tau 3 3)) st2 /\
    (tresult st2 1, tresult st2 2, tresult st2 3) = (Some RCrash, Some RErr, Some RErr).
Proof.
  destruct (trun 3 (branches once 3) once_BW ask_labels slow once_start late_prefix) as [st|] eqn:Er; [|vm_compute in Er; discriminate].
  exists st. split; [apply trun_steps, Er|].
  assert (E : option_map (fun st => (t_trash (tm_thr (ts_thr st 1)), next_window 1 (ts_thr st 1), tm_clocks (ts_thr st 1) 97, tm_next (ts_thr st 1)))
             (trun 3 (branches once 3) once_BW ask_labels slow once_start late_prefix) = Some ([], Some w10, Some 0%Z, 2)) by (vm_compute; reflexivity).
  rewrite Er in E. cbn [option_map] in E. injection E as E1 E2 E3 E4.
  split; [exact E1|]. split; [exact E2|]. split; [exact E3|]. split.
  { intros a b Hab. unfold slow, second. lia. }
  split.
  { intros j Hj [_ Hi]. rewrite E4 in Hj. specialize (Hi ltac:(cbn; lia)). cbn in Hi. unfold elapsed, slow, second in Hi. lia. }
  assert (E : match trun 3 (branches once 3) once_BW ask_labels slow once_start late_prefix with
              | Some st => match tnext 3 ask_labels once once_BW slow 1 (TIn (IVal 42)) st with
                | Some st1 => option_map (fun st2 => (tresult st2 1, tresult st2 2, tresult st2 3))
                     (trun 3 (branches once 3) once_BW ask_labels slow st1 (timed_of (tau 1 3 ++ tau 2 7 ++ tau 3 3)))
                | None => None end
              | None => None end = Some (Some RCrash, Some RErr, Some RErr)) by (vm_compute; reflexivity).
  rewrite Er in E. destruct (tnext 3 ask_labels once once_BW slow 1 (TIn (IVal 42)) st) as [st1|]; [|discriminate].
  exists st1. destruct (trun 3 (branches once 3) once_BW ask_labels slow st1 _) as [st2|] eqn:Er2; [|discriminate].
  exists st2. split; [reflexivity|]. split; [apply trun_steps, Er2|]. cbn [option_map] in E. congruence.
Qed.

(** Role 2 has learnt the branch and waits for role 1, which has done nothing since: it may give up. *)
Example once_gives_up : exists st st1,
  texecutes 3 ask_labels once once_BW fast once_W (late_prefix ++ timed_of (tau 2 5)) st /\
  receiving 2 (tm_thr (ts_thr st 2)) 1 /\
  tnext 3 ask_labels once once_BW fast 2 (TIn ITau) st = None /\
  tnext 3 ask_labels once once_BW fast 2 TTimeout st = Some st1 /\ tresult st1 2 = Some RCrash.
Proof.
  destruct (trun 3 (branches once 3) once_BW ask_labels fast once_start (late_prefix ++ timed_of (tau 2 5))) as [st|] eqn:Er;
    [|vm_compute in Er; discriminate].
  assert (E : match trun 3 (branches once 3) once_BW ask_labels fast once_start (late_prefix ++ timed_of (tau 2 5)) with
              | Some st => Some (t_trash (tm_thr (ts_thr st 2)),
                  match t_prog (tm_thr (ts_thr st 2)) with PRun ss r _ => Some (ss, r) | _ => None end,
                  match tnext 3 ask_labels once once_BW fast 2 (TIn ITau) st with Some _ => false | None => true end,
                  match tnext 3 ask_labels once once_BW fast 2 TTimeout st with Some st1 => tresult st1 2 | None => None end)
              | None => None
              end = Some ([], Some ([Rcv (PVal 7) End; Snd (PVal 8) End], SRole 1 (SRole 3 SEnd)), true, Some RCrash))
    by (vm_compute; reflexivity).
  rewrite Er in E. exists st.
  generalize dependent (tnext 3 ask_labels once once_BW fast 2 TTimeout st). intros o E.
  generalize dependent (tnext 3 ask_labels once once_BW fast 2 (TIn ITau) st). intros o' E.
  injection E as E1 E2 E3 E4. destruct o as [st1|]; [|discriminate E4]. exists st1.
  split; [apply trun_steps, Er|]. split.
  - split; [exact E1|]. destruct (t_prog (tm_thr (ts_thr st 2))) as [ss r hs| | | |]; try discriminate E2. injection E2 as -> ->.
    eexists _, _, _, _, _. split; [reflexivity|]. split; [lia|]. split; [reflexivity|exact Logic.I].
  - destruct o'; [discriminate E3|]. auto.
Qed.
