(** From a timetable to a run of the timed machine that keeps it. *)
From Coq Require Import List Arith ZArith Bool Lia.
From Verif Require Import Types Diag DiagProofs Wiring WiringProofs Session Mesh MeshSpec Links LinksProofs Refine Sim
  MeshWire MeshInv MeshStep MeshKeep MeshSafe MeshRounds MeshRun MeshLog MeshReach Global MeshGlobal MeshSignal MeshProgress
  MeshClean MeshBound MeshDue MeshWait Timed TimedProofs TimedMesh TimedMeshProofs TimedMeshPlan TimedMeshLocal TimedMeshDue.
Import ListNotations.
Open Scope nat_scope.

(** ** Steps of Mesh.v that cannot fail *)

Section Cases.
  Variable n : nat.
  Variable branch : nat -> nat -> nat -> mty.
  Variable labels : nat -> nat.
  Notation lthread := (@thread handle).
  Notation tcase := (tcase n branch labels true).
  Notation fine tl := (forall r, t_prog (tl : lthread) = PFin r -> r = ROk).

  Ltac bad Hok := exfalso; match type of Hok with forall r, t_prog (fin _ ?x _) = PFin r -> _ => specialize (Hok x eq_refl); discriminate end.

  Lemma case_send : forall p (th : lthread) L v tl' L' ss x r hs t k, t_trash th = [] -> t_prog th = PRun ss (SRole x r) hs ->
    nth_error ss (field_pos p x) = Some (Snd (PVal t) k) -> tcase p th L (IVal v) tl' L' -> fine tl' ->
    exists log, tl' = Thread (PRun (set_nth (field_pos p x) k ss) r hs) [] (t_round th) log.
  Proof.
    intros p th L v tl' L' ss x r hs t k Et Ep Es C Hok.
    inversion C; subst; try congruence; rewrite Ep in *;
      match goal with H : PRun _ _ _ = PRun _ _ _ |- _ => injection H as <- <- <- <- | _ => idtac end; try (bad Hok).
    match goal with H : nth_error ss _ = Some (Snd (PVal ?t0) ?k0) |- _ => assert (k0 = k) by congruence end. subst. eauto.
  Qed.
  Lemma case_recv : forall p (th : lthread) L tl' L' ss x r hs t k, t_trash th = [] -> t_prog th = PRun ss (SRole x r) hs ->
    nth_error ss (field_pos p x) = Some (Rcv (PVal t) k) -> tcase p th L ITau tl' L' -> fine tl' ->
    exists log, tl' = Thread (PRun (set_nth (field_pos p x) k ss) r hs) [] (t_round th) log.
  Proof.
    intros p th L tl' L' ss x r hs t k Et Ep Es C Hok.
    inversion C; subst; try congruence; rewrite Ep in *;
      match goal with H : PRun _ _ _ = PRun _ _ _ |- _ => injection H as <- <- <- | _ => idtac end; try (bad Hok); try congruence.
    match goal with H : nth_error ss _ = Some (Rcv (PVal ?t0) ?k0) |- _ => assert (k0 = k) by congruence end. subst. eauto.
  Qed.
  Lemma case_offer : forall p (th : lthread) L tl' L' ss x r hs b, t_trash th = [] -> t_prog th = PRun ss (SRole x r) hs ->
    nth_error ss (field_pos p x) = Some (Rcv (PChoice b p) End) -> tcase p th L ITau tl' L' -> fine tl' ->
    exists l m, l < labels b /\ tl' = Thread (PRun (fst (branch b l p)) (snd (branch b l p)) m) hs (S (t_round th))
      (t_log th ++ [EvRecv (t_round th) x (VLabel b l p)]).
  Proof.
    intros p th L tl' L' ss x r hs b Et Ep Es C Hok.
    inversion C; subst; try congruence; rewrite Ep in *;
      match goal with H : PRun _ _ _ = PRun _ _ _ |- _ => injection H as <- <- <- | _ => idtac end; try (bad Hok); try congruence.
    match goal with H : nth_error ss _ = Some (Rcv (PChoice ?b0 _) _) |- _ => assert (b0 = b) by congruence end. subst. eauto.
  Qed.
  Lemma case_choose : forall p (th : lthread) L l tl' L' ss hs, t_trash th = [] -> t_prog th = PRun ss SBroadcast hs ->
    tcase p th L (ILabel l) tl' L' ->
    exists b pend own, tl' = Thread (PChoose b l pend own) [] (t_round th) (t_log th).
  Proof. intros p th L l tl' L' ss hs Et Ep C. inversion C; subst; try congruence. eauto. Qed.
  Lemma case_end : forall p (th : lthread) L tl' L' ss hs, t_trash th = [] -> t_prog th = PRun ss SEnd hs ->
    tcase p th L ITau tl' L' -> exists log, tl' = Thread (PClose 0 0 hs) [] (t_round th) log.
  Proof. intros p th L tl' L' ss hs Et Ep C. inversion C; subst; try congruence. rewrite Ep in *. match goal with H : PRun _ _ _ = PRun _ _ _ |- _ => injection H as <- <- end. eauto. Qed.
  Lemma case_close : forall p (th : lthread) L tl' L' a r hs, t_trash th = [] -> t_prog th = PClose a r hs ->
    tcase p th L ITau tl' L' -> fine tl' ->
    t_round tl' = t_round th /\ ((exists a' r', t_prog tl' = PClose a' r' hs) \/ t_prog tl' = PFin ROk).
  Proof.
    intros p th L tl' L' a r hs Et Ep C Hok.
    inversion C; subst; try congruence; rewrite Ep in *;
      match goal with H : PClose _ _ _ = PClose _ _ _ |- _ => injection H as <- <- <- | _ => idtac end; try (bad Hok); cbn; split; eauto.
  Qed.
  Lemma case_pend : forall p (th : lthread) L tl' L' b l x h m pend own, t_trash th = [] ->
    t_prog th = PChoose b l ((x, h, m) :: pend) own -> tcase p th L ITau tl' L' -> fine tl' ->
    exists tr log, tl' = Thread (PChoose b l pend own) tr (t_round th) log.
  Proof.
    intros p th L tl' L' b l x h m pend own Et Ep C Hok.
    inversion C; subst; try congruence; rewrite Ep in *;
      match goal with H : PChoose _ _ _ _ = PChoose _ _ _ _ |- _ => injection H; intros; subst | _ => idtac end; try (bad Hok); eauto.
  Qed.
  Lemma case_enter : forall p (th : lthread) L tl' L' b l own, t_trash th = [] ->
    t_prog th = PChoose b l [] own -> tcase p th L ITau tl' L' ->
    tl' = Thread (PRun (fst (branch b l p)) (snd (branch b l p)) own) [] (S (t_round th)) (t_log th).
  Proof.
    intros p th L tl' L' b l own Et Ep C.
    inversion C; subst; try congruence; rewrite Ep in *;
      match goal with H : PChoose _ _ _ _ = PChoose _ _ _ _ |- _ => injection H; intros; subst end; reflexivity.
  Qed.
  Lemma case_drop : forall p (th : lthread) L tl' L', t_trash th <> [] ->
    tcase p th L ITau tl' L' -> exists out, tl' = Thread (t_prog th) out (t_round th) (t_log th).
  Proof. intros p th L tl' L' Et C. inversion C; subst; try congruence. eauto. Qed.
End Cases.

Section Op.
  Context {S H : Type}.
  Variable O : ops S H.
  Variable n : nat.
  Variable branch : nat -> nat -> nat -> mty.
  Variable labels : nat -> nat.
  Lemma timed_op_ok : forall m' u k' p i tt s wins todo th' s',
    TimedMesh.mesh O n branch labels p i tt s = Some (th', s') ->
    match t_prog th' with PFin _ | PStuck _ => False | _ => True end ->
    timed_op O n branch labels (Result Timed.Ok m' true u k') p i tt s wins todo = Some (TThread th' wins m' k' todo false, s').
  Proof.
    intros m' u k' p i tt s wins todo th' s' Em Hp. unfold timed_op. cbn [r_handed r_out r_clocks Timed.r_next]. rewrite Em.
    destruct (t_prog th'); try contradiction; reflexivity.
  Qed.
  Lemma label_seen : forall p (tt : @tthread H) s ss x r hs b l m tr log s1, t_trash (tm_thr tt) = [] ->
    t_prog (tm_thr tt) = PRun ss (SRole x r) hs -> 
    nth_error ss (comm_field p x - 1) = Some (Rcv (PChoice b p) End) -> t_log (tm_thr tt) = log ->
    TimedMesh.mesh O n branch labels p ITau tt s = Some (Thread (PRun (fst (branch b l p)) (snd (branch b l p)) m) tr (Datatypes.S (t_round (tm_thr tt)))
      (log ++ [EvRecv (t_round (tm_thr tt)) x (VLabel b l p)]), s1) ->
    label_of O hs (comm_field p x - 1) s = l.
  Proof.
    intros p tt s ss x r hs b l m tr log s1 Et Ep Es El Em. unfold TimedMesh.mesh, tstep in Em. rewrite Et, Ep, Es in Em.
    destruct (callable n p x); [|discriminate]. unfold label_of.
    destruct (nth_error hs (comm_field p x - 1)) as [h|]; [|discriminate]. rewrite Nat.eqb_refl in Em. unfold do_offer in Em.
    destruct (op_recv O h s) as [[|b' l' j'] m' h' s'|s'| |]; try discriminate.
    destruct ((b' =? b) && (j' =? p) && (l' <? labels b)); [|discriminate].
    injection Em as _ _ _ _ Hlog _. rewrite El in Hlog. apply app_inv_head in Hlog. injection Hlog as Hlog. exact Hlog.
  Qed.
End Op.

Section Plan.
  Variable n : nat.
  Variable labels : nat -> nat.
  Variable P : protocol.
  Variable W : nat -> list (list window).
  Variable BW : nat -> nat -> nat -> list (list window).
  Variable cs : nat -> list nat.
  Variable N : nat.
  Variable pick : nat -> nat.
  Variable base : nat -> Z.
  Variable plan : nat -> list entry.
  Hypothesis wf : wf_protocol n labels P.
  Hypothesis timed : timetable n labels P W BW cs N pick base plan.

  Notation branch := (branch_g n P).
  Notation lthread := (@thread handle).
  Notation tcase := (tcase n branch labels true).
  Notation inv := (inv n branch labels).
  Notation rinv := (rinv n labels).
  Notation dinv := (dinv n branch labels (T_g n P)).
  Notation ginv := (ginv n labels P).
  Notation sinv := (sinv n).
  Notation cinv := (cinv n).
  Notation grnd := (grnd P).
  Notation settled := (settled n).
  Notation at_pos := (at_pos n P).
  Notation peer_role := (peer_role n).
  Notation tstep_l := (tstep link_ops n branch labels true).
  Notation tstep_h := (tstep heap_ops n branch labels true).
  Notation texec := (texec heap_ops n branch BW labels).
  Notation ttstep := (ttstep heap_ops n branch BW labels).
  Notation rnd := (path P pick).
  Notation tthread := (@tthread ep).
  Notation tstate := (@tstate heap ep).

  Fixpoint wt (fuel g : nat) : nat :=
    match fuel with 0 => 0 | S f => weight n (fun _ => wt f (S g)) (rnd (S g)) end.
  Definition size (g : nat) (_ : nat) : nat := wt (N - g) g.
  Notation total := (total n P size).

  (** ** Rounds *)

  Lemma rnd_wf : forall g, g <= N -> wf_round n labels (rnd g).
  Proof.
    intros [|g] Hg; [apply wf|]. cbn. destruct (ti_pick _ _ _ _ _ _ _ _ _ _ timed g ltac:(lia)) as (c & b & -> & Hl). apply wf, Hl.
  Qed.

  Definition picked (hist : history) : Prop := forall g c b l, nth_error hist g = Some (c, b, l) -> l = pick g /\ g < N.

  Lemma picked_len : forall hist, picked hist -> length hist <= N.
  Proof.
    intros hist Hp. destruct (le_lt_dec (length hist) N) as [H|H]; [exact H|].
    destruct (nth_error hist N) as [[[c b] l]|] eqn:E; [destruct (Hp _ _ _ _ E); lia|apply nth_error_None in E; lia].
  Qed.
  Lemma grnd_path : forall hist thr, picked hist -> ginv hist thr -> forall g, g <= length hist -> grnd hist g = rnd g.
  Proof.
    intros hist thr Hp G. induction g as [|g IH]; intros Hg; [reflexivity|]. cbn.
    destruct (nth_error hist g) as [[[c b] l]|] eqn:E; [|apply nth_error_None in E; lia].
    pose proof (g_hist _ _ _ _ _ G _ _ _ _ E) as Hs. rewrite IH in Hs by lia. rewrite Hs. destruct (Hp _ _ _ _ E) as [-> _]. reflexivity.
  Qed.
  Lemma picked_shrinks : forall hist thr, picked hist -> ginv hist thr -> shrinks n labels P size hist.
  Proof.
    intros hist thr Hp G g c b l E Hl. destruct (Hp _ _ _ _ E) as [-> Hg].
    pose proof (g_hist _ _ _ _ _ G _ _ _ _ E) as Hs.
    assert (g < length hist) by (apply nth_error_Some; congruence). rewrite (grnd_path hist thr Hp G) in Hs by lia.
    unfold size at 2. replace (N - g) with (S (N - S g)) by lia. cbn [wt].
    assert (Er : rnd (S g) = Global.body P b (pick g)) by (cbn; rewrite Hs; reflexivity). rewrite Er. apply le_n.
  Qed.

  (** ** Steps of the untimed machines *)

  Record world (hist : history) (sh : @state heap ep) (sl : @state links handle) (e : nat -> bool -> ep) : Prop := World {
    w_follows : follows n e sh sl;
    w_inv : inv (st_store sl) (st_thr sl);
    w_rinv : rinv hist (st_store sl) (st_thr sl);
    w_dinv : dinv hist (st_store sl) (st_thr sl);
    w_ginv : ginv hist (st_thr sl);
    w_sinv : sinv (st_store sl) (st_thr sl);
    w_cinv : cinv (st_store sl) (st_thr sl);
    w_picked : picked hist
  }.

  Lemma kstep : forall hist st sl e p i, world hist (erase st) sl e -> 1 <= p <= n -> i <> ICrash ->
    tstep_l p i (st_thr sl p) (st_store sl) <> None ->
    (forall l, i = ILabel l -> l = pick (t_round (st_thr sl p)) /\ t_round (st_thr sl p) < N) ->
    exists th' s' tl' L' e', tstep_h p i (tm_thr (ts_thr st p)) (ts_store st) = Some (th', s') /\
      tcase p (st_thr sl p) (st_store sl) i tl' L' /\ th' = map_thread (beta e') tl' /\
      (forall r, t_prog tl' = PFin r -> r = ROk) /\
      (forall tt', tm_thr tt' = th' ->
         world (record p i (st_thr sl p) hist) (erase (TState s' (fun q => if q =? p then tt' else ts_thr st q)))
               (State L' (set_thr (st_thr sl) p tl')) e') /\
      total (record p i (st_thr sl p) hist) L' (set_thr (st_thr sl) p tl') + 1 <= total hist (st_store sl) (st_thr sl).
  Proof.
    intros hist st sl e p i [F I R D G S C Hpk] Hp Hi Hc Hl.
    pose proof (exec_follows n branch labels true p i e (erase st) sl I F) as HE. unfold exec in HE.
    assert (Hb : (1 <=? p) && (p <=? n) = true) by (apply andb_true_iff; rewrite !Nat.leb_le; lia). rewrite Hb in HE.
    cbn [erase st_thr st_store] in HE.
    destruct (tstep_l p i (st_thr sl p) (st_store sl)) as [[tl' L']|] eqn:El; [|congruence].
    destruct (tstep_h p i (tm_thr (ts_thr st p)) (ts_store st)) as [[th' s']|] eqn:Eh; [|contradiction].
    destruct HE as [e' F']. exists th', s', tl', L', e'. split; [reflexivity|].
    assert (CA : tcase p (st_thr sl p) (st_store sl) i tl' L').
    { eapply tcase_of; [apply branch_g_dual|lia|apply inv_tinv; [lia|exact I]|exact El]. }
    split; [exact CA|].
    assert (Eth : th' = map_thread (beta e') tl').
    { pose proof (proj2 F' p Hp) as E. cbn in E. unfold set_thr in E. rewrite Nat.eqb_refl in E. exact E. }
    split; [exact Eth|].
    assert (C' : cinv L' (set_thr (st_thr sl) p tl')) by (eapply cinv_step with (hist := hist) (i := i); eauto).
    split. { intros r Er. apply (c_ok _ _ _ C' p r Hp). unfold set_thr. rewrite Nat.eqb_refl. exact Er. }
    split; [|eapply step_pays; eauto; eapply picked_shrinks; eauto].
    intros tt' Ett. constructor; cbn [st_store st_thr]; try exact C'.
    - destruct F' as [F1 F2]. split; [exact F1|]. intros q Hq. specialize (F2 q Hq). cbn in F2 |- *. unfold set_thr in F2 |- *.
      destruct (q =? p); [rewrite Ett|]; exact F2.
    - eapply inv_case; eauto; apply branch_g_dual.
    - eapply rinv_case; eauto; apply branch_g_dual.
    - eapply dinv_case; eauto; try apply branch_g_dual; apply T_g_dual.
    - eapply ginv_step with (L := st_store sl) (strict := true); eauto.
    - eapply sinv_step; eauto; apply branch_g_dual.
    - destruct (record_case n branch labels true _ p i _ tl' L' hist CA) as [Er|(b & l & ss & hs & pl & Er & Hlb & Ei & Et & Ep & Ec & Ea)].
      + rewrite Er. exact Hpk.
      + rewrite Er. intros g c b0 l0 Hg.
        assert (Hround : t_round (st_thr sl p) = length hist) by (eapply chooser_last; eauto; apply branch_g_dual).
        destruct (lt_dec g (length hist)) as [Hlt|Hge]; [rewrite nth_error_app1 in Hg by exact Hlt; eapply Hpk; exact Hg|].
        assert (g = length hist).
        { assert (g < length (hist ++ [(p, b, l)])) by (apply nth_error_Some; congruence). rewrite app_length in *. cbn in *. lia. }
        subst g. rewrite nth_error_app2, Nat.sub_diag in Hg by lia. cbn in Hg. injection Hg as <- <- <-. rewrite <- Hround. apply Hl, Ei.
  Qed.

  (** ** What each role holds *)

  Definition runs (td : list nat) (p : nat) (tt : tthread) (g : nat) (ss : list sty) (r : stack) (last : Z) : Prop :=
    exists epre esuf start, plan g = epre ++ esuf /\ ss = sessions_of n p (map e_msg esuf) (snd (rnd g)) /\
      r = stack_of p (map e_msg esuf) (snd (rnd g)) /\ tm_wins tt = windows_of n p esuf (snd (rnd g)) /\
      mine p last start esuf /\ (last <= base (S g))%Z /\
      (forall c, In c (cs p) -> In c td \/ tm_clocks tt c = Some (start c)) /\
      (td <> [] -> forall c, start c = base g).
  Definition loc (td : list nat) (p : nat) (tt : tthread) (tl : lthread) : Prop :=
    tm_dead tt = false /\ tm_todo tt = [] /\
    match t_prog tl with
    | PRun ss r hs => exists last, runs td p tt (t_round tl) ss r last
    | PChoose b l pend own => td = [] /\ Forall (fun ws => hd free_window ws = free_window) (tm_wins tt)
    | _ => td = []
    end.
  Definition due (g k p : nat) : Z := due_of p (skipn k (plan g)) (base (S g)).
  Definition choosing (tl : lthread) : Prop := match t_prog tl with PChoose _ _ _ _ => True | _ => False end.

  Record J (T : Z) (hist : history) (st : tstate) (sl : @state links handle) (e : nat -> bool -> ep) (td : nat -> list nat) : Prop := MkJ {
    j_world : world hist (erase st) sl e;
    j_loc : forall p, 1 <= p <= n -> loc (td p) p (ts_thr st p) (st_thr sl p);
    j_due : forall p k, 1 <= p <= n -> running (st_thr sl p) -> at_pos hist p (st_thr sl p) k ->
      (T <= due (t_round (st_thr sl p)) k p)%Z;
    j_td : forall p, 1 <= p <= n -> td p <> [] -> T = base (t_round (st_thr sl p));
    j_ch : forall p, 1 <= p <= n -> choosing (st_thr sl p) -> T = base (S (t_round (st_thr sl p)));
    j_end : (T <= base (S N))%Z
  }.

  Lemma runs_pos : forall hist (thr : nat -> lthread) p tt td ss r hs last, picked hist -> ginv hist thr -> t_round (thr p) <= length hist ->
    t_prog (thr p) = PRun ss r hs -> runs td p tt (t_round (thr p)) ss r last ->
    exists epre esuf start, let g := t_round (thr p) in plan g = epre ++ esuf /\ norm p (map e_msg esuf) /\
      ss = sessions_of n p (map e_msg esuf) (snd (rnd g)) /\
      r = stack_of p (map e_msg esuf) (snd (rnd g)) /\ tm_wins tt = windows_of n p esuf (snd (rnd g)) /\
      mine p last start esuf /\ (last <= base (S g))%Z /\
      (forall c, In c (cs p) -> In c td \/ tm_clocks tt c = Some (start c)) /\
      (td <> [] -> forall c, start c = base g) /\
      at_pos hist p (thr p) (length epre) /\ due g (length epre) p = due_of p esuf (base (S g)) /\ (last <= due g (length epre) p)%Z.
  Proof.
    intros hist thr p tt td ss r hs last Hpk G Hle Ep (epre & esuf & start & E1 & E2 & E3 & E4 & E5 & E6 & E7 & E8).
    set (g := t_round (thr p)) in *. pose proof (picked_len hist Hpk) as HN.
    destruct (enormalise n p esuf (snd (rnd g)) (base (S g)) last start E5) as (pre & suf & -> & Hn & A1 & A2 & A3 & A4 & A5).
    exists (epre ++ pre), suf, start. cbv zeta.
    assert (Hd : due g (length (epre ++ pre)) p = due_of p suf (base (S g))).
    { unfold due. rewrite E1, app_assoc, skipn_app, skipn_all, Nat.sub_diag. reflexivity. }
    split; [rewrite E1; apply app_assoc|]. split; [exact Hn|]. split; [congruence|]. split; [congruence|]. split; [congruence|].
    split; [exact A5|]. split; [exact E6|]. split; [exact E7|]. split; [exact E8|]. split; [|split; [exact Hd|]].
    - unfold MeshProgress.at_pos. rewrite Ep. fold g. rewrite (grnd_path hist _ Hpk G g Hle). exists (map e_msg (epre ++ pre)), (map e_msg suf).
      split; [|split; [exact Hn|split; [congruence|split; [congruence|apply map_length]]]].
      rewrite <- (ti_messages _ _ _ _ _ _ _ _ _ _ timed g ltac:(lia)), E1, app_assoc. apply map_app.
    - rewrite Hd. eapply mine_due; eauto.
  Qed.

  Lemma runs_due : forall hist (thr : nat -> lthread) p tt td ss r hs last k, 1 <= p <= n -> picked hist -> ginv hist thr -> t_round (thr p) <= length hist ->
    t_prog (thr p) = PRun ss r hs -> runs td p tt (t_round (thr p)) ss r last -> at_pos hist p (thr p) k ->
    (last <= due (t_round (thr p)) k p)%Z.
  Proof.
    intros hist thr p tt td ss r hs last k Hp Hpk G Hle Ep Hr Hk.
    destruct (runs_pos hist thr p tt td ss r hs last Hpk G Hle Ep Hr) as (epre & esuf & start & _ & _ & _ & _ & _ & _ & _ & _ & _ & Hk' & _ & H).
    rewrite (pos_unique n labels P hist thr p k (length epre) Hp G Hk Hk'). exact H.
  Qed.

  (** ** One step *)

  Fixpoint sumtd (td : nat -> list nat) (k : nat) : nat := match k with 0 => 0 | S k' => length (td k) + sumtd td k' end.

  Definition step_ok (T : Z) (hist : history) (st : tstate) (sl : @state links handle) (td : nat -> list nat) : Prop :=
    exists u p i st1 hist' sl' e' td', (T <= u)%Z /\ i <> TIn ICrash /\ i <> TTimeout /\
      (forall now, (forall k, tm_next (ts_thr st p) <= k < tm_next (ts_thr st1 p) -> now p k = u) ->
         texec now p i st = Some st1 /\
         (is_clock i = false -> t_trash (tm_thr (ts_thr st p)) = [] -> on_time (now p) p (ts_thr st p))) /\
      J u hist' st1 sl' e' td' /\ turn p i st td /\ td' = left_after cs p i st st1 td /\
      (total hist' (st_store sl') (st_thr sl') + 1 <= total hist (st_store sl) (st_thr sl) \/
       total hist' (st_store sl') (st_thr sl') = total hist (st_store sl) (st_thr sl) /\ sumtd td' n + 1 <= sumtd td n).

  Lemma texec_some : forall now p i st tt' s', 1 <= p <= n -> ttstep now p i (ts_thr st p) (ts_store st) = Some (tt', s') ->
    texec now p i st = Some (TState s' (fun q => if q =? p then tt' else ts_thr st q)).
  Proof.
    intros now p i st tt' s' Hp E. unfold TimedMesh.texec.
    assert (Hb : (1 <=? p) && (p <=? n) = true) by (apply andb_true_iff; rewrite !Nat.leb_le; lia). rewrite Hb, E. reflexivity.
  Qed.

  Lemma held_thread : forall T hist st sl e td p, J T hist st sl e td -> 1 <= p <= n ->
    tm_thr (ts_thr st p) = map_thread (beta e) (st_thr sl p).
  Proof. intros T hist st sl e td p Jx Hp. apply (proj2 (w_follows _ _ _ _ (j_world _ _ _ _ _ _ Jx)) p Hp). Qed.
  Lemma advance : forall T hist st sl e td p i u, J T hist st sl e td -> 1 <= p <= n -> i <> ICrash ->
    tstep_l p i (st_thr sl p) (st_store sl) <> None -> (t_trash (st_thr sl p) = [] -> td p = []) ->
    (forall l, i = ILabel l -> l = pick (t_round (st_thr sl p)) /\ t_round (st_thr sl p) < N) ->
    (T <= u)%Z -> (u <= base (S N))%Z ->
    (u = T \/ settled (st_thr sl) /\ (forall q, 1 <= q <= n -> td q = []) /\
       (forall q k, 1 <= q <= n -> running (st_thr sl q) -> at_pos hist q (st_thr sl q) k -> (u <= due (t_round (st_thr sl q)) k q)%Z)) ->
    (forall th' s' tl' L' e', tstep_h p i (tm_thr (ts_thr st p)) (ts_store st) = Some (th', s') ->
       tcase p (st_thr sl p) (st_store sl) i tl' L' -> th' = map_thread (beta e') tl' -> (forall r, t_prog tl' = PFin r -> r = ROk) ->
       ginv (record p i (st_thr sl p) hist) (set_thr (st_thr sl) p tl') ->
       picked (record p i (st_thr sl p) hist) -> t_round tl' <= length (record p i (st_thr sl p) hist) ->
       exists tt' td', tm_thr tt' = th' /\ td' = (if t_round tl' =? t_round (st_thr sl p) then td p else cs p) /\ loc td' p tt' tl' /\ (td' <> [] -> u = base (t_round tl')) /\
         (choosing tl' -> u = base (S (t_round tl'))) /\
         (forall k, running tl' -> at_pos (record p i (st_thr sl p) hist) p tl' k -> (u <= due (t_round tl') k p)%Z) /\
         forall now, (forall k, tm_next (ts_thr st p) <= k < tm_next tt' -> now p k = u) ->
           ttstep now p (TIn i) (ts_thr st p) (ts_store st) = Some (tt', s') /\
           (t_trash (tm_thr (ts_thr st p)) = [] -> on_time (now p) p (ts_thr st p))) ->
    step_ok T hist st sl td.
  Proof.
    intros T hist st sl e td p i u Jx Hp Hi Hc Htr Hl Hu Hend Hcase Hloc.
    pose proof (held_thread _ _ _ _ _ _ p Jx Hp) as E0. destruct Jx as [Jw Jl Jd Jt Jc Je].
    destruct (kstep hist st sl e p i Jw Hp Hi Hc Hl) as (th' & s' & tl' & L' & e' & Eh & CA & Eth & Hok & Hw & Hpay).
    assert (Hlen : length hist <= length (record p i (st_thr sl p) hist)).
    { destruct (record_case n branch labels true _ p i _ tl' L' hist CA) as [Er|(b & l & ss & hs & pl & Er & _)]; rewrite Er; [lia|].
      rewrite app_length. lia. }
    assert (Hg : forall g, g <= length hist -> grnd (record p i (st_thr sl p) hist) g = grnd hist g).
    { intros g Hg. destruct (record_case n branch labels true _ p i _ tl' L' hist CA) as [Er|(b & l & ss & hs & pl & Er & _)]; rewrite Er; [reflexivity|].
      apply grnd_app, Hg. }
    assert (Hself : set_thr (st_thr sl) p tl' p = tl') by (unfold set_thr; rewrite Nat.eqb_refl; reflexivity).
    pose proof (Hw (TThread th' [] (fun _ => None) 0 [] false) eq_refl) as Hw0.
    assert (Hr0 : t_round tl' <= length (record p i (st_thr sl p) hist)).
    { pose proof (r_thr _ _ _ _ _ (w_rinv _ _ _ _ Hw0) p Hp) as [H _]. cbn in H. rewrite Hself in H. exact H. }
    destruct (Hloc th' s' tl' L' e' Eh CA Eth Hok (w_ginv _ _ _ _ Hw0) (w_picked _ _ _ _ Hw0) Hr0) as (tt' & td' & Ett & Etd' & Hl' & Ht' & Hc' & Hd' & Hx).
    exists u, p, (TIn i), (TState s' (fun q => if q =? p then tt' else ts_thr st q)), (record p i (st_thr sl p) hist),
      (State L' (set_thr (st_thr sl) p tl')), e', (fun q => if q =? p then td' else td q).
    split; [exact Hu|]. split; [congruence|]. split; [discriminate|]. split; [|split; [|split; [|split; [|left; exact Hpay]]]].
    - intros now Hn. cbn [ts_thr] in Hn. rewrite Nat.eqb_refl in Hn. destruct (Hx now Hn) as [H1 H2]. split; [apply texec_some; assumption|].
      intros _. exact H2.
    - constructor; cbn [st_store st_thr ts_thr].
      + apply Hw, Ett.
      + intros q Hq. unfold set_thr. destruct (Nat.eqb_spec q p) as [->|]; [exact Hl'|apply Jl, Hq].
      + intros q k Hq Hr Hk. unfold set_thr in *. destruct (Nat.eqb_spec q p) as [->|]; [apply Hd'; assumption|].
        assert (Hk' : at_pos hist q (st_thr sl q) k).
        { unfold MeshProgress.at_pos in Hk |- *. rewrite Hg in Hk by apply (r_thr _ _ _ _ _ (w_rinv _ _ _ _ Jw) q Hq). exact Hk. }
        destruct Hcase as [->|(_ & _ & H)]; [apply Jd|apply H]; assumption.
      + intros q Hq Htd. unfold set_thr. destruct (Nat.eqb_spec q p) as [->|]; [apply Ht', Htd|].
        destruct Hcase as [->|(_ & H & _)]; [apply Jt; assumption|]. rewrite (H q Hq) in Htd. congruence.
      + intros q Hq Hch. unfold set_thr in *. destruct (Nat.eqb_spec q p) as [->|]; [apply Hc', Hch|].
        destruct Hcase as [->|(H & _ & _)]; [apply Jc; assumption|]. destruct (H q Hq) as [_ H'].
        exfalso. unfold choosing in Hch. destruct (t_prog (st_thr sl q)) eqn:E; try contradiction. exact (H' _ _ _ _ eq_refl).
      + exact Hend.
    - cbn [turn]. rewrite E0. cbn [map_thread t_trash]. intros Hm. apply Htr. destruct (t_trash (st_thr sl p)); [reflexivity|discriminate].
    - unfold left_after. cbn [ts_thr]. rewrite Nat.eqb_refl, Ett, Eth, E0. cbn [map_thread t_round]. rewrite <- Etd'. reflexivity.
  Qed.

  (** ** The stages of the schedule *)


  Lemma plan_wf : forall g, g <= N -> Forall (wf_message n) (map e_msg (plan g)).
  Proof. intros g Hg. rewrite (ti_messages _ _ _ _ _ _ _ _ _ _ timed g Hg). apply (rnd_wf g Hg). Qed.
  Lemma plan_mine : forall g p, g <= N -> mine p (base g) (fun _ => base g) (plan g).
  Proof.
    intros g p Hg. exact (keeps_mine p n (plan g) (fun _ => base g) (fun _ _ => base g) (plan_wf g Hg) (ti_keeps _ _ _ _ _ _ _ _ _ _ timed g Hg)).
  Qed.
  Lemma plan_within : forall g, g <= N -> within (plan g) (base (S g)).
  Proof. intros g Hg e He. exact (ti_in _ _ _ _ _ _ _ _ _ _ timed g e Hg He). Qed.
  Lemma base_le : forall g g', g <= g' -> g' <= S N -> (base g <= base g')%Z.
  Proof.
    intros g g' H. induction H as [|g' H IH]; intros HN; [lia|]. pose proof (ti_base _ _ _ _ _ _ _ _ _ _ timed g' ltac:(lia)). specialize (IH ltac:(lia)). lia.
  Qed.

  (** A role that starts round g. *)
  Lemma runs_start : forall p tt g, g <= N -> tm_wins tt = windows_of n p (plan g) (snd (rnd g)) ->
    runs (cs p) p tt g (fst (proj n (rnd g) p)) (snd (proj n (rnd g) p)) (base g).
  Proof.
    intros p tt g Hg Ew. exists [], (plan g), (fun _ => base g). split; [reflexivity|].
    rewrite (ti_messages _ _ _ _ _ _ _ _ _ _ timed g Hg). split; [reflexivity|]. split; [reflexivity|]. split; [exact Ew|].
    split; [apply plan_mine, Hg|]. split; [apply (ti_base _ _ _ _ _ _ _ _ _ _ timed g Hg)|]. split; [auto|reflexivity].
  Qed.
  Lemma next_round : forall g c b, snd (rnd g) = GChoose c b -> rnd (S g) = Global.body P b (pick g).
  Proof. intros g c b E. cbn. rewrite E. reflexivity. Qed.

  Ltac solve_td := match goal with
    | H : _ = Thread _ _ _ _ |- _ => rewrite H
    | H : t_round _ = t_round _ |- _ => rewrite H
    end; cbn [t_round]; first [rewrite Nat.eqb_refl; symmetry; auto|
      match goal with |- _ = (if S ?a =? ?b then _ else _) => destruct (Nat.eqb_spec (S a) b); [lia|reflexivity] end].

  Lemma stage_drop : forall T hist st sl e td p, J T hist st sl e td -> 1 <= p <= n -> t_trash (st_thr sl p) <> [] ->
    step_ok T hist st sl td.
  Proof.
    intros T hist st sl e td p Jx Hp Ht. pose proof (held_thread _ _ _ _ _ _ p Jx Hp) as E0.
    eapply advance with (p := p) (i := ITau) (u := T); eauto; try discriminate; try lia.
    - unfold tstep. destruct (t_trash (st_thr sl p)) as [|x rest]; [congruence|]. cbn [op_drop link_ops]. destruct (lk_drop x (st_store sl)). discriminate.
    - congruence.
    - apply Jx.
    - intros th' s' tl' L' e' Eh CA Eth Hok G' Hpk' Hr'. destruct (case_drop n branch labels p _ _ _ _ Ht CA) as [out ->].
      replace (record p ITau (st_thr sl p) hist) with hist in * by reflexivity.
      pose proof (j_loc _ _ _ _ _ _ Jx p Hp) as Hl.
      exists (TThread th' (tm_wins (ts_thr st p)) (tm_clocks (ts_thr st p)) (tm_next (ts_thr st p)) (tm_todo (ts_thr st p)) (tm_dead (ts_thr st p))), (td p).
      split; [reflexivity|]. split; [cbn [t_round]; rewrite Nat.eqb_refl; reflexivity|]. split; [exact Hl|]. split; [intros H; apply (j_td _ _ _ _ _ _ Jx p Hp H)|].
      split; [intros H; apply (j_ch _ _ _ _ _ _ Jx p Hp H)|]. split; [intros k H1 H2; apply (j_due _ _ _ _ _ _ Jx p k Hp H1 H2)|].
      intros now _. assert (Ht' : t_trash (tm_thr (ts_thr st p)) <> []).
      { rewrite E0. cbn. destruct (t_trash (st_thr sl p)); [congruence|discriminate]. }
      split; [|congruence]. unfold TimedMesh.ttstep. cbv zeta. destruct (t_trash (tm_thr (ts_thr st p))) eqn:Et; [congruence|].
      unfold TimedMesh.mesh. try (fold tt in Eh). rewrite Eh. reflexivity.
  Qed.

  Lemma stage_choose : forall T hist st sl e td p, J T hist st sl e td -> 1 <= p <= n -> t_trash (st_thr sl p) = [] ->
    choosing (st_thr sl p) -> step_ok T hist st sl td.
  Proof.
    intros T hist st sl e td p Jx Hp Ht Hch. pose proof (held_thread _ _ _ _ _ _ p Jx Hp) as E0.
    pose proof (j_ch _ _ _ _ _ _ Jx p Hp Hch) as HT. pose proof (j_loc _ _ _ _ _ _ Jx p Hp) as (Hdead & Htodo & Hl).
    destruct (j_world _ _ _ _ _ _ Jx) as [F I R D G S C Hpk]. pose proof (r_thr _ _ _ _ _ R p Hp) as [Hle HR].
    assert (Ht' : t_trash (tm_thr (ts_thr st p)) = []) by (rewrite E0; cbn; rewrite Ht; reflexivity).
    unfold choosing in Hch. destruct (t_prog (st_thr sl p)) as [|b l pend own| | |] eqn:Ep; try contradiction. clear Hch.
    destruct Hl as [Htd Hfree]. destruct HR as (Hh & _ & _).
    assert (Ep' : t_prog (tm_thr (ts_thr st p)) = map_prog (beta e) (PChoose b l pend own)) by (rewrite E0; cbn [map_thread t_prog]; rewrite Ep; reflexivity).
    eapply advance with (p := p) (i := ITau) (u := T); eauto; try discriminate; try lia.
    - unfold tstep. rewrite Ht, Ep. destruct pend as [|[[x h] m] pend]; [discriminate|]. unfold do_choose_send. cbn [op_send link_ops].
      destruct h as [[l0 s0] f0]. unfold lk_send. destruct (f0 && is_snd (l_ty (lk (st_store sl) l0) s0)); [|discriminate].
      destruct (l_open (lk (st_store sl) l0) (negb s0)); discriminate.
    - apply Jx.
    - intros th' s' tl' L' e' Eh CA Eth Hok G' Hpk' Hr'. replace (record p ITau (st_thr sl p) hist) with hist in * by reflexivity.
      destruct pend as [|[[x h] m] pend].
      + pose proof (case_enter n branch labels p _ _ _ _ _ _ _ Ht Ep CA) as Etl.
        destruct (Hpk _ _ _ _ Hh) as [El Hg]. set (g := t_round (st_thr sl p)) in *.
        pose proof (g_hist _ _ _ _ _ G _ _ _ _ Hh) as Hs. rewrite (grnd_path hist _ Hpk G g Hle) in Hs.
        pose proof (next_round g p b Hs) as Hn.
        exists (TThread th' (BW b l p) (tm_clocks (ts_thr st p)) (tm_next (ts_thr st p)) [] false), (cs p).
        assert (Hruns : runs (cs p) p (TThread th' (BW b l p) (tm_clocks (ts_thr st p)) (tm_next (ts_thr st p)) [] false) (Datatypes.S g)
                  (fst (branch b l p)) (snd (branch b l p)) (base (Datatypes.S g))).
        { unfold branch_g. rewrite El, <- Hn. apply runs_start; [lia|]. cbn [tm_wins].
          apply (ti_next _ _ _ _ _ _ _ _ _ _ timed g p p b Hg Hp Hs). }
        split; [reflexivity|]. split; [solve_td|]. split; [|split; [|split; [|split]]].
        * split; [reflexivity|]. split; [reflexivity|]. rewrite Etl. cbn [t_prog t_round]. eauto.
        * intros _. rewrite Etl. cbn. exact HT.
        * rewrite Etl. intros [].
        * intros k _ Hk. rewrite HT. rewrite <- (Nat.eqb_refl p) in *.
          pose proof (runs_due hist (set_thr (st_thr sl) p tl') p (TThread th' (BW b l p) (tm_clocks (ts_thr st p)) (tm_next (ts_thr st p)) [] false) (cs p)) as Q.
          unfold set_thr in Q, G'. rewrite Nat.eqb_refl in Q. rewrite Etl in *. cbn [t_prog t_round] in *.
          eapply Q; eauto.
        * intros now _. split.
          -- unfold TimedMesh.ttstep. cbv zeta. rewrite Ht', Hdead, Ep'. cbn [map_prog map]. rewrite Htodo. cbn [reset_all].
             unfold TimedMesh.mesh. try (fold tt in Eh). rewrite Eh. unfold lift. rewrite ?Hdead. reflexivity.
          -- intros _ w Hw. unfold next_window in Hw. rewrite Ep' in Hw. discriminate.
      + destruct (case_pend n branch labels p _ _ _ _ _ _ _ _ _ _ _ Ht Ep CA Hok) as (tr & log & Etl).
        assert (Hw0 : head_window 0 (tm_wins (ts_thr st p)) = free_window).
        { unfold head_window. destruct Hfree as [|ws wss H1 H2]; [reflexivity|exact H1]. }
        exists (TThread th' (tl (tm_wins (ts_thr st p))) (tm_clocks (ts_thr st p)) (Datatypes.S (tm_next (ts_thr st p))) [] false), [].
        split; [reflexivity|]. split; [solve_td|]. split; [|split; [|split; [|split]]].
        * split; [reflexivity|]. split; [reflexivity|]. rewrite Etl. cbn [t_prog]. split; [reflexivity|]. cbn [tm_wins].
          destruct Hfree as [|ws wss H1 H2]; [constructor|exact H2].
        * congruence.
        * intros _. rewrite Etl. exact HT.
        * intros k Hr. rewrite Etl in Hr. contradiction.
        * intros now Hnow. split.
          -- unfold TimedMesh.ttstep. cbv zeta. rewrite Ht', Hdead, Ep'. cbn [map_prog map]. rewrite Hw0, Htodo.
             pose proof (free_run OSendNoReset (now p) (tm_clocks (ts_thr st p)) (tm_next (ts_thr st p))) as Hfr. cbn [run] in Hfr. rewrite Hfr.
             apply timed_op_ok; [exact Eh|]. rewrite Eth, Etl. exact Logic.I.
          -- intros _ w Hw. unfold next_window in Hw. rewrite Ep' in Hw. cbn in Hw. rewrite Hw0 in Hw. injection Hw as <-. apply kept_free.
  Qed.

  Lemma sumtd_set : forall td p v k, length v < length (td p) -> 1 <= p ->
    sumtd (fun q => if q =? p then v else td q) k + (if p <=? k then length (td p) - length v else 0) = sumtd td k.
  Proof.
    intros td p v k Hv Hp. induction k as [|k IH]; cbn [sumtd]; [destruct (Nat.leb_spec p 0); [lia|reflexivity]|].
    revert IH. destruct (Nat.eqb_spec (S k) p) as [<-|Hne].
    - destruct (Nat.leb_spec (S k) (S k)); [|lia]. destruct (Nat.leb_spec (S k) k); lia.
    - destruct (Nat.leb_spec p (S k)), (Nat.leb_spec p k); lia.
  Qed.

  Lemma stage_clock : forall T hist st sl e td p, J T hist st sl e td -> 1 <= p <= n -> t_trash (st_thr sl p) = [] ->
    td p <> [] -> step_ok T hist st sl td.
  Proof.
    intros T hist st sl e td p Jx Hp Ht Htd. pose proof (held_thread _ _ _ _ _ _ p Jx Hp) as E0.
    pose proof (j_td _ _ _ _ _ _ Jx p Hp Htd) as HT. pose proof (j_loc _ _ _ _ _ _ Jx p Hp) as (Hdead & Htodo & Hl).
    assert (Ht' : t_trash (tm_thr (ts_thr st p)) = []) by (rewrite E0; cbn; rewrite Ht; reflexivity).
    destruct (t_prog (st_thr sl p)) as [ss r hs|b l pend own| | |] eqn:Ep; try (exfalso; apply Htd; first [exact Hl|apply Hl]).
    assert (Ep' : t_prog (tm_thr (ts_thr st p)) = PRun ss r (map (beta e) hs)) by (rewrite E0; cbn [map_thread t_prog]; rewrite Ep; reflexivity).
    destruct Hl as (last & epre & esuf & start & E1 & E2 & E3 & E4 & E5 & E6 & E7 & E8). specialize (E8 Htd).
    destruct (td p) as [|c rest] eqn:Etd; [congruence|]. set (tt := ts_thr st p) in *.
    set (tt' := TThread (tm_thr tt) (tm_wins tt) (set_clock (tm_clocks tt) c T) (S (tm_next tt)) (tm_todo tt) false).
    exists T, p, (TClock c), (TState (ts_store st) (fun q => if q =? p then tt' else ts_thr st q)), hist, sl, e, (fun q => if q =? p then rest else td q).
    split; [lia|]. split; [discriminate|]. split; [discriminate|]. split; [|split; [|split; [|split]]].
    - intros now Hnow. cbn [ts_thr] in Hnow. rewrite Nat.eqb_refl in Hnow. split; [|discriminate]. apply texec_some; [exact Hp|].
      unfold TimedMesh.ttstep. cbv zeta. fold tt. rewrite Ht', Hdead, Ep'. rewrite (Hnow (tm_next tt)) by (unfold tt', tt; cbn; lia). reflexivity.
    - destruct Jx as [[F I R D G S C Hpk] Jl Jd Jt Jc Je]. constructor; try assumption.
      + constructor; try assumption. destruct F as [F1 F2]. split; [exact F1|]. intros q Hq. specialize (F2 q Hq). cbn in F2 |- *.
        destruct (Nat.eqb_spec q p) as [->|]; exact F2.
      + intros q Hq. cbn [ts_thr]. destruct (Nat.eqb_spec q p) as [->|]; [|apply Jl, Hq]. split; [reflexivity|]. split; [exact Htodo|].
        rewrite Ep. exists last, epre, esuf, start. split; [exact E1|]. split; [exact E2|]. split; [exact E3|]. split; [exact E4|].
        split; [exact E5|]. split; [exact E6|]. split; [|intros _; exact E8]. intros x Hx. unfold tt'. cbn [tm_clocks]. unfold set_clock.
        destruct (Nat.eqb_spec x c) as [->|Hne]; [right; rewrite E8, HT; reflexivity|].
        destruct (E7 x Hx) as [[H|H]|H]; [congruence|left; exact H|right; exact H].
      + intros q Hq Hne. destruct (Nat.eqb_spec q p) as [->|]; [exact HT|apply Jt; assumption].
    - cbn. rewrite Etd. reflexivity.
    - unfold left_after. rewrite Etd. reflexivity.
    - right. split; [reflexivity|]. pose proof (sumtd_set td p rest n ltac:(rewrite Etd; cbn; lia) ltac:(lia)) as H. rewrite Etd in H. cbn [length] in H.
      revert H. destruct (Nat.leb_spec p n); lia.
  Qed.

  (** ** What the next role does *)

  Lemma peer_of_message : forall p m, 1 <= p <= n -> wf_message n m -> involves p m = true -> peer_role p (peer_in p m).
  Proof.
    intros p m Hp (Hf & Hi & Hne) Hin. unfold peer_in, involves in *. destruct (Nat.eqb_spec (from m) p); [split; [congruence|exact Hi]|].
    split; assumption.
  Qed.
  Lemma stack_front : forall p m ms e, involves p m = true -> stack_of p (m :: ms) e = SRole (peer_in p m) (stack_of p ms e).
  Proof.
    intros p m ms e H. cbn [stack_of]. unfold involves, peer_in in *. destruct (from m =? p); [reflexivity|]. cbn in H. rewrite H. reflexivity.
  Qed.
  Lemma sess_front : forall p m ms e, involves p m = true -> sess_of p (peer_in p m) (m :: ms) e =
    (if from m =? p then Snd (PVal (what m)) (sess_of p (peer_in p m) ms e) else Rcv (PVal (what m)) (sess_of p (peer_in p m) ms e)).
  Proof.
    intros p m ms e H. cbn [sess_of]. unfold involves, peer_in in *. destruct (Nat.eqb_spec (from m) p) as [E|E].
    - rewrite Nat.eqb_refl. reflexivity.
    - cbn in H. rewrite H, Nat.eqb_refl. reflexivity.
  Qed.
  Lemma can_tau : forall L thr p ss x r hs Q k, t_trash (thr p) = [] -> t_prog (thr p) = PRun ss (SRole x r) hs ->
    nth_error ss (comm_field p x - 1) = Some (Rcv Q k) -> can n labels true P L thr p -> tstep_l p ITau (thr p) L <> None.
  Proof.
    intros L thr p ss x r hs Q k Et Ep Es (i & Hi & Hc). destruct i as [|v|l|]; [exact Hc| | |congruence];
      exfalso; apply Hc; unfold tstep; rewrite Et, Ep; [|reflexivity]. rewrite Es. destruct (callable n p x); reflexivity.
  Qed.

  (** The next role of a settled state. *)
  Record next_up (T u : Z) hist st sl e td p k : Prop := NextUp {
    n_J : J T hist st sl e td;
    n_p : 1 <= p <= n;
    n_settled : settled (st_thr sl);
    n_td : forall q, 1 <= q <= n -> td q = [];
    n_can : can n labels true P (st_store sl) (st_thr sl) p;
    n_pos : at_pos hist p (st_thr sl p) k;
    n_u : u = due (t_round (st_thr sl p)) k p;
    n_lo : (T <= u)%Z;
    n_hi : (u <= base (S N))%Z;
    n_min : forall q k', 1 <= q <= n -> running (st_thr sl q) -> at_pos hist q (st_thr sl q) k' -> (u <= due (t_round (st_thr sl q)) k' q)%Z
  }.

  Lemma set_self : forall (thr : nat -> lthread) p tl, set_thr thr p tl p = tl.
  Proof. intros. unfold set_thr. rewrite Nat.eqb_refl. reflexivity. Qed.

  Lemma up_message : forall T u hist st sl e td p k ss r hs epre x esuf start last, next_up T u hist st sl e td p k ->
    let g := t_round (st_thr sl p) in let tt := ts_thr st p in
    t_prog (st_thr sl p) = PRun ss r hs -> plan g = epre ++ x :: esuf -> involves p (e_msg x) = true ->
    ss = sessions_of n p (map e_msg (x :: esuf)) (snd (rnd g)) -> r = stack_of p (map e_msg (x :: esuf)) (snd (rnd g)) ->
    tm_wins tt = windows_of n p (x :: esuf) (snd (rnd g)) -> mine p last start (x :: esuf) ->
    (forall c, In c (cs p) -> tm_clocks tt c = Some (start c)) -> u = due_of p (x :: esuf) (base (S g)) -> g <= N ->
    step_ok T hist st sl td.
  Proof.
    intros T u hist st sl e td p k ss r hs epre x esuf start last [Jx Hp St Htd Hcan Hpos _ Hlo Hhi Hmin] g tt Ep Epl Hin Ess Er Ewins Hm Hclk Eu HgN.
    pose proof (held_thread _ _ _ _ _ _ p Jx Hp) as E0. destruct (St p Hp) as [Ht _].
    pose proof (j_loc _ _ _ _ _ _ Jx p Hp) as (Hdead & Htodo & _). fold tt in Hdead, Htodo.
    set (y := peer_in p (e_msg x)). set (fin := snd (rnd g)) in *.
    assert (Hx : In x (plan g)) by (rewrite Epl; apply in_or_app; right; left; reflexivity).
    assert (Hwm : wf_message n (e_msg x)).
    { pose proof (plan_wf g HgN) as Hw. rewrite Forall_forall in Hw. apply Hw, in_map, Hx. }
    pose proof (peer_of_message p (e_msg x) Hp Hwm Hin) as Hy. fold y in Hy. pose proof Hy as [Hyp Hyn].
    assert (Ht' : t_trash (tm_thr tt) = []) by (unfold tt; rewrite E0; cbn; rewrite Ht; reflexivity).
    cbn [map] in Ess, Er. rewrite (stack_front p _ _ _ Hin) in Er. fold y in Er.
    assert (Ep' : t_prog (tm_thr tt) = PRun ss (SRole y (stack_of p (map e_msg esuf) fin)) (map (beta e) hs)).
    { unfold tt. rewrite E0. cbn [map_thread t_prog]. rewrite Ep, Er. reflexivity. }
    rewrite Er in Ep.
    assert (Es : nth_error ss (field_pos p y) = Some (if from (e_msg x) =? p then Snd (PVal (what (e_msg x))) (sess_of p y (map e_msg esuf) fin)
                   else Rcv (PVal (what (e_msg x))) (sess_of p y (map e_msg esuf) fin))).
    { rewrite Ess, sessions_nth by auto. f_equal. apply (sess_front p (e_msg x) (map e_msg esuf) fin Hin). }
    assert (Hcf : comm_field p y - 1 = field_pos p y) by (apply comm_field_pos; [congruence|lia|lia]).
    destruct (windows_message n p x esuf fin Hp Hwm Hin) as [Hw1 Hw2]. fold y in Hw1, Hw2. rewrite <- Ewins in Hw1, Hw2.
    destruct (ti_bounds _ _ _ _ _ _ _ _ _ _ timed g x HgN Hx) as [Hb1 Hb2].
    assert (Hpp : p = from (e_msg x) \/ p = into (e_msg x)).
    { unfold involves in Hin. apply orb_prop in Hin as [H|H]; apply Nat.eqb_eq in H; auto. }
    destruct (ti_clocks _ _ _ _ _ _ _ _ _ _ timed g x p HgN Hx Hpp) as [Hc1 Hc2].
    assert (Hreset : w_reset (e_win x) = no_reset \/ tm_clocks tt (w_reset (e_win x)) <> None).
    { destruct Hc2 as [H|H]; [left; exact H|right; rewrite (Hclk _ H); discriminate]. }
    (* the entry is in time *)
    assert (Hm' : well_inside (e_win x) (elapsed u (start (w_clock (e_win x)))) /\ mine p u (again (e_win x) u start) esuf).
    { cbn [mine due_of] in Hm, Eu. destruct (Nat.eqb_spec (from (e_msg x)) p) as [E|E]; [rewrite Eu; tauto|].
      destruct (Nat.eqb_spec (into (e_msg x)) p) as [E'|E']; [rewrite Eu; tauto|]. exfalso. destruct Hpp; congruence. }
    destruct Hm' as [Hwi Hm'].
    assert (Hub : (u <= base (S g))%Z).
    { rewrite Eu. apply due_le. intros z Hz. apply (plan_within g HgN). rewrite Epl. apply in_or_app. right. exact Hz. }
    set (m' := if w_reset (e_win x) =? no_reset then tm_clocks tt else set_clock (tm_clocks tt) (w_reset (e_win x)) u).
    set (k' := tm_next tt + readings (e_win x)).
    assert (Hruns : forall th', runs [] p (TThread th' (windows_of n p esuf fin) m' k' [] false) g
              (set_nth (field_pos p y) (sess_of p y (map e_msg esuf) fin) ss) (stack_of p (map e_msg esuf) fin) u).
    { intros th'. exists (epre ++ [x]), esuf, (again (e_win x) u start). split; [rewrite Epl, <- app_assoc; reflexivity|].
      split.
      { destruct (next_message n p y (stack_of p (map e_msg esuf) fin) (e_msg x) (map e_msg esuf) fin Hp Hyn Hyp Hin) as (_ & H2 & _).
        - apply stack_front, Hin.
        - rewrite Ess. symmetry. exact H2. }
      split; [reflexivity|]. split; [reflexivity|]. split; [exact Hm'|]. split; [exact Hub|]. split; [|congruence].
      intros c Hc. right. cbn [tm_clocks]. unfold m', again, set_clock. destruct (Nat.eqb_spec (w_reset (e_win x)) no_reset) as [E|E]; cbn [negb andb]; [apply Hclk, Hc|].
      destruct (c =? w_reset (e_win x)); [reflexivity|apply Hclk, Hc]. }
    set (i := if from (e_msg x) =? p then IVal 0 else ITau).
    assert (Hstep : tstep_l p i (st_thr sl p) (st_store sl) <> None).
    { unfold i. destruct (from (e_msg x) =? p) eqn:Ef.
      - pose proof (r_thr _ _ _ _ _ (w_rinv _ _ _ _ (j_world _ _ _ _ _ _ Jx)) p Hp) as [_ HR]. rewrite Ep in HR. destruct HR as [Eh _].
        unfold tstep. rewrite Ht, Ep, (callable_true n p y Hy), Hcf, Es, Eh, (mesh_nth n _ p y Hp Hy). unfold do_send. cbn [op_send link_ops].
        unfold MeshRounds.hnd, lk_send. destruct (true && _); [|discriminate]. destruct (l_open _ _); discriminate.
      - eapply can_tau; [exact Ht|exact Ep|rewrite Hcf; exact Es|exact Hcan]. }
    eapply advance with (p := p) (i := i) (u := u); eauto.
    { unfold i. destruct (from (e_msg x) =? p); discriminate. }
    { unfold i. destruct (from (e_msg x) =? p); discriminate. }
    intros th' s' tl' L' e' Eh CA Eth Hok G' Hpk' Hr'.
    assert (Erec : record p i (st_thr sl p) hist = hist) by (unfold i; destruct (from (e_msg x) =? p); reflexivity). rewrite Erec in *.
    assert (Etl : exists log, tl' = Thread (PRun (set_nth (field_pos p y) (sess_of p y (map e_msg esuf) fin) ss) (stack_of p (map e_msg esuf) fin) hs) [] g log).
    { unfold i in CA. destruct (from (e_msg x) =? p); [eapply case_send|eapply case_recv]; eauto. }
    destruct Etl as [log Etl].
    exists (TThread th' (windows_of n p esuf fin) m' k' [] false), [].
    split; [reflexivity|]. split; [solve_td|]. split; [|split; [|split; [|split]]].
    - split; [reflexivity|]. split; [reflexivity|]. rewrite Etl. cbn [t_prog t_round]. eauto.
    - congruence.
    - rewrite Etl. intros [].
    - intros k0 _ Hk0. specialize (Hruns th').
      pose proof (runs_due hist (set_thr (st_thr sl) p tl') p (TThread th' (windows_of n p esuf fin) m' k' [] false) []) as Q.
      rewrite set_self in Q. rewrite Etl in *. cbn [t_prog t_round] in *. eapply Q; eauto.
    - intros now Hnow. cbn [tm_next] in Hnow.
      assert (Hrun : forall o, o <> OSendNoReset -> run o (now p) ready_timeout ready_block (e_win x) (tm_clocks tt) (tm_next tt) =
                Result Timed.Ok m' true u k').
      { intros o Ho. apply timed_run with (c := start (w_clock (e_win x))); auto. }
      split.
      + unfold TimedMesh.ttstep. cbv zeta. fold tt. rewrite Ht', Hdead, Ep', (callable_true n p y Hy), Hcf, Hw1, Hw2, Es. unfold i in Eh |- *.
        assert (Hfinal : forall o j, o <> OSendNoReset -> tstep_h p j (tm_thr tt) (ts_store st) = Some (th', s') ->
                  timed_op heap_ops n branch labels (run o (now p) ready_timeout ready_block (e_win x) (tm_clocks tt) (tm_next tt)) p j tt (ts_store st)
                    (windows_of n p esuf fin) [] = Some (TThread th' (windows_of n p esuf fin) m' k' [] false, s')).
        { intros o j Ho Ej. rewrite (Hrun o Ho). apply timed_op_ok; [exact Ej|]. rewrite Eth, Etl. exact Logic.I. }
        destruct (from (e_msg x) =? p); [apply (Hfinal OSend)|apply (Hfinal ORecv)]; try discriminate; exact Eh.
      + intros _ w Hw. unfold next_window in Hw. fold tt in Hw. rewrite Ep', Hcf, Hw1 in Hw. injection Hw as <-. fold tt.
        split; [exact Hreset|]. split; [lia|]. right. split; [lia|]. exists (start (w_clock (e_win x))). split; [apply Hclk, Hc1|].
        intros j Hj. rewrite Hnow; [exact Hwi|]. fold tt. unfold k', readings. destruct (w_reset (e_win x) =? no_reset); lia.
  Qed.

  Lemma due_past : forall g k p, length (plan g) <= k -> due g k p = base (S g).
  Proof. intros g k p H. unfold due. rewrite skipn_all2 by exact H. reflexivity. Qed.

  Lemma up_end : forall T u hist st sl e td p k hs, next_up T u hist st sl e td p k ->
    t_prog (st_thr sl p) = PRun (sessions_of n p [] GEnd) SEnd hs -> u = base (S (t_round (st_thr sl p))) ->
    t_round (st_thr sl p) <= length hist -> step_ok T hist st sl td.
  Proof.
    intros T u hist st sl e td p k hs [Jx Hp St Htd Hcan Hpos _ Hlo Hhi Hmin] Ep Eu Hle.
    pose proof (held_thread _ _ _ _ _ _ p Jx Hp) as E0. destruct (St p Hp) as [Ht _].
    pose proof (j_loc _ _ _ _ _ _ Jx p Hp) as (Hdead & Htodo & _). set (tt := ts_thr st p) in *.
    assert (Ht' : t_trash (tm_thr tt) = []) by (rewrite E0; cbn; rewrite Ht; reflexivity).
    assert (Ep' : t_prog (tm_thr tt) = PRun (sessions_of n p [] GEnd) SEnd (map (beta e) hs)).
    { rewrite E0. cbn [map_thread t_prog]. rewrite Ep. reflexivity. }
    eapply advance with (p := p) (i := ITau) (u := u); eauto; try discriminate.
    { unfold tstep. rewrite Ht, Ep. rewrite ends_last. discriminate. }
    intros th' s' tl' L' e' Eh CA Eth Hok G' Hpk' Hr'. replace (record p ITau (st_thr sl p) hist) with hist in * by reflexivity.
    destruct (case_end n branch labels p _ _ _ _ _ _ Ht Ep CA) as [log Etl].
    exists (TThread th' (tm_wins tt) (tm_clocks tt) (tm_next tt) (tm_todo tt) (tm_dead tt)), [].
    split; [reflexivity|]. split; [solve_td|]. split; [|split; [congruence|split; [|split]]].
    - split; [exact Hdead|]. split; [exact Htodo|]. rewrite Etl. reflexivity.
    - rewrite Etl. intros [].
    - intros k0 _ Hk0. rewrite Etl in *. unfold MeshProgress.at_pos in Hk0. cbn [t_prog t_round] in *. destruct Hk0 as [Hk0 _].
      rewrite (grnd_path hist _ Hpk' G') in Hk0 by exact Hle. pose proof (picked_len hist Hpk') as HN.
      rewrite due_past; [lia|]. rewrite <- (map_length e_msg), (ti_messages _ _ _ _ _ _ _ _ _ _ timed) by lia. lia.
    - intros now _. split.
      + unfold TimedMesh.ttstep. cbv zeta. fold tt. rewrite Ht', Hdead, Ep'. unfold TimedMesh.mesh. try (fold tt in Eh). rewrite Eh. unfold lift. rewrite ?Hdead. reflexivity.
      + intros _ w Hw. unfold next_window in Hw. fold tt in Hw. rewrite Ep' in Hw. discriminate.
  Qed.

  Lemma up_close : forall T u hist st sl e td p k a r hs, next_up T u hist st sl e td p k ->
    t_prog (st_thr sl p) = PClose a r hs -> t_round (st_thr sl p) <= length hist -> step_ok T hist st sl td.
  Proof.
    intros T u hist st sl e td p k a r hs [Jx Hp St Htd Hcan Hpos Eu Hlo Hhi Hmin] Ep Hle.
    pose proof (held_thread _ _ _ _ _ _ p Jx Hp) as E0. destruct (St p Hp) as [Ht _].
    pose proof (j_loc _ _ _ _ _ _ Jx p Hp) as (Hdead & Htodo & _). set (tt := ts_thr st p) in *.
    assert (Ht' : t_trash (tm_thr tt) = []) by (rewrite E0; cbn; rewrite Ht; reflexivity).
    assert (Ep' : t_prog (tm_thr tt) = PClose a r (map (beta e) hs)).
    { rewrite E0. cbn [map_thread t_prog]. rewrite Ep. reflexivity. }
    destruct (j_world _ _ _ _ _ _ Jx) as [F I R D G S C Hpk]. pose proof (picked_len hist Hpk) as HN.
    assert (Hpast : forall tl : lthread, t_round tl = t_round (st_thr sl p) -> forall a' r' hs' k0, t_prog tl = PClose a' r' hs' -> at_pos hist p tl k0 ->
              due (t_round tl) k0 p = base (Datatypes.S (t_round (st_thr sl p)))).
    { intros tl Er a' r' hs' k0 Etl Hk0. unfold MeshProgress.at_pos in Hk0. rewrite Etl in Hk0. destruct Hk0 as [Hk0 _]. rewrite Er in *.
      rewrite (grnd_path hist _ Hpk G) in Hk0 by exact Hle. apply due_past.
      rewrite <- (map_length e_msg), (ti_messages _ _ _ _ _ _ _ _ _ _ timed) by lia. lia. }
    rewrite (Hpast (st_thr sl p) eq_refl _ _ _ _ Ep Hpos) in Eu.
    eapply advance with (p := p) (i := ITau) (u := u); eauto; try discriminate.
    { destruct Hcan as (i & Hi & Hc). destruct i as [|v|l|]; [exact Hc| | |congruence];
        exfalso; apply Hc; unfold tstep; rewrite Ht, Ep; reflexivity. }
    intros th' s' tl' L' e' Eh CA Eth Hok G' Hpk' Hr'. replace (record p ITau (st_thr sl p) hist) with hist in * by reflexivity.
    destruct (case_close n branch labels p _ _ _ _ _ _ _ Ht Ep CA Hok) as [Erd Hcl].
    exists (TThread th' (tm_wins tt) (tm_clocks tt) (tm_next tt) (tm_todo tt) (tm_dead tt)), [].
    split; [reflexivity|]. split; [solve_td|]. split; [|split; [congruence|split; [|split]]].
    - split; [exact Hdead|]. split; [exact Htodo|]. destruct Hcl as [(a' & r' & Etl)|Etl]; rewrite Etl; reflexivity.
    - unfold choosing. destruct Hcl as [(a' & r' & Etl)|Etl]; rewrite Etl; intros [].
    - intros k0 Hr Hk0. destruct Hcl as [(a' & r' & Etl)|Etl]; [|unfold running in Hr; rewrite Etl in Hr; contradiction].
      rewrite (Hpast tl' Erd _ _ _ _ Etl Hk0). lia.
    - intros now _. split.
      + unfold TimedMesh.ttstep. cbv zeta. fold tt. rewrite Ht', Hdead, Ep'. unfold TimedMesh.mesh. try (fold tt in Eh). rewrite Eh. unfold lift. rewrite ?Hdead. reflexivity.
      + intros _ w Hw. unfold next_window in Hw. fold tt in Hw. rewrite Ep' in Hw. discriminate.
  Qed.

  Lemma up_choose : forall T u hist st sl e td p k b hs, next_up T u hist st sl e td p k ->
    let g := t_round (st_thr sl p) in
    t_prog (st_thr sl p) = PRun (sessions_of n p [] (GChoose p b)) SBroadcast hs ->
    tm_wins (ts_thr st p) = windows_of n p [] (GChoose p b) -> snd (rnd g) = GChoose p b ->
    u = base (S g) -> g < N -> step_ok T hist st sl td.
  Proof.
    intros T u hist st sl e td p k b hs [Jx Hp St Htd Hcan Hpos _ Hlo Hhi Hmin] g Ep Ewins Es Eu HgN.
    pose proof (held_thread _ _ _ _ _ _ p Jx Hp) as E0. destruct (St p Hp) as [Ht _].
    pose proof (j_loc _ _ _ _ _ _ Jx p Hp) as (Hdead & Htodo & _). set (tt := ts_thr st p) in *.
    assert (Ht' : t_trash (tm_thr tt) = []) by (rewrite E0; cbn; rewrite Ht; reflexivity).
    assert (Ep' : t_prog (tm_thr tt) = PRun (sessions_of n p [] (GChoose p b)) SBroadcast (map (beta e) hs)).
    { rewrite E0. cbn [map_thread t_prog]. rewrite Ep. reflexivity. }
    destruct (ti_pick _ _ _ _ _ _ _ _ _ _ timed g HgN) as (c0 & b0 & Es0 & Hlab). rewrite Es in Es0. injection Es0 as <- <-.
    eapply advance with (p := p) (i := ILabel (pick g)) (u := u); eauto; try discriminate.
    { unfold tstep. rewrite Ht, Ep, (choice_last n labels P wf). destruct (Nat.ltb_spec (pick g) (labels b)); [|lia].
      destruct (make_choice link_ops n branch p b (pick g) hs (st_store sl)) as [[pr s1]|]; discriminate. }
    { intros l El. injection El as <-. split; [reflexivity|exact HgN]. }
    intros th' s' tl' L' e' Eh CA Eth Hok G' Hpk' Hr'.
    destruct (case_choose n branch labels p _ _ _ _ _ _ _ Ht Ep CA) as (b' & pend & own & Etl).
    exists (TThread th' (tm_wins tt) (tm_clocks tt) (tm_next tt) (tm_todo tt) (tm_dead tt)), [].
    split; [reflexivity|]. split; [solve_td|]. split; [|split; [congruence|split; [|split]]].
    - split; [exact Hdead|]. split; [exact Htodo|]. rewrite Etl. split; [reflexivity|]. cbn [tm_wins]. rewrite Ewins. apply windows_choose.
    - intros _. rewrite Etl. exact Eu.
    - intros k0 Hr. rewrite Etl in Hr. contradiction.
    - intros now _. split.
      + unfold TimedMesh.ttstep. cbv zeta. fold tt. rewrite Ht', Hdead, Ep'. unfold TimedMesh.mesh. try (fold tt in Eh). rewrite Eh. unfold lift. rewrite ?Hdead. reflexivity.
      + intros _ w Hw. unfold next_window in Hw. fold tt in Hw. rewrite Ep' in Hw. discriminate.
  Qed.

  Lemma up_offer : forall T u hist st sl e td p k c b hs, next_up T u hist st sl e td p k ->
    let g := t_round (st_thr sl p) in p <> c -> 1 <= c <= n ->
    t_prog (st_thr sl p) = PRun (sessions_of n p [] (GChoose c b)) (SRole c SEnd) hs ->
    tm_wins (ts_thr st p) = windows_of n p [] (GChoose c b) -> snd (rnd g) = GChoose c b ->
    u = base (S g) -> g < N -> step_ok T hist st sl td.
  Proof.
    intros T u hist st sl e td p k c b hs [Jx Hp St Htd Hcan Hpos _ Hlo Hhi Hmin] g Hpc Hc Ep Ewins Es Eu HgN.
    pose proof (held_thread _ _ _ _ _ _ p Jx Hp) as E0. destruct (St p Hp) as [Ht _].
    pose proof (j_loc _ _ _ _ _ _ Jx p Hp) as (Hdead & Htodo & _). set (tt := ts_thr st p) in *.
    assert (Ht' : t_trash (tm_thr tt) = []) by (rewrite E0; cbn; rewrite Ht; reflexivity).
    set (ss := sessions_of n p [] (GChoose c b)) in *.
    assert (Ep' : t_prog (tm_thr tt) = PRun ss (SRole c SEnd) (map (beta e) hs)).
    { rewrite E0. cbn [map_thread t_prog]. rewrite Ep. reflexivity. }
    assert (Hx : peer_role p c) by (split; [congruence|exact Hc]).
    assert (Ess : nth_error ss (field_pos p c) = Some (Rcv (PChoice b p) End)).
    { unfold ss. rewrite sessions_nth by (auto; congruence). cbn [sess_of last_sess].
      destruct (Nat.eqb_spec p c); [contradiction|]. rewrite Nat.eqb_refl. reflexivity. }
    assert (Hcf : comm_field p c - 1 = field_pos p c) by (apply comm_field_pos; [congruence|lia|lia]).
    assert (Hw0 : head_window (field_pos p c) (tm_wins tt) = free_window) by (rewrite Ewins; apply windows_offer; auto).
    destruct (j_world _ _ _ _ _ _ Jx) as [F I R D G S C Hpk].
    eapply advance with (p := p) (i := ITau) (u := u); eauto; try discriminate.
    { eapply can_tau; [exact Ht|exact Ep|rewrite Hcf; exact Ess|exact Hcan]. }
    intros th' s' tl' L' e' Eh CA Eth Hok G' Hpk' Hr'. replace (record p ITau (st_thr sl p) hist) with hist in * by reflexivity.
    destruct (case_offer n branch labels p _ _ _ _ _ _ _ _ _ Ht Ep Ess CA Hok) as (l & m & Hl & Etl).
    pose proof (effect_case n branch labels true (branch_g_dual n labels P) hist _ _ p ITau tl' L' Hp I R CA) as EF.
    assert (El : l = pick g).
    { rewrite Etl in EF. destruct (e_act _ _ _ _ _ _ _ _ EF) as [[H _]|[H|H]].
      - exfalso. specialize (H (t_round (st_thr sl p)) c). cbn [t_log] in H. rewrite evs_app in H. cbn in H.
        rewrite !Nat.eqb_refl in H. cbn in H. apply (f_equal (@length _)) in H. rewrite app_length in H. cbn in H. lia.
      - exfalso. destruct H as (x' & v & P' & k' & _ & _ & _ & _ & H & _). cbn [t_log] in H. apply app_inv_head in H. discriminate.
      - destruct H as (x' & v & P' & k' & c' & _ & _ & _ & _ & H & H' & _). cbn [t_log] in H.
        apply app_inv_head in H. injection H as <- <-. destruct H' as [_ H']. apply (Hpk _ _ _ _ H'). }
    pose proof (next_round g c b Es) as Hn.
    assert (Hlab : label_of heap_ops (map (beta e) hs) (field_pos p c) (ts_store st) = l).
    { rewrite <- Hcf. eapply label_seen with (n := n) (branch := branch) (labels := labels) (tt := tt); [exact Ht'|exact Ep'|rewrite Hcf; exact Ess|reflexivity|].
      unfold TimedMesh.mesh. fold tt in Eh. rewrite Eh, Eth, Etl. rewrite E0. cbn [map_thread map_prog t_prog t_trash t_round t_log]. reflexivity. }
    assert (Hruns : runs (cs p) p (TThread th' (BW b l p) (tm_clocks tt) (Datatypes.S (tm_next tt)) [] false) (Datatypes.S g)
              (fst (branch b l p)) (snd (branch b l p)) (base (Datatypes.S g))).
    { unfold branch_g. rewrite El, <- Hn. apply runs_start; [lia|]. cbn [tm_wins].
      apply (ti_next _ _ _ _ _ _ _ _ _ _ timed g p c b HgN Hp Es). }
    exists (TThread th' (BW b l p) (tm_clocks tt) (Datatypes.S (tm_next tt)) [] false), (cs p).
    split; [reflexivity|]. split; [solve_td|]. split; [|split; [|split; [|split]]].
    - split; [reflexivity|]. split; [reflexivity|]. rewrite Etl. cbn [t_prog t_round]. eauto.
    - intros _. rewrite Etl. exact Eu.
    - rewrite Etl. intros [].
    - intros k0 _ Hk0. rewrite Eu.
      pose proof (runs_due hist (set_thr (st_thr sl) p tl') p (TThread th' (BW b l p) (tm_clocks tt) (Datatypes.S (tm_next tt)) [] false) (cs p)) as Q.
      rewrite set_self in Q. rewrite Etl in *. cbn [t_prog t_round] in *. eapply Q; eauto.
    - intros now Hnow. split.
      + unfold TimedMesh.ttstep. cbv zeta. fold tt. rewrite Ht', Hdead, Ep', (callable_true n p c Hx), Hcf, Hw0, Ess, Nat.eqb_refl, Hlab.
        pose proof (free_run ORecv (now p) (tm_clocks tt) (tm_next tt)) as Hfr. cbn [run] in Hfr. rewrite Hfr.
        apply timed_op_ok; [exact Eh|]. rewrite Eth, Etl. exact Logic.I.
      + intros _ w Hw. unfold next_window in Hw. fold tt in Hw. rewrite Ep', Hcf, Hw0 in Hw. injection Hw as <-. apply kept_free.
  Qed.

  (** ** All together *)

  Lemma each_or : forall (A : nat -> Prop), (forall p, A p \/ ~ A p) -> (forall p, 1 <= p <= n -> A p) \/ exists p, 1 <= p <= n /\ ~ A p.
  Proof.
    intros A HA. clear - HA.
    assert (H : forall m, (forall p, 1 <= p <= m -> A p) \/ exists p, 1 <= p <= m /\ ~ A p).
    { induction m as [|m [IH|(p & Hp & IH)]]; [left; intros; lia| |right; exists p; split; [lia|exact IH]].
      destruct (HA (S m)) as [H|H].
      - left. intros p Hp. destruct (Nat.eq_dec p (S m)) as [->|]; [exact H|apply IH; lia].
      - right. exists (S m). split; [lia|exact H]. }
    apply H.
  Qed.

  Lemma step : forall T hist st sl e td, J T hist st sl e td ->
    (forall p, 1 <= p <= n -> finished (st_thr sl p)) \/ step_ok T hist st sl td.
  Proof.
    intros T hist st sl e td Jx.
    destruct (each_or (fun p => t_trash (st_thr sl p) = [])) as [Htr|(p & Hp & Htr)].
    { intros p. destruct (t_trash (st_thr sl p)); [left; reflexivity|right; discriminate]. }
    2: { right. eapply stage_drop; eauto. }
    destruct (each_or (fun p => ~ choosing (st_thr sl p))) as [Hch|(p & Hp & Hch)].
    { intros p. unfold choosing. destruct (t_prog (st_thr sl p)); tauto. }
    2: { right. eapply stage_choose; eauto. unfold choosing in *. destruct (t_prog (st_thr sl p)); tauto. }
    destruct (each_or (fun p => td p = [])) as [Htd|(p & Hp & Htd)].
    { intros p. destruct (td p); [left; reflexivity|right; discriminate]. }
    2: { right. eapply stage_clock; eauto. }
    assert (St : settled (st_thr sl)).
    { intros p Hp. split; [auto|]. intros b l pend own E. specialize (Hch p Hp). unfold choosing in Hch. rewrite E in Hch. exact (Hch Logic.I). }
    destruct (each_or (fun p => finished (st_thr sl p))) as [Hf|(p0 & Hp0 & Hf)].
    { intros p. unfold finished. destruct (t_prog (st_thr sl p)) as [| | |r|] eqn:E; try (right; intros [[r0 H] _]; discriminate).
      destruct (t_trash (st_thr sl p)) eqn:E'; [left; eauto|right; intros [_ H]; discriminate]. }
    { left. exact Hf. }
    right. destruct (j_world _ _ _ _ _ _ Jx) as [F I R D G S C Hpk]. pose proof (picked_len hist Hpk) as HN.
    assert (Hr0 : running (st_thr sl p0)).
    { unfold running. pose proof (i_prog _ _ _ _ _ I p0 Hp0) as PO. specialize (Hch p0 Hp0). unfold choosing in Hch.
      destruct (t_prog (st_thr sl p0)) as [| | |r|] eqn:E; auto; exfalso; apply Hf; split; [eauto|auto]. }
    assert (Hlen : forall g, g <= length hist -> length (plan g) = length (fst (grnd hist g))).
    { intros g Hg. rewrite (grnd_path hist _ Hpk G g Hg), <- (ti_messages _ _ _ _ _ _ _ _ _ _ timed g ltac:(lia)). symmetry. apply map_length. }
    assert (Hle : forall g k p, g <= length hist -> (due g k p <= base (Datatypes.S g))%Z).
    { intros g k p Hg. apply due_le, within_skip, plan_within. lia. }
    destruct (next_due n labels true P wf due hist) with (L := st_store sl) (thr := st_thr sl) (p0 := p0)
      as (p & k & Hp & Hr & Hk & Hc & Hmin); try assumption.
    - intros g k k' p Hg Hkk. unfold due. apply due_mono with (last := base g) (start := fun _ => base g); [apply plan_mine; lia|apply plan_within; lia| |exact Hkk].
      apply (ti_base _ _ _ _ _ _ _ _ _ _ timed g ltac:(lia)).
    - intros g k m Hg Hm. rewrite (grnd_path hist _ Hpk G g Hg), <- (ti_messages _ _ _ _ _ _ _ _ _ _ timed g ltac:(lia)), nth_error_map in Hm.
      destruct (nth_error (plan g) k) as [x|] eqn:Ex; [|discriminate]. injection Hm as <-.
      unfold due. rewrite (skipn_nth _ _ _ _ Ex). cbn [due_of]. rewrite !Nat.eqb_refl.
      assert (Hw : wf_message n (e_msg x)).
      { pose proof (plan_wf g ltac:(lia)) as Hw. rewrite Forall_forall in Hw. apply Hw, in_map. eapply nth_error_In; exact Ex. }
      destruct Hw as (_ & _ & Hne). destruct (Nat.eqb_spec (from (e_msg x)) (into (e_msg x))); [contradiction|].
      eapply keeps_cause; [apply (ti_keeps _ _ _ _ _ _ _ _ _ _ timed g ltac:(lia))|exact Ex].
    - intros g k k' p q Hg Hn. rewrite (due_past g k' q); [apply Hle, Hg|]. rewrite Hlen by exact Hg. apply nth_error_None, Hn.
    - intros g g' k k' p q Hlt Hg'. pose proof (Hle g k p ltac:(lia)) as H1. pose proof (base_le (Datatypes.S g) g' Hlt ltac:(lia)) as H2.
      assert (H3 : (base g' <= due g' 0 q)%Z).
      { unfold due. cbn [skipn]. apply mine_due with (start := fun _ => base g'); [apply plan_mine; lia|apply (ti_base _ _ _ _ _ _ _ _ _ _ timed g' ltac:(lia))]. }
      assert (H4 : (due g' 0 q <= due g' k' q)%Z).
      { unfold due. apply due_mono with (last := base g') (start := fun _ => base g'); [apply plan_mine; lia|apply plan_within; lia| |lia].
        apply (ti_base _ _ _ _ _ _ _ _ _ _ timed g' ltac:(lia)). }
      lia.
    - pose proof (r_thr _ _ _ _ _ R p Hp) as [Hpg HR].
      set (u := due (t_round (st_thr sl p)) k p) in *.
      assert (Up : next_up T u hist st sl e td p k).
      { constructor; auto.
        - apply (j_due _ _ _ _ _ _ Jx p k Hp Hr Hk).
        - pose proof (Hle (t_round (st_thr sl p)) k p Hpg). pose proof (base_le (Datatypes.S (t_round (st_thr sl p))) (Datatypes.S N) ltac:(lia) ltac:(lia)). unfold u. lia. }
      unfold running in Hr. destruct (t_prog (st_thr sl p)) as [ss r hs| |a r hs| |] eqn:Ep; try contradiction; [|eapply up_close; eauto].
      pose proof (j_loc _ _ _ _ _ _ Jx p Hp) as (_ & _ & Hl). rewrite Ep in Hl. destruct Hl as [last Hl].
      destruct (runs_pos hist (st_thr sl) p (ts_thr st p) (td p) ss r hs last Hpk G Hpg Ep Hl)
        as (epre & esuf & start & E1 & E2 & E3 & E4 & E5 & E6 & E7 & E8 & E9 & E10 & E11 & E12).
      assert (Eu : u = due_of p esuf (base (Datatypes.S (t_round (st_thr sl p))))).
      { unfold u. rewrite (pos_unique n labels P hist (st_thr sl) p k (length epre) Hp G Hk E10). exact E11. }
      rewrite (Htd p Hp) in E8.
      assert (E8' : forall c, In c (cs p) -> tm_clocks (ts_thr st p) c = Some (start c)) by (intros c Hin; destruct (E8 c Hin) as [[]|H]; exact H).
      destruct esuf as [|x esuf].
      + cbn [map] in E3, E4. cbn [due_of] in Eu. set (g := t_round (st_thr sl p)) in *.
        destruct (snd (rnd g)) as [|c b] eqn:Es.
        * rewrite E3, E4 in Ep. eapply up_end; eauto.
        * assert (HgN : g < N).
          { destruct (Nat.eq_dec g N) as [Eg|]; [|lia]. rewrite Eg, (ti_end _ _ _ _ _ _ _ _ _ _ timed) in Es. discriminate. }
          pose proof (rnd_wf g ltac:(lia)) as [_ Hw]. rewrite Es in Hw. destruct Hw as [Hcn _].
          cbn [stack_of last_stack] in E4. destruct (Nat.eqb_spec p c) as [<-|Hpc]; rewrite E3, E4 in Ep.
          -- eapply up_choose; eauto.
          -- eapply up_offer; eauto.
      + eapply up_message; eauto. lia.
  Qed.

  Notation good := (good heap_ops n branch BW labels).

  Lemma finishes : forall a b T hist st sl e td, total hist (st_store sl) (st_thr sl) <= a -> sumtd td n <= b -> J T hist st sl e td ->
    exists now tr st' v', good cs now td T st tr st' v' /\ (v' <= base (S N))%Z /\
      forall p, 1 <= p <= n -> t_prog (tm_thr (ts_thr st' p)) = PFin ROk /\ t_trash (tm_thr (ts_thr st' p)) = [].
  Proof.
    induction a as [a IHa] using lt_wf_ind. induction b as [b IHb] using lt_wf_ind. intros T hist st sl e td Ha Hb Jx.
    destruct (step T hist st sl e td Jx) as [Hf|(u & p & i & st1 & hist' & sl' & e' & td' & Hu & Hi1 & Hi2 & Hx & J' & Htn & Etd & Hdec)].
    - exists (fun _ _ => 0%Z), [], st, T. split; [split; constructor|]. split; [apply Jx|]. intros p Hp.
      rewrite (held_thread _ _ _ _ _ _ p Jx Hp). destruct (Hf p Hp) as [[r Er] Et]. cbn. rewrite Er, Et.
      rewrite (c_ok _ _ _ (w_cinv _ _ _ _ (j_world _ _ _ _ _ _ Jx)) p r Hp Er). split; reflexivity.
    - assert (IH : exists now tr st' v', good cs now td' u st1 tr st' v' /\ (v' <= base (S N))%Z /\
                forall p, 1 <= p <= n -> t_prog (tm_thr (ts_thr st' p)) = PFin ROk /\ t_trash (tm_thr (ts_thr st' p)) = []).
      { destruct Hdec as [Hd|[Hd Hs]].
        - apply (IHa (total hist' (st_store sl') (st_thr sl')) ltac:(lia) (sumtd td' n) u hist' st1 sl' e' td'); [apply le_n|apply le_n|exact J'].
        - apply (IHb (sumtd td' n) ltac:(lia) u hist' st1 sl' e' td'); [rewrite Hd; exact Ha|apply le_n|exact J']. }
      destruct IH as (now & tr & st' & v' & Hg & Hv & Hend).
      rewrite Etd in Hg. destruct (good_cons heap_ops n branch BW labels cs td T u st p i st1 now tr st' v' Hu Hi1 Hi2 Hx Htn Hg) as [now' Hg'].
      exists now', ((p, i) :: tr), st', v'. auto.
  Qed.

  Lemma J_init : exists sl e, J (base 0) [] (tinit heap_ops n (proj n (first_round P)) W empty_heap) sl e cs.
  Proof.
    destruct (init_follows n (T_g n P) (T_g_dual n P)) as [e F]. exists (init link_ops n (T_g n P) empty_links), e.
    destruct (init_form n (T_g n P) (T_g_dual n P)) as (L & _ & _ & _ & _ & Est & Hthr).
    assert (Hpk : picked []) by (intros g c b l E; destruct g; discriminate).
    assert (Hw : world [] (erase (tinit heap_ops n (proj n (first_round P)) W empty_heap)) (init link_ops n (T_g n P) empty_links) e).
    { constructor.
      - destruct F as [F1 F2]. split; [exact F1|]. intros p Hp. exact (F2 p Hp).
      - apply init_inv, T_g_dual.
      - apply init_rinv, T_g_dual.
      - apply init_dinv, T_g_dual.
      - apply ginv_init, wf.
      - apply sinv_init, T_g_dual.
      - apply cinv_init.
      - exact Hpk. }
    assert (Hruns : forall p, 1 <= p <= n -> runs (cs p) p (ts_thr (tinit heap_ops n (proj n (first_round P)) W empty_heap) p) 0
              (fst (T_g n P p)) (snd (T_g n P p)) (base 0)).
    { intros p Hp. apply (runs_start p _ 0); [lia|]. apply (ti_first _ _ _ _ _ _ _ _ _ _ timed p Hp). }
    constructor.
    - exact Hw.
    - intros p Hp. split; [reflexivity|]. split; [reflexivity|]. rewrite Hthr by exact Hp. cbn [t_prog t_round]. eauto.
    - intros p k Hp Hr Hk.
      pose proof (runs_due [] (st_thr (init link_ops n (T_g n P) empty_links)) p) as Q. specialize (Hruns p Hp).
      rewrite Hthr in * by exact Hp. cbn [t_prog t_round] in *.
      eapply Q; eauto; apply Hw.
    - intros p Hp _. rewrite Hthr by exact Hp. reflexivity.
    - intros p Hp Hch. rewrite Hthr in Hch by exact Hp. contradiction.
    - apply base_le; lia.
  Qed.

  Theorem plan_runs : exists now tr st v',
    on_clock heap_ops n branch BW labels now cs cs (base 0) (tinit heap_ops n (proj n (first_round P)) W empty_heap) tr st v' /\
    punctual heap_ops n branch BW labels now (tinit heap_ops n (proj n (first_round P)) W empty_heap) tr st /\
    (v' <= base (S N))%Z /\
    forall p, 1 <= p <= n -> t_prog (tm_thr (ts_thr st p)) = PFin ROk /\ t_trash (tm_thr (ts_thr st p)) = [].
  Proof.
    destruct J_init as (sl & e & J0).
    destruct (finishes _ _ _ _ _ _ _ _ (le_n _) (le_n _) J0) as (now & tr & st' & v' & [H1 H2] & H3 & H4).
    exists now, tr, st', v'. auto.
  Qed.
End Plan.
