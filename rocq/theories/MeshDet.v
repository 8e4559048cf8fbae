(** Two runs of the same deterministic programs go through the same states, role by role. *)
From Coq Require Import List Arith Bool Lia Permutation.
From Verif Require Import Types Diag DiagProofs Wiring WiringProofs Session Mesh MeshSpec Links LinksProofs Refine Sim
  MeshWire MeshInv MeshStep MeshKeep MeshSafe MeshRounds MeshRun MeshLog MeshReach MeshSignal MeshClean TidySpec MeshTidy.
Import ListNotations.

Lemma count_snoc : forall p tr q i, count p (tr ++ [(q, i)]) = count p tr + if q =? p then 1 else 0.
Proof. intros. unfold count, own. rewrite filter_app, app_length. cbn. destruct (q =? p); reflexivity. Qed.

Definition pre_log (a b : list event) : Prop := exists c, b = a ++ c.

Lemma pre_outs : forall a b g x k v, pre_log a b -> nth_error (outs (evs g x a)) k = Some v -> nth_error (outs (evs g x b)) k = Some v.
Proof.
  intros a b g x k v [c ->] H. rewrite evs_app, outs_app. rewrite nth_error_app1; [exact H|]. apply nth_error_Some. congruence.
Qed.

Lemma comparable_outs : forall a b g x k v w, pre_log a b \/ pre_log b a ->
  nth_error (outs (evs g x a)) k = Some v -> nth_error (outs (evs g x b)) k = Some w -> v = w.
Proof.
  intros a b g x k v w [H|H] Hv Hw.
  - apply (pre_outs _ _ _ _ _ _ H) in Hv. congruence.
  - apply (pre_outs _ _ _ _ _ _ H) in Hw. congruence.
Qed.

Lemma pend_tow : forall k s v c t, pending k s = Some (v, c, t) -> exists l, tow k s = v :: l.
Proof.
  intros k s v c t H. unfold pending in H. unfold tow. destruct (Bool.eqb (l_to k) s); [|discriminate].
  destruct (l_q k) as [|[[v' c'] t'] q]; [discriminate|]. cbn in H. injection H as -> -> ->. cbn. eauto.
Qed.

Lemma tow_pend : forall k s, pending k s = None -> tow k s = [].
Proof.
  intros k s H. unfold pending in H. unfold tow. destruct (Bool.eqb (l_to k) s); [|reflexivity].
  destruct (l_q k); [reflexivity|discriminate].
Qed.

Section Det.
  Variable n : nat.
  Variable branch : nat -> nat -> nat -> mty.
  Variable labels : nat -> nat.
  Variable strict : bool.
  Hypothesis branch_dual : forall b l, l < labels b -> dual_mesh n (branch b l).
  Hypothesis branch_tidy : forall b l, l < labels b -> tidy_mesh n (branch b l).
  Variable T : nat -> mty.
  Hypothesis T_dual : dual_mesh n T.
  Hypothesis T_tidy : tidy_mesh n T.
  Variable f : programs.

  Notation lthread := (@thread handle).
  Notation lstate := (@state links handle).
  Notation tcase := (tcase n branch labels strict).
  Notation inv := (inv n branch labels).
  Notation rinv := (rinv n labels).
  Notation dinv := (dinv n branch labels T).
  Notation sinv := (sinv n).
  Notation cinv := (cinv n).
  Notation uinv := (uinv n branch T).
  Notation peer_role := (peer_role n).
  Notation lnk := (lnk n).
  Notation hnd := (hnd n).
  Notation mesh := (mesh n).
  Notation kept := (kept n).
  Notation init_l := (init link_ops n T empty_links).
  Notation exec_l := (exec link_ops n branch labels strict).
  Notation tstep_l := (tstep link_ops n branch labels strict).
  Notation runs_l := (runs link_ops n branch labels strict init_l f).

  Record good (hist : history) (st : lstate) : Prop := Good {
    o_inv : inv (st_store st) (st_thr st);
    o_r : rinv hist (st_store st) (st_thr st);
    o_d : dinv hist (st_store st) (st_thr st);
    o_s : sinv (st_store st) (st_thr st);
    o_u : uinv hist (st_thr st);
    o_c : cinv (st_store st) (st_thr st)
  }.

  Lemma good_init : good [] init_l.
  Proof.
    constructor.
    - apply init_inv; assumption.
    - apply init_rinv; assumption.
    - apply init_dinv; assumption.
    - apply sinv_init; assumption.
    - apply uinv_init; assumption.
    - apply cinv_init_gen; assumption.
  Qed.

  Lemma good_step : forall hist L thr p i th' L', good hist (State L thr) -> 1 <= p <= n -> i <> ICrash ->
    tcase p (thr p) L i th' L' -> good (record p i (thr p) hist) (State L' (set_thr thr p th')).
  Proof.
    intros hist L thr p i th' L' [I R D S U C] Hp Hi CA. cbn [st_store st_thr] in *. constructor; cbn [st_store st_thr].
    - eapply inv_case; eauto.
    - eapply rinv_case; eauto.
    - eapply dinv_case; eauto.
    - eapply sinv_step; eauto.
    - eapply uinv_step with (L := L); eauto.
    - eapply cinv_step_gen with (hist := hist) (T := T) (L := L) (i := i); eauto.
      + intros x ss r hs b q Ep Hx Es Hq Hqx. eapply tidy_offer; eauto.
        pose proof (i_prog _ _ _ _ _ I p Hp) as PO. rewrite Ep in PO. cbn in PO. destruct PO as (P1 & _ & P3).
        rewrite <- (Forall2_len _ _ _ _ _ P3). exact P1.
      + intros x a r hs Ep Hx Hl. eapply tidy_left; eauto.
  Qed.

  Lemma exec_good : forall hist st p i st', good hist st -> i <> ICrash -> exec_l p i st = Some st' ->
    1 <= p <= n /\ exists th' L', st' = State L' (set_thr (st_thr st) p th') /\ tcase p (st_thr st p) (st_store st) i th' L' /\
      good (record p i (st_thr st p) hist) st'.
  Proof.
    intros hist [L thr] p i st' G Hi H. destruct (exec_case n branch labels strict branch_dual p i L thr st' (o_inv _ _ G) H)
      as (Hp & th' & L' & -> & C). split; [exact Hp|]. exists th', L'. split; [reflexivity|]. split; [exact C|].
    eapply good_step; eauto.
  Qed.

  Lemma decided_calm : forall p log i, decides f p log i -> i <> ICrash.
  Proof. intros p log i H ->. exact H. Qed.

  Lemma runs_good : forall tr st, runs_l tr st -> exists hist, good hist st.
  Proof.
    intros tr st H. induction H as [|tr st p i st' _ [hist G] Hd Hx]; [exists []; exact good_init|].
    destruct (exec_good hist st p i st' G (decided_calm _ _ _ Hd) Hx) as (_ & th' & L' & _ & _ & G'). eauto.
  Qed.

  (** ** One step of a thread, given what it receives *)

  Definition nxt (p : nat) (th : lthread) (w : option value) : option lthread :=
    match t_trash th with
    | (m, s, full) :: rest => Some (Thread (t_prog th) (if full : bool then (m, s, false) :: rest else rest) (t_round th) (t_log th))
    | [] =>
        match t_prog th with
        | PRun ss (SRole x r) hs =>
            match nth_error ss (field_pos p x) with
            | Some (Snd (PVal t) k) =>
                Some (Thread (PRun (set_nth (field_pos p x) k ss) r hs) [] (t_round th)
                        (t_log th ++ [EvSend (t_round th) x (VData t (f p (t_log th)))]))
            | Some (Rcv (PVal t) k) =>
                match w with
                | Some v => Some (Thread (PRun (set_nth (field_pos p x) k ss) r hs) [] (t_round th) (t_log th ++ [EvRecv (t_round th) x v]))
                | None => None
                end
            | Some (Rcv (PChoice b _) _) =>
                match w with
                | Some (VLabel _ l _) =>
                    Some (Thread (PRun (fst (branch b l p)) (snd (branch b l p)) (mesh (S (t_round th)) p)) hs (S (t_round th))
                            (t_log th ++ [EvRecv (t_round th) x (VLabel b l p)]))
                | _ => None
                end
            | _ => None
            end
        | PRun ss SBroadcast hs =>
            match choice_of p ss with
            | Some b => Some (Thread (PChoose b (f p (t_log th)) (pend_of n (S (t_round th) * npairs n) p hs)
                                        (meshb n (S (t_round th) * npairs n) p)) [] (t_round th) (t_log th))
            | None => None
            end
        | PRun ss _ hs => Some (Thread (PClose 0 0 hs) [] (t_round th) (t_log th ++ [EvClose]))
        | PChoose b l ((x, h, m) :: pend) own =>
            Some (Thread (PChoose b l pend own) [h] (t_round th) (t_log th ++ [EvSend (t_round th) x (VLabel b l x)]))
        | PChoose b l [] own =>
            Some (Thread (PRun (fst (branch b l p)) (snd (branch b l p)) own) [] (S (t_round th)) (t_log th))
        | PClose a r hs =>
            match nth_error hs a, nth_error hs r with
            | Some _, _ => Some (Thread (PClose (a + 1) r hs) [] (t_round th) (t_log th))
            | None, Some _ => Some (Thread (PClose a (r + 1) hs) [] (t_round th) (t_log th))
            | None, None => Some (fin th ROk hs)
            end
        | _ => None
        end
    end.

  Definition inp_of (p : nat) (th : lthread) : inp :=
    match t_trash th, t_prog th with
    | [], PRun ss (SRole x _) _ => match nth_error ss (field_pos p x) with Some (Snd _ _) => IVal (f p (t_log th)) | _ => ITau end
    | [], PRun _ SBroadcast _ => ILabel (f p (t_log th))
    | _, _ => ITau
    end.

  (** Whom the thread waits for, to receive a message. *)
  Definition awaits (p : nat) (th : lthread) : option nat :=
    match t_trash th, t_prog th with
    | [], PRun ss (SRole x _) _ => match nth_error ss (field_pos p x) with Some (Rcv _ _) => Some x | _ => None end
    | _, _ => None
    end.

  (** The message that p receives next from x, when x has this log. *)
  Definition incoming (p x : nat) (th : lthread) (log : list event) : option value :=
    nth_error (outs (evs (t_round th) p log)) (length (ins (evs (t_round th) x (t_log th)))).

  Definition comes (p : nat) (th : lthread) (thr : nat -> lthread) (w : option value) : Prop :=
    match awaits p th with
    | Some x => w <> None /\ w = incoming p x th (t_log (thr x))
    | None => w = None
    end.

  (** Nobody is gone while a send is left. *)
  Lemma snd_open : forall L thr g p x, inv L thr -> cinv L thr -> 1 <= p <= n -> peer_role p x -> lnk g p x < lnext L ->
    is_snd (l_ty (lk L (lnk g p x)) (p <? x)) = true -> l_open (lk L (lnk g p x)) (negb (p <? x)) = true.
  Proof.
    intros L thr g p x I C Hp Hx Hm Hs. pose proof (i_wf _ _ _ _ _ I) as W.
    destruct (l_open (lk L (lnk g p x)) (negb (p <? x))) eqn:Eo; [reflexivity|].
    exfalso. destruct (peer_sym n p x Hp Hx) as [Hx' Hpx].
    rewrite <- (side_other p x) in Eo by (destruct Hx; congruence). rewrite (lnk_sym n) in Eo, Hm.
    destruct (not_open n L thr _ x p C Hx' Hpx Hm Eo) as (_ & Ht & _).
    rewrite (lnk_sym n) in Ht, Hm. rewrite (side_other p x) in Ht by (destruct Hx; congruence).
    pose proof (snd_dual _ _ (W _ Hm) Hs) as Hd. rewrite Ht in Hd. discriminate.
  Qed.

  Lemma recv_incoming : forall hist L thr p x v c t, good hist (State L thr) -> 1 <= p <= n -> peer_role p x ->
    In (hnd (t_round (thr p)) p x) (held (t_prog (thr p))) ->
    pending (lk L (lnk (t_round (thr p)) p x)) (p <? x) = Some (v, c, t) ->
    incoming p x (thr p) (t_log (thr x)) = Some v.
  Proof.
    intros hist L thr p x v c t [I R D S U C] Hp Hx Hin Hpd. cbn [st_store st_thr] in *.
    destruct (d_sync _ _ _ _ _ _ _ D (t_round (thr p)) p x Hp Hx (held_kept n branch labels L thr p _ Hp I Hin)) as [Ho _].
    unfold incoming. rewrite Ho. destruct (pend_tow _ _ _ _ _ Hpd) as [l ->]. rewrite nth_error_app2, Nat.sub_diag by lia. reflexivity.
  Qed.

  Lemma local_step : forall hist L thr p i th' L', good hist (State L thr) -> 1 <= p <= n ->
    decides f p (t_log (thr p)) i -> tcase p (thr p) L i th' L' ->
    i = inp_of p (thr p) /\ exists w, comes p (thr p) thr w /\ nxt p (thr p) w = Some th'.
  Proof.
    intros hist L thr p i th' L' G Hp Hd CA. pose proof (good_step hist L thr p i th' L' G Hp (decided_calm _ _ _ Hd) CA) as G'.
    assert (Hok : forall r, t_prog th' = PFin r -> r = ROk).
    { intros r E. apply (c_ok _ _ _ (o_c _ _ G') p r Hp). cbn [st_thr]. rewrite set_here. exact E. }
    clear G'. pose proof (o_inv _ _ G) as I. pose proof (o_r _ _ G) as R. pose proof (o_c _ _ G) as C. cbn [st_store st_thr] in I, R, C.
    pose proof (r_thr _ _ _ _ _ R p Hp) as [Hle HR].
    unfold inp_of, comes, awaits, nxt.
    destruct CA as [x rest out L1 Et Ed|Et Hnf
      |v x ss r hs t k h L1 Et Ep Hx Es Eh El|v x ss r hs t k h lost L1 Et Ep Hx Es Eh El Est
      |v x ss r hs t k h lost L1 Et Ep Hx Es Eh El Est
      |v x ss r hs t k h L1 Et Ep Hx Es Eh El|b l m x ss r hs h L1 Et Ep Hx Es Eh El Hl
      |x ss r hs P0 k h L1 Et Ep Hx Es Eh El
      |b l ss hs pl L1 Et Ep Ec Hl Ea
      |b l x h m pend own L1 Et Ep El|b l x h m pend own lost L1 Et Ep El Est
      |b l x h m pend own lost L1 Et Ep El Est
      |b l own Et Ep|ss hs Et Ep Ee
      |a r hs h L1 Et Ep Ea El|a r hs h Et Ep Ea El
      |a r hs h L1 Et Ep Ea Er El|a r hs h Et Ep Ea Er El|a r hs h L1 Et Ep Ea Er El
      |a r hs Et Ep Ea Er]; rewrite Et; try rewrite Ep; try (rewrite Ep in HR);
      try (exfalso; discriminate (Hok _ eq_refl)).
    - (* drop *)
      destruct x as [[m s] full]. split; [reflexivity|]. exists None. split; [reflexivity|]. f_equal. f_equal.
      assert (Hlv : live L (m, s, full)).
      { apply (live_link n branch labels L thr p _ Hp I). unfold all_of. rewrite Et. apply in_or_app. right; left; reflexivity. }
      destruct Hlv as [Hl Ho]. unfold lk_drop in Ed. destruct full; [|injection Ed as <- _; reflexivity].
      destruct (c_trash _ _ _ C p m s Hp) as (g & q & Hq & E); [rewrite Et; left; reflexivity|].
      assert (Hfin : l_ty (lk L m) s = End).
      { injection E as -> ->. destruct (c_left _ _ _ C g p q Hp Hq Hl) as [[_ Hk]|(_ & H & _)]; [|exact H].
        exfalso. apply (Hk p Hp). rewrite Et. left. reflexivity. }
      rewrite Hfin in Ed. cbn [is_fin] in Ed. injection Ed as <- _. reflexivity.
    - (* send *)
      cbn [decides] in Hd. subst v. rewrite Es. split; [reflexivity|]. exists None. split; reflexivity.
    - exfalso. destruct (run_field n branch labels hist L thr p ss _ hs x _ h Hp I R Ep Hx Es Eh) as (-> & Hl & Ht & _).
      destruct (lost_shape _ _ _ _ _ _ _ _ _ El) as (Ho & _). rewrite (snd_open L thr) in Ho; auto; [discriminate|]. rewrite Ht. reflexivity.
    - (* receive *)
      rewrite Es. split; [reflexivity|]. exists (Some (VData t v)). split; [|reflexivity]. split; [discriminate|]. symmetry.
      destruct (run_field n branch labels hist L thr p ss _ hs x _ h Hp I R Ep Hx Es Eh) as (-> & Hl & Ht & _).
      destruct (got_shape _ _ _ _ _ _ _ El) as (t' & Hpend & _).
      eapply recv_incoming; eauto. rewrite Ep. eapply nth_error_In; exact Eh.
    - (* offer *)
      rewrite Es. split; [reflexivity|]. exists (Some (VLabel b l p)).
      destruct (run_field n branch labels hist L thr p ss _ hs x _ h Hp I R Ep Hx Es Eh) as (-> & Hl' & Ht & _).
      destruct (got_shape _ _ _ _ _ _ _ El) as (t' & Hpend & _). split.
      + split; [discriminate|]. symmetry. eapply recv_incoming; eauto. rewrite Ep. eapply nth_error_In; exact Eh.
      + assert (Hin : In (VLabel b l p, m, t') (l_q (lk L (lnk (t_round (thr p)) p x))) /\ l_to (lk L (lnk (t_round (thr p)) p x)) = (p <? x)).
        { unfold pending in Hpend. destruct (Bool.eqb (l_to (lk L (lnk (t_round (thr p)) p x))) (p <? x)) eqn:Eb; [|discriminate].
          apply Bool.eqb_prop in Eb. split; [|exact Eb]. destruct (l_q (lk L (lnk (t_round (thr p)) p x))); [discriminate|].
          cbn in Hpend. injection Hpend as ->. left. reflexivity. }
        destruct Hin as [Hin Hto]. pose proof (lo_q _ _ _ _ _ (r_link _ _ _ _ _ R _ Hl') _ _ _ Hin) as HQ.
        cbn in HQ. destruct HQ as (g & c & _ & Hc & Hcp & Em & _ & ->).
        destruct (peer_sym n c p Hc Hcp) as [_ Hpc]. rewrite (lnk_sym n g c p) in Em.
        assert (Eg : t_round (thr p) = g).
        { pose proof (lnk_range n (t_round (thr p)) p x Hp Hx). pose proof (lnk_range n g p c Hp Hpc). rewrite Em in H. nia. }
        rewrite <- Eg. reflexivity.
    - (* choose *)
      cbn [decides] in Hd. subst l. rewrite Ec. split; [reflexivity|]. exists None. split; [reflexivity|].
      rewrite (chooser_last n branch labels hist L thr p ss hs b Hp I R Ep Ec), <- (r_next _ _ _ _ _ R). reflexivity.
    - split; [reflexivity|]. exists None. split; reflexivity.
    - (* choice lost *)
      exfalso. destruct HR as (E1 & E2 & qs & E3 & E4).
      destruct qs as [|q qs]; [discriminate|]. cbn in E3. injection E3 as -> -> -> ->. apply Forall_inv in E4. rename E4 into Hq.
      pose proof (i_prog _ _ _ _ _ I p Hp) as PO. rewrite Ep in PO. cbn in PO. destruct PO as (_ & _ & PO). apply Forall_inv in PO.
      destruct PO as (_ & Ht & _). unfold lty, MeshRounds.hnd in Ht, El.
      destruct (lost_shape _ _ _ _ _ _ _ _ _ El) as (Ho & _).
      assert (Hl : lnk (t_round (thr p)) p q < lnext L).
      { assert (Hlv : live L (hnd (t_round (thr p)) p q)).
        { apply (live_link n branch labels L thr p _ Hp I). unfold all_of. rewrite Ep. apply in_or_app. left. cbn. left; reflexivity. }
        apply Hlv. }
      rewrite (snd_open L thr) in Ho; auto; [discriminate|]. rewrite Ht. reflexivity.
    - split; [reflexivity|]. exists None. split; reflexivity.
    - split; [reflexivity|]. exists None. split; reflexivity.
    - rewrite Ea. split; [reflexivity|]. exists None. split; reflexivity.
    - rewrite Ea, Er. split; [reflexivity|]. exists None. split; reflexivity.
    - rewrite Ea, Er. split; [reflexivity|]. exists None. split; reflexivity.
  Qed.

  (** ** Same number of steps, same state *)

  (** The second state of a role comes later than the first. *)
  Definition ahead (a b : lthread) : Prop :=
    pre_log (t_log a) (t_log b) /\
    forall k, k < n - 1 -> told a k \/ over a -> t_round b = t_round a /\ (told b k \/ over b).

  Lemma ahead_refl : forall a, ahead a a.
  Proof. intros a. split; [exists []; symmetry; apply app_nil_r|]. intros k _ H. split; [reflexivity|exact H]. Qed.

  Lemma ahead_trans : forall a b c, ahead a b -> ahead b c -> ahead a c.
  Proof.
    intros a b c [[x Hx] H1] [[y Hy] H2]. split; [exists (x ++ y); rewrite Hy, Hx, app_assoc; reflexivity|].
    intros k Hk H. destruct (H1 k Hk H) as [E1 H1']. destruct (H2 k Hk H1') as [E2 H2']. split; [congruence|exact H2'].
  Qed.

  Lemma step_ahead : forall hist L thr p i th' L', good hist (State L thr) -> 1 <= p <= n ->
    tcase p (thr p) L i th' L' -> ahead (thr p) th'.
  Proof.
    intros hist L thr p i th' L' G Hp C. split.
    - destruct C; cbn [t_log fin]; try (eexists; reflexivity); exists []; symmetry; apply app_nil_r.
    - intros k Hk H. eapply (told_stays n) with (p := p) (L := L) (L' := L'); eauto.
      eapply seffect_case with (hist := hist); eauto; [apply (o_inv _ _ G)|apply (o_r _ _ G)].
  Qed.

  Lemma own_snoc : forall p tr q i, own p (tr ++ [(q, i)]) = own p tr ++ (if q =? p then [(q, i)] else []).
  Proof. intros. unfold own. rewrite filter_app. cbn. destruct (q =? p); reflexivity. Qed.

  (** Where a role was after k steps. *)
  Lemma at_count : forall tr st q k, runs_l tr st -> 1 <= q <= n -> k <= count q tr ->
    exists tr0 st0, runs_l tr0 st0 /\ count q tr0 = k /\ length tr0 <= length tr /\ ahead (st_thr st0 q) (st_thr st q) /\
      exists rest, own q tr = own q tr0 ++ rest.
  Proof.
    intros tr st q k H Hq. induction H as [|tr st p i st' H IH Hd Hx]; intros Hk.
    - exists [], init_l. split; [constructor|]. split; [cbn in *; lia|]. split; [lia|]. split; [apply ahead_refl|exists []; reflexivity].
    - destruct (Nat.eq_dec k (count q (tr ++ [(p, i)]))) as [->|Hne].
      + exists (tr ++ [(p, i)]), st'. split; [econstructor; eauto|]. split; [reflexivity|]. split; [lia|]. split; [apply ahead_refl|].
        exists []. symmetry. apply app_nil_r.
      + rewrite count_snoc in Hk, Hne.
        destruct (runs_good tr st H) as [hist G].
        destruct (exec_good hist st p i st' G (decided_calm _ _ _ Hd) Hx) as (Hp & th' & L' & -> & C & _).
        destruct st as [L thr]. cbn [st_thr st_store] in *.
        destruct IH as (tr0 & st0 & H0 & E0 & Hl & Ha & rest & Er); [destruct (p =? q); lia|].
        exists tr0, st0. split; [exact H0|]. split; [exact E0|]. split; [rewrite app_length; lia|]. split.
        * unfold set_thr. destruct (Nat.eqb_spec q p) as [->|]; [|exact Ha]. eapply ahead_trans; [exact Ha|]. eapply step_ahead; eauto.
        * rewrite own_snoc, Er, <- app_assoc. eauto.
  Qed.

  Lemma exec_other : forall p i st st' q, exec_l p i st = Some st' -> q <> p -> st_thr st' q = st_thr st q.
  Proof.
    intros p i st st' q H Hq. unfold exec in H. destruct ((1 <=? p) && (p <=? n)); [|discriminate].
    destruct (tstep_l p i (st_thr st p) (st_store st)) as [[th s1]|]; [|discriminate]. injection H as <-. cbn [st_thr].
    unfold set_thr. destruct (Nat.eqb_spec q p); [contradiction|reflexivity].
  Qed.

  Lemma awaits_peer : forall p th L i th' L' y, i <> ICrash -> tcase p th L i th' L' -> awaits p th = Some y -> peer_role p y.
  Proof.
    intros p th L i th' L' y Hi C Hy. unfold awaits in Hy. destruct C as [x rest out L1 Et Ed|Et Hnf
      |v x ss r hs t k h L1 Et Ep Hx Es Eh El|v x ss r hs t k h lost L1 Et Ep Hx Es Eh El Est
      |v x ss r hs t k h lost L1 Et Ep Hx Es Eh El Est
      |v x ss r hs t k h L1 Et Ep Hx Es Eh El|b l m x ss r hs h L1 Et Ep Hx Es Eh El Hl
      |x ss r hs P0 k h L1 Et Ep Hx Es Eh El
      |b l ss hs pl L1 Et Ep Ec Hl Ea
      |b l x h m pend own L1 Et Ep El|b l x h m pend own lost L1 Et Ep El Est
      |b l x h m pend own lost L1 Et Ep El Est
      |b l own Et Ep|ss hs Et Ep Ee
      |a r hs h L1 Et Ep Ea El|a r hs h Et Ep Ea El
      |a r hs h L1 Et Ep Ea Er El|a r hs h Et Ep Ea Er El|a r hs h L1 Et Ep Ea Er El
      |a r hs Et Ep Ea Er]; rewrite Et in Hy;
      try rewrite Ep in Hy; try discriminate; try congruence; rewrite Es in Hy; congruence.
  Qed.

  Lemma same_count_len : forall m trA stA trB stB, length trA + length trB <= m -> runs_l trA stA -> runs_l trB stB ->
    forall p, 1 <= p <= n -> count p trA = count p trB -> st_thr stA p = st_thr stB p /\ own p trA = own p trB.
  Proof.
    induction m as [m IH] using lt_wf_ind. intros trA stA trB stB Hm HA HB p Hp Hc.
    inversion HA as [|trA' sA' pA iA sA HA' HdA HxA]; subst.
    - inversion HB as [|trB' sB' pB iB sB HB' HdB HxB]; subst; [auto|].
      rewrite count_snoc in Hc. destruct (Nat.eqb_spec pB p) as [->|Hne]; [cbn in Hc; lia|].
      rewrite (exec_other pB iB sB' stB p HxB) by congruence. rewrite own_snoc. destruct (Nat.eqb_spec pB p); [contradiction|].
      rewrite app_nil_r. apply (IH (length trB')) with (trA := []); auto; [rewrite app_length in Hm; cbn in Hm; lia|cbn in *; lia].
    - destruct (Nat.eqb_spec pA p) as [->|Hne].
      2: { rewrite count_snoc in Hc. rewrite (exec_other pA iA sA' stA p HxA) by congruence. rewrite own_snoc.
           destruct (Nat.eqb_spec pA p); [contradiction|]. rewrite app_nil_r. rewrite app_length in Hm. cbn in Hm.
           apply (IH (length trA' + length trB)) with (trB := trB); auto; lia. }
      inversion HB as [|trB' sB' pB iB sB HB' HdB HxB]; subst.
      { rewrite count_snoc, Nat.eqb_refl in Hc. cbn in Hc. lia. }
      destruct (Nat.eqb_spec pB p) as [->|Hne].
      2: { rewrite (count_snoc p trB') in Hc. rewrite (exec_other pB iB sB' stB p HxB) by congruence. rewrite (own_snoc p trB').
           destruct (Nat.eqb_spec pB p); [contradiction|]. rewrite app_nil_r. rewrite !app_length in Hm. cbn in Hm.
           apply (IH (length (trA' ++ [(p, iA)]) + length trB')) with (trB := trB'); auto; rewrite ?app_length; cbn; lia. }
      rewrite !count_snoc, Nat.eqb_refl in Hc. rewrite !app_length in Hm. cbn in Hm.
      destruct (IH (length trA' + length trB') ltac:(lia) trA' sA' trB' sB' ltac:(lia) HA' HB' p Hp ltac:(lia)) as [Et Eo].
      destruct (runs_good _ _ HA') as [hA GA]. destruct (runs_good _ _ HB') as [hB GB].
      destruct (exec_good hA sA' p iA stA GA (decided_calm _ _ _ HdA) HxA) as (_ & thA & LA' & -> & CA & _).
      destruct (exec_good hB sB' p iB stB GB (decided_calm _ _ _ HdB) HxB) as (_ & thB & LB' & -> & CB & _).
      cbn [st_thr]. rewrite !set_here, !own_snoc, Nat.eqb_refl.
      destruct sA' as [LA thrA], sB' as [LB thrB]. cbn [st_thr st_store] in *.
      destruct (local_step hA LA thrA p iA thA LA' GA Hp HdA CA) as (EiA & wA & WA & NA).
      destruct (local_step hB LB thrB p iB thB LB' GB Hp HdB CB) as (EiB & wB & WB & NB).
      assert (Ew : wA = wB).
      { unfold comes in WA, WB. rewrite Et in WA. destruct (awaits p (thrB p)) as [x|] eqn:Ea; [|congruence].
        destruct WA as [WA1 WA2], WB as [WB1 WB2].
        destruct wA as [v|]; [|congruence]. destruct wB as [w|]; [|congruence]. f_equal.
        assert (Hx : 1 <= x <= n).
        { apply (awaits_peer p (thrB p) LB iB thB LB' x (decided_calm _ _ _ HdB) CB Ea). }
        unfold incoming in WA2, WB2.
        eapply (comparable_outs (t_log (thrA x)) (t_log (thrB x))); [|symmetry; exact WA2|symmetry; exact WB2].
        destruct (le_dec (count x trA') (count x trB')) as [Hle|Hle].
        - left. destruct (at_count trB' _ x (count x trA') HB' Hx Hle) as (tr0 & st0 & H0 & E0 & Hl0 & [Ha _] & _).
          destruct (IH (length trA' + length tr0) ltac:(lia) trA' _ tr0 st0 ltac:(lia) HA' H0 x Hx (eq_sym E0)) as [E1 _].
          cbn [st_thr] in *. rewrite E1. exact Ha.
        - right. destruct (at_count trA' _ x (count x trB') HA' Hx ltac:(lia)) as (tr0 & st0 & H0 & E0 & Hl0 & [Ha _] & _).
          destruct (IH (length tr0 + length trB') ltac:(lia) tr0 st0 trB' _ ltac:(lia) H0 HB' x Hx E0) as [E1 _].
          cbn [st_thr] in *. rewrite <- E1. exact Ha. }
      rewrite Et, Ew in NA. split; [congruence|]. rewrite Eo. rewrite EiA, EiB, Et. reflexivity.
  Qed.

  (** The state of a role depends only on how many steps it has made. *)
  Theorem same_count : forall trA stA trB stB p, runs_l trA stA -> runs_l trB stB -> 1 <= p <= n ->
    count p trA = count p trB -> st_thr stA p = st_thr stB p /\ own p trA = own p trB.
  Proof. intros trA stA trB stB p HA HB. eapply same_count_len; eauto. Qed.

  Theorem fewer_steps : forall trA stA trB stB p, runs_l trA stA -> runs_l trB stB -> 1 <= p <= n ->
    count p trA <= count p trB -> ahead (st_thr stA p) (st_thr stB p) /\ exists rest, own p trB = own p trA ++ rest.
  Proof.
    intros trA stA trB stB p HA HB Hp Hc. destruct (at_count trB stB p _ HB Hp Hc) as (tr0 & st0 & H0 & E0 & _ & Ha & Hr).
    destruct (same_count trA stA tr0 st0 p HA H0 Hp (eq_sym E0)) as [-> ->]. auto.
  Qed.

  (** ** What one run can do, another run can do, unless it is behind *)

  Lemma callable_true : forall p x, peer_role p x -> callable n p x = true.
  Proof.
    intros p x [H1 H2]. unfold callable. rewrite !andb_true_iff, negb_true_iff, Nat.eqb_neq, !Nat.leb_le. lia.
  Qed.

  Lemma can_too : forall hist L thr p i th' LB LB', good hist (State L thr) -> 1 <= p <= n -> i <> ICrash ->
    tcase p (thr p) LB i th' LB' -> (forall r, t_prog th' = PFin r -> r = ROk) ->
    (forall x, awaits p (thr p) = Some x -> incoming p x (thr p) (t_log (thr x)) <> None) ->
    (forall a hs x, t_trash (thr p) = [] -> t_prog (thr p) = PClose a (field_pos p x) hs -> n - 1 <= a -> peer_role p x ->
       t_round (thr x) = t_round (thr p) /\ (told (thr x) (field_pos x p) \/ over (thr x))) ->
    tstep_l p i (thr p) L <> None.
  Proof.
    intros hist L thr p i th' LB LB' G Hp Hi C Hok Hin Htold.
    pose proof (o_inv _ _ G) as I. pose proof (o_r _ _ G) as R. cbn [st_store st_thr] in I, R.
    pose proof (r_thr _ _ _ _ _ R p Hp) as [Hle HR].
    assert (Hrecv : forall x ss r hs P k h, t_trash (thr p) = [] -> t_prog (thr p) = PRun ss (SRole x r) hs -> peer_role p x ->
              nth_error ss (field_pos p x) = Some (Rcv P k) -> nth_error hs (field_pos p x) = Some h -> lk_recv h L <> GotWait).
    { intros x ss r hs P k h Et Ep Hx Es Eh Hw.
      destruct (run_field n branch labels hist L thr p ss _ hs x _ h Hp I R Ep Hx Es Eh) as (-> & Hl & Ht & _).
      unfold MeshRounds.hnd in Hw. unfold lk_recv in Hw. rewrite Ht in Hw. cbn [is_rcv andb] in Hw.
      destruct (pending (lk L (lnk (t_round (thr p)) p x)) (p <? x)) as [[[v c] t]|] eqn:Epd; [discriminate Hw|].
      assert (Ea : awaits p (thr p) = Some x) by (unfold awaits; rewrite Et, Ep, Es; reflexivity).
      apply (Hin x Ea). unfold incoming.
      assert (Hh : In (hnd (t_round (thr p)) p x) (held (t_prog (thr p)))) by (rewrite Ep; eapply nth_error_In; exact Eh).
      destruct (d_sync _ _ _ _ _ _ _ (o_d _ _ G) (t_round (thr p)) p x Hp Hx (held_kept n branch labels L thr p _ Hp I Hh)) as [Ho _].
      cbn [st_thr st_store] in Ho. rewrite Ho, (tow_pend _ _ Epd), app_nil_r. apply nth_error_None. lia. }
    unfold tstep.
    destruct C as [x rest out L1 Et Ed|Et Hnf
      |v x ss r hs t k h L1 Et Ep Hx Es Eh El|v x ss r hs t k h lost L1 Et Ep Hx Es Eh El Est
      |v x ss r hs t k h lost L1 Et Ep Hx Es Eh El Est
      |v x ss r hs t k h L1 Et Ep Hx Es Eh El|b l m x ss r hs h L1 Et Ep Hx Es Eh El Hl
      |x ss r hs P0 k h L1 Et Ep Hx Es Eh El
      |b l ss hs pl L1 Et Ep Ec Hl Ea
      |b l x h m pend own L1 Et Ep El|b l x h m pend own lost L1 Et Ep El Est
      |b l x h m pend own lost L1 Et Ep El Est
      |b l own Et Ep|ss hs Et Ep Ee
      |a r hs h L1 Et Ep Ea El|a r hs h Et Ep Ea El
      |a r hs h L1 Et Ep Ea Er El|a r hs h Et Ep Ea Er El|a r hs h L1 Et Ep Ea Er El
      |a r hs Et Ep Ea Er]; try (exfalso; discriminate (Hok _ eq_refl)); rewrite Et; try rewrite Ep; try (rewrite Ep in HR).
    Ltac cfield Hx Es Eh := rewrite callable_true, comm_field_pos by (auto; destruct Hx; lia); rewrite Es, Eh.
    Ltac dsend := cbn [op_send link_ops];
      match goal with |- context [lk_send ?h ?v ?m ?t ?L] => unfold lk_send; destruct h as [[? ?] ?] end;
      repeat match goal with |- context [if ?b then _ else _] => destruct b end; discriminate.
    Ltac drecv H := cbn [op_recv link_ops];
      match goal with |- context [match ?e with Got _ _ _ _ => _ | GotErr _ => _ | GotWait => _ | GotBad => _ end] =>
        destruct e as [[|] [|]| | |] eqn:Er end; try discriminate; try congruence;
      repeat match goal with |- context [if ?b then _ else _] => destruct b end; discriminate.
    - cbn [op_drop link_ops]. destruct (lk_drop x L). discriminate.
    - cfield Hx Es Eh. unfold do_send. dsend.
    - cfield Hx Es Eh. unfold do_send. dsend.
    - cfield Hx Es Eh. unfold do_recv. pose proof (Hrecv _ _ _ _ _ _ _ Et Ep Hx Es Eh). drecv H.
    - cfield Hx Es Eh. rewrite Nat.eqb_refl. unfold do_offer. pose proof (Hrecv _ _ _ _ _ _ _ Et Ep Hx Es Eh). drecv H.
    - rewrite Ec. destruct (Nat.ltb_spec l (labels b)); [|lia]. destruct (make_choice _ _ _ _ _ _ _ _) as [[pr s1]|]; discriminate.
    - unfold do_choose_send. dsend.
    - unfold do_choose_send. dsend.
    - discriminate.
    - rewrite Ee. discriminate.
    - (* tell *)
      unfold do_close. rewrite Ea. cbn [op_tell link_ops]. destruct (lk_tell h Stop L) eqn:Etl; try discriminate. exfalso.
      destruct HR as (-> & _). destruct (mesh_field n _ _ _ _ Hp Ea) as (x & Hx & -> & ->).
      assert (Hl : lnk (t_round (thr p)) p x < lnext L).
      { destruct (live_link n branch labels L thr p (hnd (t_round (thr p)) p x) Hp I) as [H _]; [|exact H].
        unfold all_of. rewrite Ep. apply in_or_app. left. apply in_mesh; assumption. }
      unfold MeshRounds.hnd in Etl. unfold lk_tell in Etl. cbn [andb] in Etl.
      destruct (is_fin _); [|discriminate]. destruct (l_rx _ _); [|discriminate].
      destruct (l_sig (lk L (lnk (t_round (thr p)) p x)) (p <? x)) eqn:Es; [|discriminate].
      destruct (s_sent _ _ _ (o_s _ _ G) (t_round (thr p)) p x Hp Hx Hl) as [_ H]; [cbn [st_store]; congruence|].
      cbn [st_thr] in H. unfold told, over in H. rewrite Ep in H. destruct H; [lia|contradiction].
    - (* hear *)
      unfold do_close. rewrite Ea, Er. cbn [op_hear link_ops]. destruct (lk_hear h L) as [[]| | |] eqn:Ehr; try discriminate. exfalso.
      destruct HR as (-> & _). destruct (mesh_field n _ _ _ _ Hp Er) as (x & Hx & -> & ->).
      apply nth_error_None in Ea. unfold MeshRounds.mesh in Ea. rewrite meshb_length in Ea.
      destruct (Htold a (mesh (t_round (thr p)) p) x Et Ep Ea Hx) as [Eg Ht].
      destruct (peer_sym n p x Hp Hx) as [Hx' Hxp].
      assert (Hto : told (thr x) (field_pos x p)).
      { destruct Ht as [Ht|Ht]; [exact Ht|]. unfold over in Ht. unfold told. destruct (t_prog (thr x)) as [| | |res|] eqn:Epx; try contradiction.
        rewrite (c_ok _ _ _ (o_c _ _ G) x res Hx' Epx). exact Logic.I. }
      assert (Hh : In (hnd (t_round (thr p)) p x) (held (t_prog (thr p)))) by (rewrite Ep; apply in_mesh; assumption).
      pose proof (s_kept _ _ _ (o_s _ _ G) (t_round (thr p)) p x Hp Hx (held_kept n branch labels L thr p _ Hp I Hh) Eg Hto) as Hs.
      cbn [st_thr st_store] in Hs. rewrite (side_other p x) in Hs by (destruct Hx; congruence).
      unfold MeshRounds.hnd in Ehr. unfold lk_hear in Ehr. cbn [andb] in Ehr. destruct (is_fin _); [|discriminate].
      rewrite Hs in Ehr; [discriminate|]. intros [_ H]. unfold heard in H. rewrite Ep in H. lia.
    - unfold do_close. rewrite Ea, Er. discriminate.
  Qed.

  (** A complete run cannot be passed. *)
  Theorem complete_last : forall trA stA trB stB, runs_l trA stA -> complete link_ops n branch labels strict f stA ->
    runs_l trB stB -> forall p, 1 <= p <= n -> count p trB <= count p trA.
  Proof.
    intros trA stA trB stB HA Hc HB. induction HB as [|tr st p i st' H IH Hd Hx]; intros q Hq; [cbn; lia|].
    rewrite count_snoc. specialize (IH q Hq) as Hq'. destruct (Nat.eqb_spec p q) as [->|]; [|lia].
    destruct (le_lt_eq_dec _ _ Hq') as [Hlt|Heq]; [lia|]. exfalso.
    destruct (same_count trA stA tr st q HA H Hq (eq_sym Heq)) as [Et _].
    destruct (runs_good _ _ HA) as [hA GA]. destruct (runs_good _ _ H) as [hB GB].
    destruct (exec_good hB st q i st' GB (decided_calm _ _ _ Hd) Hx) as (_ & th' & LB' & -> & C & GB').
    destruct stA as [LA thrA], st as [LB thrB]. cbn [st_thr st_store] in *.
    specialize (Hc q i). cbn [st_thr] in Hc. rewrite Et in Hc. specialize (Hc Hd).
    destruct (local_step hB LB thrB q i th' LB' GB Hq Hd C) as (Ei & w & W & _).
    assert (Hah : forall x, 1 <= x <= n -> ahead (thrB x) (thrA x)).
    { intros x Hx'. apply (fewer_steps tr (State LB thrB) trA (State LA thrA) x H HA Hx' (IH x Hx')). }
    assert (Hcan : tstep_l q i (thrA q) LA <> None).
    { rewrite <- Et in C. apply (can_too hA LA thrA q i th' LB LB' GA Hq (decided_calm _ _ _ Hd) C).
      - intros r E. apply (c_ok _ _ _ (o_c _ _ GB') q r Hq). cbn [st_thr]. rewrite set_here. exact E.
      - intros x Ex. pose proof (awaits_peer q _ _ _ _ _ x (decided_calm _ _ _ Hd) C Ex) as Hx'. destruct Hx' as [_ Hx'].
        unfold comes in W. rewrite <- Et, Ex in W. destruct W as [W1 W2]. destruct w as [v|]; [|congruence].
        unfold incoming in *. intros E. symmetry in W2. apply (pre_outs _ _ _ _ _ _ (proj1 (Hah x Hx'))) in W2. congruence.
      - intros a hs x Etr Ep Ha Hx'. destruct (peer_sym n q x Hq Hx') as [Hxn Hxq].
        assert (Hok : forall r, t_prog th' = PFin r -> r = ROk).
        { intros r E. apply (c_ok _ _ _ (o_c _ _ GB') q r Hq). cbn [st_thr]. rewrite set_here. exact E. }
        rewrite Et in Etr, Ep, C. pose proof (r_thr _ _ _ _ _ (o_r _ _ GB) q Hq) as [_ HR]. cbn [st_thr] in HR. rewrite Ep in HR.
        destruct HR as (Ehs & _).
        assert (Hlen : length hs = n - 1) by (rewrite Ehs; unfold MeshRounds.mesh; apply meshb_length).
        assert (Hl : l_sig (lk LB (lnk (t_round (thrB q)) q x)) (x <? q) <> None /\ lnk (t_round (thrB q)) q x < lnext LB).
        { destruct C; try (exfalso; discriminate (Hok _ eq_refl)); try congruence.
          - exfalso. assert (a0 < length hs0) by (apply nth_error_Some; congruence). rewrite Ep in H1. injection H1 as <- _ <-. lia.
          - rewrite Ep in H1. injection H1 as <- <- <-. pose proof (mesh_nth n (t_round (thrB q)) q x Hq Hx') as Hm. rewrite <- Ehs in Hm.
            rewrite Hm in H3. injection H3 as <-. destruct (hear_shape _ _ _ _ _ H4) as [Hs _].
            rewrite (side_other q x) by (destruct Hx'; congruence). split; [congruence|].
            destruct (live_link n branch labels LB thrB q (hnd (t_round (thrB q)) q x) Hq (o_inv _ _ GB)) as [H9 _]; [|exact H9].
            unfold all_of. rewrite Ep. apply in_or_app. left. cbn [held]. rewrite Ehs. apply in_mesh; assumption.
          - exfalso. rewrite Ep in H1. injection H1 as <- <- <-. apply nth_error_None in H3. pose proof (field_range n q x Hq Hx'). lia. }
        destruct Hl as [Hl1 Hl2]. rewrite (lnk_sym n) in Hl1, Hl2.
        destruct (s_sent _ _ _ (o_s _ _ GB) (t_round (thrB q)) x q Hxn Hxq Hl2 Hl1) as [Eg Ht]. cbn [st_thr] in Eg, Ht.
        destruct (proj2 (Hah x Hxn) (field_pos x q) (field_range n x q Hxn Hxq) Ht) as [E1 E2]. rewrite Et. split; [congruence|exact E2]. }
    unfold exec in Hc. cbn [st_thr st_store] in Hc. replace ((1 <=? q) && (q <=? n)) with true in Hc by (symmetry; apply andb_true_iff; rewrite !Nat.leb_le; lia).
    rewrite Et in Hcan, Hc. destruct (tstep_l q i (thrB q) LA) as [[? ?]|]; [discriminate Hc|apply Hcan; reflexivity].
  Qed.
End Det.
