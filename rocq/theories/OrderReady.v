(** Roles whose types can be followed in some order: somebody in the round of a role that has not returned, or in an
    earlier one, can go on, without crashes and along given branches (as in MeshProgress.v, for types that need not come
    from a global protocol). *)
From Coq Require Import List Arith Bool Lia Permutation.
From Verif Require Import Types Diag DiagProofs Wiring WiringProofs Session Mesh MeshSpec Links LinksProofs Refine Sim
  MeshWire MeshInv MeshStep MeshKeep MeshSafe MeshRounds MeshRun MeshLog MeshReach Global MeshGlobal MeshSignal MeshProgress OrderSpec OrderProofs MeshOrder.
Import ListNotations.

Section OReady.
  Variable n : nat.
  Variable branch : nat -> nat -> nat -> mty.
  Variable labels : nat -> nat.
  Variable strict : bool.
  Variable T : nat -> mty.
  Variable ok : (nat -> mty) -> Prop.
  Hypothesis ok_dual : forall R, ok R -> dual_mesh n R.
  Hypothesis ok_ordered : forall R, ok R -> ordered n labels R.

  Notation lthread := (@thread handle).
  Notation inv := (inv n branch labels).
  Notation rinv := (rinv n labels).
  Notation xinv := (xinv n branch labels T ok).
  Notation sinv := (sinv n).
  Notation peer_role := (peer_role n).
  Notation lnk := (lnk n).
  Notation hnd := (hnd n).
  Notation mesh := (mesh n).
  Notation tstep_l := (tstep link_ops n branch labels strict).
  Notation script_of := (script_of n labels).
  Notation RT := (round_types branch T).
  Notation settled_to := (MeshOrder.settled_to n).
  Notation settled_less := (MeshOrder.settled_less n).
  Notation holder_to := (MeshOrder.holder_to n branch labels).
  Notation running := MeshOrder.running.
  Notation recv_open := MeshOrder.recv_open.
  Notation not_ahead := (MeshOrder.not_ahead n branch labels).
  Notation at_rank := (at_rank n branch labels T).
  Notation has_rank := (has_rank n branch labels T ok).
  Notation script_begins := (script_begins n labels).
  Notation rest_nonempty := (rest_nonempty n labels).

  (** A step of a thread other than a crash. *)
  Definition can (L : links) (thr : nat -> lthread) (p : nat) : Prop :=
    exists i, i <> ICrash /\ tstep_l p i (thr p) L <> None.
  (** Role p can go on once it has nothing left to drop, along the branches of [pick]. *)
  Definition ready (pick : nat -> nat) (L : links) (thr : nat -> lthread) (p : nat) : Prop :=
    exists i, polite pick p (thr p) i /\ tstep_l p i (bare (thr p)) L <> None.

  Lemma ready_can : forall pick L thr p, ready pick L thr p -> t_trash (thr p) = [] -> can L thr p.
  Proof.
    intros pick L thr p (i & Hi & H) Et. exists i. split; [intros ->; exact Hi|].
    unfold bare in H. rewrite <- Et in H. destruct (thr p). exact H.
  Qed.

  Lemma unblock_ready : forall pick hist L thr, (forall b, 0 < labels b -> pick b < labels b) ->
    inv L thr -> rinv hist L thr -> xinv hist thr -> sinv L thr ->
    forall g, settled_to g thr -> forall p, 1 <= p <= n -> t_round (thr p) = g -> running (thr p) ->
    exists q, 1 <= q <= n /\ t_round (thr q) <= g /\ ready pick L thr q.
  Proof.
    intros pick hist L thr Hpick I R X S g. induction g as [g IHg] using lt_wf_ind. intros St.
    pose proof (ok_ordered _ (x_ok _ _ _ _ _ _ _ X g)) as (rank & O1 & O2 & O3).
    pose proof (ok_dual _ (x_ok _ _ _ _ _ _ _ X g)) as DM.
    destruct (bound_all rank (fun p => length (script_at n labels (RT hist g) p)) n) as [M HM].
    assert (HM' : forall p past rest, 1 <= p <= n -> script_of (RT hist g) p = Some (past ++ rest) -> rest <> [] -> rank p (length past) < M).
    { intros p past rest Hp E Hne. apply HM; [exact Hp|]. unfold script_at. rewrite E, app_length. destruct rest; [congruence|cbn; lia]. }
    assert (Main : forall k p, 1 <= p <= n -> t_round (thr p) = g -> at_rank hist rank M p (thr p) k -> exists q, 1 <= q <= n /\ t_round (thr q) <= g /\ ready pick L thr q).
    2: { intros p Hp Hg Hr. destruct (has_rank hist thr rank M p Hp X Hr) as [k Hk]. eauto. }
    induction k as [k IHk] using lt_wf_ind. intros p Hp Hg Hk.
    pose proof (r_thr _ _ _ _ _ R p Hp) as [Hle HR].
    (* a role that owns an end of round g *)
    assert (Hpeer : forall x y, 1 <= x <= n -> peer_role x y -> avail (hnd g x y) L = 1 ->
              (exists q, 1 <= q <= n /\ t_round (thr q) <= g /\ ready pick L thr q) \/
              t_round (thr x) = g /\ running (thr x) /\ forall kx, at_rank hist rank M x (thr x) kx -> k <= kx).
    { intros x y Hx Hy Ha. destruct (holder_to hist L thr I R g St x y Hx Hy Ha) as [H1 H2].
      destruct (le_lt_eq_dec _ _ H1) as [Hlt|Heq]; [left; destruct (IHg _ Hlt (settled_less g _ thr H1 St) x Hx eq_refl H2) as (q & Hq & Hle' & Hc); exists q; split; [exact Hq|split; [lia|exact Hc]]|].
      destruct (has_rank hist thr rank M x Hx X H2) as [kx Hkx].
      destruct (lt_dec kx k) as [Hlt|Hge]; [left; apply (IHk kx Hlt x); auto|].
      right. split; [exact Heq|]. split; [exact H2|]. intros k' Hk'. destruct (lt_dec k' k) as [Hlt|]; [|lia].
      unfold at_rank in Hkx, Hk'. destruct (t_prog (thr x)) as [ss r hs| | | |] eqn:Ep; try contradiction; [|lia].
      destruct Hkx as (past & rest & Sx & ->). destruct Hk' as (past' & rest' & Sx' & ->).
      destruct Sx as (A1 & A2 & _), Sx' as (B1 & B2 & _). rewrite A2 in B2. injection B2 as <-. rewrite A1 in B1. injection B1 as B1.
      apply app_inv_tail in B1. subst past'. lia. }
    unfold at_rank in Hk. destruct (t_prog (thr p)) as [ss r hs|b l pend own|a r hs|res|hs] eqn:Ep; try contradiction.
    - (* running *)
      destruct Hk as (past & rest & SD & ->). rewrite Hg in *. destruct HR as [-> _].
      pose proof SD as (S1 & S2 & S3). 
      (* waiting for x *)
      assert (Hwait : forall x a rest' P k', rest = a :: rest' -> waits a = Some x -> peer_role p x ->
                nth_error ss (field_pos p x) = Some (Rcv P k') -> lk_recv (hnd g p x) L = GotWait -> exists q, 1 <= q <= n /\ t_round (thr q) <= g /\ ready pick L thr q).
      { intros x a rest' P k' -> Hw Hx Es Er. destruct (peer_sym n p x Hp Hx) as [Hx' Hxp].
        pose proof (mesh_nth n g p x Hp Hx) as Eh. rewrite <- Hg in Eh.
        assert (Ep' : t_prog (thr p) = PRun ss r (mesh (t_round (thr p)) p)) by (rewrite Hg; exact Ep).
        destruct (run_field n branch labels hist L thr p ss r _ x _ _ Hp I R Ep' Hx Es Eh) as (_ & Hl & Ht & _).
        rewrite Hg in *.
        destruct (recv_open L _ _ ltac:(rewrite Ht; reflexivity) Er) as [Hpe Ho].
        pose proof (not_ahead L _ _ (i_wf _ _ _ _ _ I) (i_q _ _ _ _ _ I) Hl Hpe) as Hlen.
        rewrite <- (side_other p x) in Ho, Hlen by (destruct Hx; congruence).
        assert (Ha : avail (hnd g x p) L = 1).
        { unfold MeshRounds.hnd. rewrite (lnk_sym n). apply full_avail. auto. }
        destruct (Hpeer x p Hx' Hxp Ha) as [H|(Hgx & Hrx & Hkx)]; [exact H|].
        rewrite Ht in Hlen. pose proof (S3 x Hx) as Hcp. rewrite (nth_error_nth _ _ End Es) in Hcp.
        pose proof (r_thr _ _ _ _ _ R x Hx') as [_ HRx]. pose proof (i_prog _ _ _ _ _ I x Hx') as POx.
        unfold running in Hrx. unfold at_rank in Hkx.
        destruct (t_prog (thr x)) as [ssx rx hsx| |ax rx hsx| |] eqn:Epx; try contradiction.
        - exfalso. destruct (x_run _ _ _ _ _ _ _ X x _ _ _ Hx' Epx) as (pastx & restx & SX). pose proof SX as (X1 & X2 & X3). rewrite Hgx in *.
          specialize (Hkx _ ltac:(eauto)). destruct HRx as [Ehx _].
          pose proof (field_range n x p Hx' Hxp) as Hf.
          assert (Hlx : length ssx = n - 1).
          { cbn in POx. destruct POx as (P1 & _ & P3). rewrite <- (Forall2_len _ _ _ _ _ P3). exact P1. }
          destruct (nth_error ssx (field_pos x p)) as [tx|] eqn:Esx; [|apply nth_error_None in Esx; lia].
          assert (Ehx' : nth_error hsx (field_pos x p) = Some (hnd g x p)) by (rewrite Ehx; apply mesh_nth; auto).
          destruct (run_field n branch labels hist L thr x ssx rx hsx p _ _ Hx' I R Epx Hxp Esx Ehx') as (_ & _ & Htx & _).
          rewrite Hgx, (lnk_sym n) in Htx. rewrite Htx in Hlen.
          pose proof (X3 p Hxp) as Hcx. rewrite (nth_error_nth _ _ End Esx) in Hcx.
          rewrite (proj2 DM p x Hp Hx' ltac:(destruct Hx; congruence)), slen_co in Hcp.
          destruct (O3 p _ (length past) a x _ Hp S1 ltac:(rewrite nth_error_app2, Nat.sub_diag by lia; reflexivity) Hw X1)
            as (j & a' & J1 & J2 & J3 & J4). rewrite upto_past in J3.
          destruct (le_lt_dec (length pastx) j) as [Hj|Hj].
          + destruct (le_lt_eq_dec _ _ Hj) as [Hj'|Hj']; [|subst j; lia].
            assert (rank x (length pastx) < rank x j); [|lia]. apply (O2 x _ _ _ Hx' X1). split; [exact Hj'|]. apply nth_error_Some. congruence.
          + pose proof (upto_mono p (pastx ++ restx) (Datatypes.S j) (length pastx) Hj) as Hm.
            rewrite (upto_S p j _ _ J1), J2, upto_past in Hm. lia.
        - exfalso. destruct HRx as [-> _]. cbn in POx. destruct POx as (_ & _ & POx & _). rewrite Forall_forall in POx.
          rewrite Hgx in POx. specialize (POx _ (in_mesh n g x p Hx' Hxp)). unfold lty, MeshRounds.hnd in POx.
          rewrite (lnk_sym n) in POx. rewrite POx in Hlen. cbn in Hlen. lia. }
      pose proof (script_begins _ _ _ _ S2) as B. inversion B as [x r' t k' rest' Hx Es Hk' E1 E2|x r' t k' rest' Hx Es Hk' E1 E2|x r' b Hx Es E1 E2|b Hc Hl E1 E2|He E1 E2]; subst.
      + (* send *)
        exists p. split; [exact Hp|]. split; [lia|]. exists (IVal 0). split; [exact Logic.I|]. unfold tstep, bare. cbn [t_trash t_prog]. rewrite Ep.
        rewrite callable_peer, comm_field_pos by (auto; destruct Hx; lia). rewrite Es, (mesh_nth n _ p x Hp Hx).
        unfold do_send. cbn [op_send link_ops]. unfold lk_send, MeshRounds.hnd.
        destruct (true && is_snd (l_ty (lk L (lnk (t_round (thr p)) p x)) (p <? x))); [|discriminate].
        destruct (l_open (lk L (lnk (t_round (thr p)) p x)) (negb (p <? x))); [discriminate|]. destruct strict; discriminate.
      + (* recv *)
        destruct (lk_recv (hnd (t_round (thr p)) p x) L) as [v cc y L1|L1| |] eqn:Er; [| |eapply Hwait; eauto; reflexivity|];
          (exists p; split; [exact Hp|]; split; [lia|]; exists ITau; split; [exact Logic.I|]; unfold tstep, bare; cbn [t_trash t_prog]; rewrite Ep;
           rewrite callable_peer, comm_field_pos by (auto; destruct Hx; lia); rewrite Es, (mesh_nth n _ p x Hp Hx);
           unfold do_recv; cbn [op_recv link_ops]; rewrite Er); try discriminate.
        destruct v; [|discriminate]. destruct cc; [|discriminate]. destruct (t0 =? t); discriminate.
      + (* offer *)
        destruct (lk_recv (hnd (t_round (thr p)) p x) L) as [v cc y L1|L1| |] eqn:Er; [| |eapply Hwait; eauto; reflexivity|];
          (exists p; split; [exact Hp|]; split; [lia|]; exists ITau; split; [exact Logic.I|]; unfold tstep, bare; cbn [t_trash t_prog]; rewrite Ep;
           rewrite callable_peer, comm_field_pos by (auto; destruct Hx; lia); rewrite Es, (mesh_nth n _ p x Hp Hx), Nat.eqb_refl;
           unfold do_offer; cbn [op_recv link_ops]; rewrite Er); try discriminate.
        destruct v; [discriminate|]. destruct ((b0 =? b) && (j =? p) && (l <? labels b)); discriminate.
      + (* choose *)
        exists p. split; [exact Hp|]. split; [lia|]. exists (ILabel (pick b)). split;
          [intros ss0 r0 hs0 b0 E0 E0'; rewrite Ep in E0; injection E0 as <- _ _; rewrite Hc in E0'; injection E0' as <-; reflexivity|].
        unfold tstep, bare. cbn [t_trash t_prog]. rewrite Ep, Hc.
        destruct (Nat.ltb_spec (pick b) (labels b)); [|specialize (Hpick b Hl); lia].
        destruct (make_choice link_ops n branch p b (pick b) (mesh (t_round (thr p)) p) L) as [[pr s1]|]; discriminate.
      + (* close *)
        exists p. split; [exact Hp|]. split; [lia|]. exists ITau. split; [exact Logic.I|]. unfold tstep, bare. cbn [t_trash t_prog]. rewrite Ep, He. discriminate.
    - (* closing *)
      rewrite Hg in *. subst k. destruct HR as (-> & _ & _).
      pose proof (i_prog _ _ _ _ _ I p Hp) as PO. rewrite Ep in PO. cbn in PO. destruct PO as (_ & _ & PT & PQ).
      assert (Hself : forall i, i = ITau -> do_close link_ops (bare (thr p)) a r (mesh g p) L <> None -> exists q, 1 <= q <= n /\ t_round (thr q) <= g /\ ready pick L thr q).
      { intros i -> H. exists p. split; [exact Hp|]. split; [lia|]. exists ITau. split; [exact Logic.I|]. unfold tstep, bare. cbn [t_trash t_prog]. unfold bare in H. rewrite Ep in H. rewrite Ep. exact H. }
      unfold do_close in Hself. cbn [op_tell op_hear link_ops] in Hself.
      destruct (nth_error (mesh g p) a) as [h|] eqn:Ea.
      + apply (Hself ITau eq_refl). destruct (mesh_field n _ _ _ _ Hp Ea) as (x & Hx & -> & ->).
        assert (Hq : quiet L (hnd g p x)).
        { rewrite (skipn_cons _ _ _ _ Ea) in PQ. inversion PQ; assumption. }
        unfold quiet, MeshRounds.hnd in Hq. unfold MeshRounds.hnd, lk_tell. rewrite Hq.
        destruct (true && is_fin (l_ty (lk L (lnk g p x)) (p <? x))); [|discriminate].
        destruct (l_rx (lk L (lnk g p x)) (negb (p <? x))); discriminate.
      + destruct (nth_error (mesh g p) r) as [h|] eqn:Er; [|apply (Hself ITau eq_refl); discriminate].
        destruct (mesh_field n _ _ _ _ Hp Er) as (x & Hx & -> & ->). destruct (peer_sym n p x Hp Hx) as [Hx' Hxp].
        destruct (lk_hear (hnd g p x) L) as [[|] L1| | |] eqn:El; try (apply (Hself ITau eq_refl); discriminate).
        clear Hself. unfold MeshRounds.hnd, lk_hear in El.
        destruct (true && is_fin (l_ty (lk L (lnk g p x)) (p <? x))); [|discriminate].
        destruct (l_sig (lk L (lnk g p x)) (negb (p <? x))) eqn:Esig; [discriminate|].
        destruct (l_open (lk L (lnk g p x)) (negb (p <? x))) eqn:Eo; [|discriminate].
        rewrite <- (side_other p x) in Esig, Eo by (destruct Hx; congruence).
        assert (Hl : lnk g p x < lnext L).
        { destruct (live_link n branch labels L thr p (hnd g p x) Hp I) as [H _]; [|exact H].
          unfold all_of. rewrite Ep. apply in_or_app. left. apply in_mesh; assumption. }
        assert (Ha : avail (hnd g x p) L = 1).
        { unfold MeshRounds.hnd. rewrite (lnk_sym n). apply full_avail. auto. }
        destruct (Hpeer x p Hx' Hxp Ha) as [H|(Hgx & Hrx & Hkx)]; [exact H|].
        unfold at_rank in Hkx. unfold running in Hrx.
        pose proof (r_thr _ _ _ _ _ R x Hx') as [_ HRx]. pose proof (i_prog _ _ _ _ _ I x Hx') as POx.
        destruct (t_prog (thr x)) as [ssx rx hsx| |ax rx hsx| |] eqn:Epx; try contradiction.
        * exfalso. destruct (x_run _ _ _ _ _ _ _ X x _ _ _ Hx' Epx) as (pastx & restx & SX). pose proof SX as (X1 & X2 & X3). rewrite Hgx in *.
          specialize (Hkx _ ltac:(eauto)). destruct (rest_nonempty _ _ _ _ X2) as (a0 & rest0 & ->).
          specialize (HM' x _ _ Hx' X1 ltac:(discriminate)). lia.
        * destruct HRx as [-> _]. rewrite Hgx in *. destruct (le_lt_dec ax (field_pos x p)) as [Hax|Hax].
          -- (* x can tell *)
             exists x. split; [exact Hx'|]. split; [lia|]. exists ITau. split; [exact Logic.I|]. unfold tstep, bare. cbn [t_trash t_prog]. rewrite Epx.
             unfold do_close. cbn [op_tell op_hear link_ops].
             destruct (nth_error (mesh g x) ax) as [h|] eqn:Eax.
             ++ destruct (mesh_field n _ _ _ _ Hx' Eax) as (y & Hy & -> & ->).
                cbn in POx. destruct POx as (_ & _ & _ & PQx). rewrite (skipn_cons _ _ _ _ Eax) in PQx.
                assert (Hq : quiet L (hnd g x y)) by (inversion PQx; assumption).
                unfold quiet, MeshRounds.hnd in Hq. unfold MeshRounds.hnd, lk_tell. rewrite Hq.
                destruct (true && is_fin (l_ty (lk L (lnk g x y)) (x <? y))); [|discriminate].
                destruct (l_rx (lk L (lnk g x y)) (negb (x <? y))); discriminate.
             ++ exfalso. apply nth_error_None in Eax. unfold MeshRounds.mesh in Eax. rewrite meshb_length in Eax.
                pose proof (field_range n x p Hx' Hxp). lia.
          -- exfalso. assert (Hsig : l_sig (lk L (lnk g p x)) (x <? p) = Some Stop).
             { apply (s_kept _ _ _ S g p x Hp Hx).
               - apply (held_kept n branch labels L thr p _ Hp I). rewrite Ep. apply in_mesh; assumption.
               - exact Hgx.
               - unfold told. rewrite Epx. exact Hax.
               - intros [_ H]. unfold heard in H. rewrite Ep in H. lia. }
             congruence.
  Qed.
End OReady.
