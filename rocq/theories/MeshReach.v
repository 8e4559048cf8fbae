(** The invariants hold in every reachable state; what this says about the concrete machine. *)
From Coq Require Import List Arith Bool Lia Permutation.
From Verif Require Import Types Diag DiagProofs Wiring WiringProofs Session Mesh MeshSpec Links LinksProofs Refine Sim
  MeshWire MeshInv MeshStep MeshKeep MeshSafe MeshRounds MeshRun MeshLog.
Import ListNotations.

Section Reach.
  Variable n : nat.
  Variable branch : nat -> nat -> nat -> mty.
  Variable labels : nat -> nat.
  Variable strict : bool.
  Hypothesis branch_dual : forall b l, l < labels b -> dual_mesh n (branch b l).
  Variable T : nat -> mty.
  Hypothesis T_dual : dual_mesh n T.

  Notation lthread := (@thread handle).
  Notation tcase := (tcase n branch labels strict).
  Notation inv := (inv n branch labels).
  Notation rinv := (rinv n labels).
  Notation dinv := (dinv n branch labels T).
  Notation peer_role := (peer_role n).
  Notation init_l := (init link_ops n T empty_links).
  Notation init_h := (init heap_ops n T empty_heap).
  Notation steps_l := (steps link_ops n branch labels strict).
  Notation steps_h := (steps heap_ops n branch labels strict).

  Lemma init_rinv : rinv [] (st_store init_l) (st_thr init_l).
  Proof.
    destruct (init_form n T T_dual) as (L & _ & Hn & Hnew & _ & -> & Hthr). constructor.
    - rewrite Hn. cbn. lia.
    - intros m Hm. destruct (Hnew m) as [t ->]; [lia|]. constructor.
      + intros v c t' [].
      + intros g c b l q H. destruct g; discriminate.
      + intros g p q s _ _ _ H. discriminate.
    - intros p Hp. rewrite Hthr by exact Hp. split; [cbn; lia|]. cbn. split; [reflexivity|]. intros b l. discriminate.
    - intros g c b l H. destruct g; discriminate.
  Qed.

  Lemma init_dinv : dinv [] (st_store init_l) (st_thr init_l).
  Proof.
    destruct (init_form n T T_dual) as (L & _ & Hn & Hnew & Hty & -> & Hthr). constructor.
    - intros p g x Hp _. rewrite Hthr by exact Hp. reflexivity.
    - intros g p q Hp Hq Hk. destruct (peer_sym n p q Hp Hq) as [Hq' _]. rewrite !Hthr by assumption. cbn [t_log evs flat_map].
      destruct Hk as [Hk _]. apply full_avail in Hk. destruct Hk as [Hm _].
      pose proof (lnk_range n g p q Hp Hq) as Hr. assert (g = 0) by nia. subst g.
      rewrite Hn in Hm. destruct (Hnew _ Hm) as [t Ht]. split; [rewrite Ht; symmetry; apply tow_nil; reflexivity|]. cbn [after]. f_equal.
      unfold decl. cbn [round_types]. rewrite <- (Hty p q Hp Hq') by (destruct Hq; congruence). reflexivity.
    - intros g p q Hp Hq. destruct (peer_sym n p q Hp Hq) as [Hq' _]. rewrite !Hthr by assumption. exists []. reflexivity.
    - intros g p q Hp Hq. rewrite Hthr by assumption. discriminate.
    - intros g p x d b l j Hp H. rewrite Hthr in H by assumption. contradiction.
  Qed.

  (** Any further invariant. *)
  Theorem reach_inv : forall (P : list (nat * inp) -> history -> links -> (nat -> lthread) -> Prop),
    P [] [] (st_store init_l) (st_thr init_l) ->
    (forall tr hist L thr p i th' L', 1 <= p <= n -> inv L thr -> rinv hist L thr -> dinv hist L thr -> P tr hist L thr ->
       tcase p (thr p) L i th' L' -> P (tr ++ [(p, i)]) (record p i (thr p) hist) L' (set_thr thr p th')) ->
    forall tr st, steps_l init_l tr st ->
      exists hist, inv (st_store st) (st_thr st) /\ rinv hist (st_store st) (st_thr st) /\
        dinv hist (st_store st) (st_thr st) /\ P tr hist (st_store st) (st_thr st).
  Proof.
    intros P H0 Hstep.
    assert (G : forall st0 tr st, steps_l st0 tr st -> forall tr0 hist,
              inv (st_store st0) (st_thr st0) -> rinv hist (st_store st0) (st_thr st0) ->
              dinv hist (st_store st0) (st_thr st0) -> P tr0 hist (st_store st0) (st_thr st0) ->
              exists hist', inv (st_store st) (st_thr st) /\ rinv hist' (st_store st) (st_thr st) /\
                dinv hist' (st_store st) (st_thr st) /\ P (tr0 ++ tr) hist' (st_store st) (st_thr st)).
    { intros st0 tr st H. induction H as [s|s0 p i s1 tr s2 Hx Hs IH]; intros tr0 hist I R D HP.
      - exists hist. rewrite app_nil_r. auto.
      - destruct s0 as [L thr]. cbn [st_store st_thr] in *.
        destruct (exec_case n branch labels strict branch_dual p i L thr s1 I Hx) as (Hp & th' & L' & -> & C).
        destruct (IH (tr0 ++ [(p, i)]) (record p i (thr p) hist)) as (hist' & H1 & H2 & H3 & H4); cbn [st_store st_thr].
        + eapply inv_case; eauto.
        + eapply rinv_case; eauto.
        + eapply dinv_case; eauto.
        + apply (Hstep tr0 hist L thr p i th' L'); assumption.
        + exists hist'. rewrite <- app_assoc in H4. auto. }
    intros tr st H. apply (G _ _ _ H [] []); [apply init_inv|apply init_rinv|apply init_dinv|exact H0]; assumption.
  Qed.

  Theorem reach_links : forall tr st, steps_l init_l tr st ->
    exists hist, inv (st_store st) (st_thr st) /\ rinv hist (st_store st) (st_thr st) /\ dinv hist (st_store st) (st_thr st).
  Proof.
    intros tr st H. destruct (reach_inv (fun _ _ _ _ => True) Logic.I (fun _ _ _ _ _ _ _ _ _ _ _ _ _ _ => Logic.I) tr st H)
      as (hist & H1 & H2 & H3 & _). eauto.
  Qed.

  (** The same for the concrete machine. *)
  Theorem reach_heap : forall tr sh, steps_h init_h tr sh ->
    exists hist sl e, steps_l init_l tr sl /\ follows n e sh sl /\
      inv (st_store sl) (st_thr sl) /\ rinv hist (st_store sl) (st_thr sl) /\ dinv hist (st_store sl) (st_thr sl).
  Proof.
    intros tr sh H. destruct (steps_follow n branch labels strict branch_dual T tr sh T_dual H) as (sl & Hs & _ & e & F).
    destruct (reach_links tr sl Hs) as (hist & H1 & H2 & H3). exists hist, sl, e. auto.
  Qed.

  Lemma in_evs_send : forall g x v log, In (EvSend g x v) log -> In (true, v) (evs g x log).
  Proof.
    intros g x v log H. unfold evs. apply in_flat_map. exists (EvSend g x v). split; [exact H|].
    cbn. rewrite !Nat.eqb_refl. left; reflexivity.
  Qed.
  Lemma in_evs_recv : forall g x v log, In (EvRecv g x v) log -> In (false, v) (evs g x log).
  Proof.
    intros g x v log H. unfold evs. apply in_flat_map. exists (EvRecv g x v). split; [exact H|].
    cbn. rewrite !Nat.eqb_refl. left; reflexivity.
  Qed.

  Lemma dinv_faithful : forall hist L thr, dinv hist L thr -> faithful n branch labels T hist (fun p => t_log (thr p)).
  Proof.
    intros hist L thr D. constructor.
    - intros g p q Hp Hq Hne. apply (d_pre _ _ _ _ _ _ _ D); [exact Hp|]. split; [congruence|exact Hq].
    - intros g p q Hp Hq Hne. apply (d_typ _ _ _ _ _ _ _ D g p q); [exact Hp|]. split; [congruence|exact Hq].
    - intros g p x b l j Hp H. apply in_evs_send in H. exact (d_lab _ _ _ _ _ _ _ D g p x true b l j Hp H).
    - intros g p x b l j Hp H. apply in_evs_recv in H. exact (d_lab _ _ _ _ _ _ _ D g p x false b l j Hp H).
  Qed.

  Lemma faithful_ext : forall hist log log', (forall p, 1 <= p <= n -> log p = log' p) ->
    faithful n branch labels T hist log -> faithful n branch labels T hist log'.
  Proof.
    intros hist log log' E [A B C D]. constructor.
    - intros g p q Hp Hq Hne. rewrite <- !E by assumption. auto.
    - intros g p q Hp Hq Hne. rewrite <- !E by assumption. auto.
    - intros g p x b l j Hp. rewrite <- E by assumption. apply C; assumption.
    - intros g p x b l j Hp. rewrite <- E by assumption. apply D; assumption.
  Qed.

  (** Communication safety of the concrete machine. *)
  Theorem heap_faithful : forall tr sh, steps_h init_h tr sh ->
    exists hist, faithful n branch labels T hist (fun p => t_log (st_thr sh p)) /\
      (forall p, 1 <= p <= n -> t_round (st_thr sh p) <= length hist) /\
      (forall p hs, 1 <= p <= n -> t_prog (st_thr sh p) <> PStuck hs) /\
      (forall p ss r hs q, 1 <= p <= n -> 1 <= q <= n -> p <> q -> t_prog (st_thr sh p) = PRun ss r hs ->
         after labels (sess (round_types branch T hist (t_round (st_thr sh p))) p q)
                      (evs (t_round (st_thr sh p)) q (t_log (st_thr sh p))) = nth_error ss (field_pos p q)).
  Proof.
    intros tr sh H. destruct (reach_heap tr sh H) as (hist & sl & e & _ & [_ F] & I & R & D). exists hist. split; [|split; [|split]].
    - eapply faithful_ext; [|exact (dinv_faithful _ _ _ D)]. intros p Hp. rewrite (F p Hp). reflexivity.
    - intros p Hp. rewrite (F p Hp). cbn. apply (r_thr _ _ _ _ _ R p Hp).
    - intros p hs Hp E. rewrite (F p Hp) in E. cbn in E. pose proof (i_prog _ _ _ _ _ I p Hp) as P.
      destruct (t_prog (st_thr sl p)); try discriminate. exact P.
    - intros p ss r hs q Hp Hq Hne E. rewrite (F p Hp) in E |- *. cbn [map_thread t_prog t_round t_log] in *.
      destruct (t_prog (st_thr sl p)) as [ss0 r0 hs0| | | |] eqn:Ep; try discriminate. cbn in E. injection E as -> -> _.
      assert (Hpq : peer_role p q) by (split; [congruence|exact Hq]).
      pose proof (i_prog _ _ _ _ _ I p Hp) as P. rewrite Ep in P. cbn in P. destruct P as (P1 & P2 & P3).
      destruct (peer_field n p q Hp Hq Hne) as [Hk _].
      assert (Hk' : field_pos p q < length ss) by (rewrite <- (Forall2_len _ _ _ _ _ P3), P1; exact Hk).
      destruct (nth_error ss (field_pos p q)) as [t|] eqn:Es; [|apply nth_error_None in Es; lia].
      destruct (nth_error hs0 (field_pos p q)) as [h|] eqn:Eh; [|apply nth_error_None in Eh; lia].
      destruct (run_field n branch labels hist _ _ p ss r hs0 q t h Hp I R Ep Hpq Es Eh) as (-> & _ & <- & _).
      apply (d_sync _ _ _ _ _ _ _ D); [exact Hp|exact Hpq|].
      apply (held_kept n branch labels _ _ p _ Hp I). rewrite Ep. eapply nth_error_In; exact Eh.
  Qed.

  (** Close returns Ok only after everybody called close. *)
  Theorem heap_close : forall tr sh, steps_h init_h tr sh ->
    forall p, 1 <= p <= n -> t_prog (st_thr sh p) = PFin ROk ->
    forall q, 1 <= q <= n -> In EvClose (t_log (st_thr sh q)).
  Proof.
    intros tr sh H p Hp E q Hq. destruct (reach_heap tr sh H) as (hist & sl & e & _ & [_ F] & I & R & D).
    rewrite (F p Hp) in E. cbn in E. rewrite (F q Hq). cbn.
    pose proof (r_thr _ _ _ _ _ R p Hp) as [_ HR]. destruct (t_prog (st_thr sl p)) as [| | |res|]; try discriminate.
    cbn in E. injection E as ->. destruct HR as [H1 H2]. destruct (Nat.eq_dec q p) as [->|Hne]; [exact H1|].
    apply H2. split; assumption.
  Qed.
End Reach.
