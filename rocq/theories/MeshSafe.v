(** The whole session: typing invariant of every reachable state, and the concrete machine follows the
    specification machine. *)
From Coq Require Import List Arith Bool Lia Permutation.
From Verif Require Import Types Diag DiagProofs Wiring WiringProofs Session Mesh MeshSpec Links LinksProofs Refine Sim
  MeshWire MeshInv MeshStep MeshKeep.
Import ListNotations.

Section Safe.
  Variable n : nat.
  Variable branch : nat -> nat -> nat -> mty.
  Variable labels : nat -> nat.
  Variable strict : bool.
  Hypothesis branch_dual : forall b l, l < labels b -> dual_mesh n (branch b l).

  Notation lthread := (@thread handle).
  Notation tcase := (tcase n branch labels strict).
  Notation tinv := (tinv n branch labels).
  Notation prog_ok := (prog_ok n branch labels).
  Notation mesh_ok := (mesh_ok n).
  Notation queues_ok := (queues_ok n branch labels).
  Notation exec_l := (exec link_ops n branch labels strict).
  Notation exec_h := (exec heap_ops n branch labels strict).

  Definition everyone (thr : nat -> lthread) : list handle := flat_map (fun p => all_of (thr p)) (seq 1 n).
  Definition others (thr : nat -> lthread) (p : nat) : list handle :=
    flat_map (fun p => all_of (thr p)) (map (other p) (seq 1 (n - 1))).

  Record inv (L : links) (thr : nat -> lthread) : Prop := Inv {
    i_wf : wf_links L;
    i_q : queues_ok L;
    i_prog : forall p, 1 <= p <= n -> prog_ok L p (t_prog (thr p));
    i_lin : forall y, cnt y (everyone thr) + inside y L = avail y L
  }.

  Lemma everyone_split : forall thr p y, 1 <= p <= n ->
    cnt y (everyone thr) = cnt y (all_of (thr p)) + cnt y (others thr p).
  Proof.
    intros thr p y Hp. unfold everyone, others.
    rewrite <- (cnt_perm y _ _ (Permutation_flat_map (fun p => all_of (thr p)) (others_perm n p Hp))).
    cbn [flat_map]. apply cnt_app.
  Qed.

  Lemma others_set : forall thr p th, 1 <= p -> others (set_thr thr p th) p = others thr p.
  Proof.
    intros thr p th Hp. unfold others. rewrite !flat_map_concat_map, !map_map. f_equal. apply map_ext_in.
    intros j Hj. unfold set_thr. rewrite <- peer_other. destruct (Nat.eqb_spec (peer p j) p) as [E|_]; [|reflexivity].
    exfalso. exact (peer_neq p j E).
  Qed.

  Lemma others_in : forall thr p q y, 1 <= p <= n -> 1 <= q <= n -> q <> p -> In y (all_of (thr q)) ->
    In y (others thr p).
  Proof.
    intros thr p q y Hp Hq Hne Hy. unfold others. apply in_flat_map. exists q. split; [|exact Hy].
    assert (Hin : In q (p :: map (other p) (seq 1 (n - 1)))).
    { apply (Permutation_in q (Permutation_sym (others_perm n p Hp))). apply in_seq. lia. }
    destruct Hin as [E|Hin]; [congruence|exact Hin].
  Qed.

  Lemma inv_tinv : forall L thr p, 1 <= p <= n -> inv L thr -> tinv L p (thr p) (others thr p).
  Proof.
    intros L thr p Hp I. constructor; [apply I|apply I|apply I; exact Hp|].
    intros y. rewrite cnt_app, <- (everyone_split thr p y Hp). rewrite (i_lin _ _ I). lia.
  Qed.

  Lemma inv_case : forall L thr p i th' L', 1 <= p <= n -> inv L thr -> tcase p (thr p) L i th' L' ->
    inv L' (set_thr thr p th').
  Proof.
    intros L thr p i th' L' Hp I C. pose proof (inv_tinv L thr p Hp I) as TI.
    destruct (tcase_keep n branch labels strict branch_dual p i (thr p) L th' L' _ Hp TI C)
      as (W & Q & Hn & B & F & P).
    constructor; [exact W|exact Q| |].
    - intros q Hq. unfold set_thr. destruct (Nat.eqb_spec q p) as [->|Hne]; [exact P|].
      eapply prog_ok_frame; [apply I; exact Hq|exact F|]. intros y Hy.
      eapply owns_disjoint; [apply (ti_own _ _ _ _ _ _ _ TI)|]. eapply others_in; eauto.
      unfold all_of. apply in_or_app. left; exact Hy.
    - intros y. rewrite (everyone_split _ p y Hp), others_set by lia.
      unfold set_thr. rewrite Nat.eqb_refl.
      pose proof (i_lin _ _ I y) as H. rewrite (everyone_split _ p y Hp) in H. specialize (B y). lia.
  Qed.

  (** Steps of the specification machine. *)
  Lemma exec_case : forall p i L thr st', inv L thr -> exec_l p i (State L thr) = Some st' ->
    1 <= p <= n /\ exists th' L', st' = State L' (set_thr thr p th') /\ tcase p (thr p) L i th' L'.
  Proof.
    intros p i L thr st' I H. unfold exec in H.
    destruct ((1 <=? p) && (p <=? n)) eqn:E; [|discriminate].
    apply andb_true_iff in E. rewrite !Nat.leb_le in E. split; [lia|].
    cbn [st_thr st_store] in H. destruct (tstep _ _ _ _ _ p i (thr p) L) as [[th' L']|] eqn:Es; [|discriminate].
    injection H as <-. exists th', L'. split; [reflexivity|].
    eapply tcase_of; [exact branch_dual|lia|apply inv_tinv; [lia|exact I]|exact Es].
  Qed.

  Lemma exec_inv : forall p i L thr st', inv L thr -> exec_l p i (State L thr) = Some st' ->
    inv (st_store st') (st_thr st').
  Proof.
    intros p i L thr st' I H. destruct (exec_case p i L thr st' I H) as (Hp & th' & L' & -> & C).
    cbn. eapply inv_case; eauto.
  Qed.

  (** ** The initial state *)

  Lemma init_form : forall T, dual_mesh n T -> exists L,
    alloc link_ops (pair_types n (fork_vars n) T) empty_links =
      (map (fun i : nat => ((i, true, true), (i, false, true))) (seq 0 (npairs n)), L) /\
    lnext L = npairs n /\
    (forall m, m < npairs n -> exists t, lk L m = new_link t) /\
    (forall p q, 1 <= p <= n -> 1 <= q <= n -> p <> q -> lty L (hndb n 0 p q) = sess T p q) /\
    st_store (init link_ops n T empty_links) = L /\
    (forall p, 1 <= p <= n ->
       st_thr (init link_ops n T empty_links) p = Thread (PRun (fst (T p)) (snd (T p)) (meshb n 0 p)) [] 0 []).
  Proof.
    intros T HT. unfold init.
    destruct (alloc link_ops (pair_types n (fork_vars n) T) empty_links) as [pl L] eqn:Ea.
    destruct (new_mesh n (fork_vars n) T empty_links pl L (fork_vars_spec n) HT Ea)
      as (Hpl & Hn & _ & Hnew & Hty).
    cbn [lnext empty_links] in *. exists L. split; [rewrite <- Hpl; reflexivity|]. split; [exact Hn|].
    split; [intros m Hm; apply Hnew; lia|]. split; [exact Hty|]. split; [reflexivity|].
    intros p Hp. cbn [st_thr]. rewrite fork_mesh_spec by exact Hp. rewrite Hpl, pick_mesh by exact Hp. reflexivity.
  Qed.

  Lemma init_inv : forall T, dual_mesh n T ->
    inv (st_store (init link_ops n T empty_links)) (st_thr (init link_ops n T empty_links)).
  Proof.
    intros T HT. destruct (init_form T HT) as (L & Ea & Hn & Hnew & Hty & Est & Hthr).
    rewrite Est. destruct (alloc_bal _ _ _ _ Ea) as [W B]; [intros m Hm; cbn in Hm; lia|].
    constructor; [exact W| | |].
    - intros m Hm. destruct (Hnew m) as [t ->]; [lia|]. exact I.
    - intros p Hp. rewrite Hthr by exact Hp. cbn [t_prog prog_ok]. destruct HT as [H1 H2].
      apply (mesh_ok_new n L 0 T p Hp (H1 p Hp)). intros q Hq Hne. split; [apply Hty; auto|].
      unfold quiet, hndb. pose proof (idx_range n (min p q) (max p q) ltac:(lia) ltac:(lia) ltac:(lia)) as Hi.
      rewrite <- npairs_tri in Hi. destruct (Hnew (0 + (idx n (min p q) (max p q) - 1))) as [t ->]; [lia|]. reflexivity.
    - intros y.
      assert (B' : avail y L + inside y empty_links + cnt y [] = avail y empty_links + inside y L +
                   cnt y (flat (map (fun i : nat => ((i, true, true), (i, false, true))) (seq 0 (npairs n)))))
        by exact (B y).
      assert (HM : cnt y (everyone (st_thr (init link_ops n T empty_links))) =
                   cnt y (flat (map (fun i : nat => ((i, true, true), (i, false, true))) (seq 0 (npairs n))))).
      { transitivity (cnt y (flat_map (meshb n 0) (seq 1 n))).
        - unfold everyone. f_equal. rewrite !flat_map_concat_map. f_equal. apply map_ext_in.
          intros p Hp. apply in_seq in Hp. rewrite Hthr by lia. unfold all_of. cbn. apply app_nil_r.
        - symmetry. apply cnt_perm, mesh_perm. }
      rewrite HM. rewrite cnt_nil in B'.
      replace (avail y empty_links) with 0 in B' by (destruct y as [[m s] f]; reflexivity).
      replace (inside y empty_links) with 0 in B' by reflexivity. lia.
  Qed.

  (** ** The concrete machine follows *)

  Definition follows (e : nat -> bool -> ep) (sh : @state heap ep) (sl : @state links handle) : Prop :=
    (exists own, Rel e own (st_store sh) (st_store sl)) /\
    forall p, 1 <= p <= n -> st_thr sh p = map_thread (beta e) (st_thr sl p).

  Lemma exec_follows : forall p i e sh sl, inv (st_store sl) (st_thr sl) -> follows e sh sl ->
    match exec_h p i sh, exec_l p i sl with
    | Some sh', Some sl' => exists e', follows e' sh' sl'
    | None, None => True
    | _, _ => False
    end.
  Proof.
    intros p i e sh sl I [[own R] Ht]. unfold exec.
    destruct ((1 <=? p) && (p <=? n)) eqn:E; [|exact Logic.I].
    apply andb_true_iff in E. rewrite !Nat.leb_le in E. destruct E as [E1 E2].
    assert (Hp : 1 <= p <= n) by lia. pose proof (inv_tinv _ _ p Hp I) as TI.
    rewrite (Ht p Hp).
    assert (Hfull : forall y, In y (held (t_prog (st_thr sl p))) -> full y = true).
    { pose proof (i_prog _ _ I p Hp) as P. intros y Hy.
      destruct (t_prog (st_thr sl p)) as [ss r hs|b l pend own0|a r hs|res|hs]; cbn in P, Hy; try contradiction.
      - destruct P as (_ & P & _). rewrite Forall_forall in P. auto.
      - destruct P as (_ & (_ & P1 & _) & P2). rewrite Forall_forall in P1, P2.
        apply in_app_or in Hy. destruct Hy as [Hy|Hy]; [|auto].
        apply in_flat_map in Hy. destruct Hy as ([[q h] m] & Hin & Hy). specialize (P2 _ Hin). cbn in P2.
        destruct P2 as (Hf & _ & _ & _ & Hm & _). rewrite Forall_forall in Hm.
        destruct Hy as [<-|Hy]; auto.
      - destruct P as (_ & P & _). rewrite Forall_forall in P. auto. }
    pose proof (tstep_sim n branch labels strict e own (st_store sh) (st_store sl) (others (st_thr sl) p)
                  (st_thr sl p) p i R (i_wf _ _ I) (queues_fullq n branch labels _ (i_q _ _ I)) Hfull
                  (ti_own _ _ _ _ _ _ _ TI)) as HS.
    unfold step_rel in HS.
    destruct (tstep heap_ops n branch labels strict p i (map_thread (beta e) (st_thr sl p)) (st_store sh))
      as [[th1 h1]|];
      destruct (tstep link_ops n branch labels strict p i (st_thr sl p) (st_store sl)) as [[th2 L2]|];
      try contradiction; [|exact Logic.I].
    destruct HS as (e' & own' & R' & -> & Hsame). exists e'. split; [exists own'; exact R'|].
    intros q Hq. cbn. unfold set_thr. destruct (Nat.eqb_spec q p) as [->|Hne]; [reflexivity|].
    rewrite (Ht q Hq). apply map_thread_ext. intros y Hy. symmetry. apply Hsame. eapply others_in; eauto.
  Qed.

  Lemma init_follows : forall T, dual_mesh n T ->
    exists e, follows e (init heap_ops n T empty_heap) (init link_ops n T empty_links).
  Proof.
    intros T HT. destruct (init_form T HT) as (L & Ea & Hn & Hnew & Hty & Est & Hthr).
    destruct (alloc heap_ops (pair_types n (fork_vars n) T) empty_heap) as [ph h'] eqn:Eh.
    assert (R0 : Rel (fun _ _ => ERx 0) (fun _ => 0) empty_heap empty_links) by (intros l Hl; cbn in Hl; lia).
    assert (W0 : wf_links empty_links) by (intros l Hl; cbn in Hl; lia).
    assert (F0 : fullq empty_links) by (intros y Hy; cbn in Hy; unfold inside in Hy; cbn in Hy; lia).
    assert (O0 : owns empty_links []) by (intros y; rewrite cnt_nil; unfold inside; cbn; lia).
    destruct (sim_alloc _ _ _ _ _ [] R0 W0 F0 O0 ph h' _ L Eh Ea) as (e & own & R & _ & _ & Hp & _).
    exists e. split.
    - exists own. rewrite Est. unfold init. rewrite Eh. exact R.
    - intros p Hpr. rewrite Hthr by exact Hpr. unfold init. rewrite Eh. cbn [st_thr].
      rewrite fork_mesh_spec by exact Hpr.
      fold (@on_pairs handle ep (beta e)) in Hp. rewrite Hp.
      change (map (fun '(a, b) => (beta e a, beta e b))
               (map (fun i : nat => (i, true, true, (i, false, true))) (seq 0 (npairs n))))
        with (on_pairs (beta e) (map (fun i : nat => (i, true, true, (i, false, true))) (seq 0 (npairs n)))).
      rewrite pick_all_natural, pick_mesh by exact Hpr. reflexivity.
  Qed.

  (** Every execution of the concrete machine is one of the specification machine. *)
  Theorem steps_follow : forall T tr sh, dual_mesh n T ->
    steps heap_ops n branch labels strict (init heap_ops n T empty_heap) tr sh ->
    exists sl, steps link_ops n branch labels strict (init link_ops n T empty_links) tr sl /\
      inv (st_store sl) (st_thr sl) /\ exists e, follows e sh sl.
  Proof.
    intros T tr sh HT H. destruct (init_follows T HT) as [e F]. pose proof (init_inv T HT) as I.
    revert H F I. generalize (init heap_ops n T empty_heap) as s0. generalize (init link_ops n T empty_links) as t0.
    intros t0 s0 H. revert e t0.
    induction H as [s0|s0 p i s1 tr s2 Hx Hs IH]; intros e t0 F I.
    - exists t0. split; [constructor|]. split; [exact I|]. exists e. exact F.
    - pose proof (exec_follows p i e s0 t0 I F) as HE. rewrite Hx in HE.
      destruct (exec_l p i t0) as [t1|] eqn:Et; [|contradiction]. destruct HE as [e' F'].
      assert (I' : inv (st_store t1) (st_thr t1)).
      { destruct t0 as [L thr]. eapply exec_inv; eauto. }
      destruct (IH e' t1 F' I') as (sl & Hsl & HI & HF).
      exists sl. split; [econstructor; eauto|]. auto.
  Qed.
End Safe.
