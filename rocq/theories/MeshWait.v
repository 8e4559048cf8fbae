(** Where a role can wait: only in a receive and in close. *)
From Coq Require Import List Arith Bool Lia Permutation.
From Verif Require Import Types Diag DiagProofs Wiring WiringProofs Session Mesh MeshSpec Links LinksProofs Refine Sim
  MeshWire MeshInv MeshStep MeshKeep MeshSafe MeshRounds MeshRun MeshLog MeshReach Global MeshGlobal MeshSignal MeshProgress.
Import ListNotations.

(** A thread about to receive: from x a value or a branch of a choice. *)
Definition receiving {H} (p : nat) (th : @thread H) (x : nat) : Prop :=
  t_trash th = [] /\ exists ss r hs q k, t_prog th = PRun ss (SRole x r) hs /\ x <> p /\
    nth_error ss (comm_field p x - 1) = Some (Rcv q k) /\
    match q with PVal _ => True | PChoice _ j => j = p /\ k = End end.

(** A thread inside close that has sent all its signals and has not received all of them. *)
Definition closing {H} (n : nat) (th : @thread H) : Prop :=
  t_trash th = [] /\ exists a r hs, t_prog th = PClose a r hs /\ n - 1 <= a /\ r < n - 1.

Section Wait.
  Variable n : nat.
  Variable labels : nat -> nat.
  Variable strict : bool.
  Variable P : protocol.
  Hypothesis wf : wf_protocol n labels P.

  Notation branch := (branch_g n P).
  Notation lthread := (@thread handle).
  Notation inv := (inv n branch labels).
  Notation rinv := (rinv n labels).
  Notation ginv := (ginv n labels P).
  Notation sinv := (sinv n).
  Notation grnd := (grnd P).
  Notation peer_role := (peer_role n).
  Notation can := (can n labels strict P).

  Theorem waits_links : forall hist L thr p, inv L thr -> rinv hist L thr -> ginv hist thr -> 1 <= p <= n ->
    finished (thr p) \/ can L thr p \/ (exists x, 1 <= x <= n /\ receiving p (thr p) x) \/ closing n (thr p).
  Proof.
    intros hist L thr p I R G Hp.
    destruct (t_trash (thr p)) as [|y ys] eqn:Et.
    2:{ right. left. exists ITau. split; [discriminate|]. unfold tstep. rewrite Et. cbn [op_drop link_ops]. destruct (lk_drop y L). discriminate. }
    pose proof (g_thr _ _ _ _ _ G p Hp) as HG. unfold gthr in HG.
    pose proof (r_thr _ _ _ _ _ R p Hp) as [Hle HR]. pose proof (i_prog _ _ _ _ _ I p Hp) as PO.
    destruct (t_prog (thr p)) as [ss r hs|b l pend own|a r hs|res|hs] eqn:Ep.
    - destruct HG as (pre & suf & E1 & E2 & E3 & E4). destruct HR as [-> _].
      set (g := t_round (thr p)) in *. pose proof (g_wf _ _ _ _ _ G g) as Wg.
      destruct suf as [|m suf].
      + destruct (snd (grnd hist g)) as [|c b] eqn:Ee.
        * right. left. exists ITau. split; [discriminate|]. unfold tstep. rewrite Et, Ep, E4. cbn [stack_of last_stack].
          rewrite E3, ends_last. discriminate.
        * unfold wf_round in Wg. rewrite Ee in Wg. destruct Wg as [_ [Hc Hlab]].
          destruct (Nat.eq_dec p c) as [<-|Hpc].
          -- right. left. exists (ILabel 0). split; [discriminate|]. unfold tstep. rewrite Et, Ep, E3, E4.
             cbn [stack_of last_stack]. rewrite Nat.eqb_refl, (choice_last n labels P wf). destruct (Nat.ltb_spec 0 (labels b)); [|lia].
             match goal with |- context [make_choice ?a ?b ?c ?d ?e ?f ?g ?h] => destruct (make_choice a b c d e f g h) as [[pr s1]|] end; discriminate.
          -- right. right. left. exists c. split; [exact Hc|]. split; [exact Et|].
             exists ss, SEnd, (MeshRounds.mesh n g p), (PChoice b p), End. split; [|split; [congruence|split; [|auto]]].
             ++ rewrite Ep, E4. cbn. destruct (Nat.eqb_spec p c); [contradiction|reflexivity].
             ++ rewrite comm_field_pos by lia. rewrite E3, sessions_nth by (auto; congruence). cbn [sess_of last_sess].
                destruct (Nat.eqb_spec p c); [contradiction|]. rewrite Nat.eqb_refl. reflexivity.
      + cbn in E2. set (e := snd (grnd hist g)) in *.
        assert (Hm : wf_message n m).
        { destruct Wg as [Wg _]. rewrite E1 in Wg. apply Forall_app in Wg. destruct Wg as [_ Wg]. inversion Wg; assumption. }
        destruct Hm as (Hfrom & Hinto & Hft).
        destruct (Nat.eq_dec (from m) p) as [Ef|Ef].
        * right. left. exists (IVal 0). split; [discriminate|]. unfold tstep. rewrite Et, Ep, E4.
          assert (Hx : peer_role p (into m)) by (split; [congruence|exact Hinto]).
          cbn [stack_of]. rewrite Ef, Nat.eqb_refl, callable_true, comm_field_pos by (auto; destruct Hx; lia).
          rewrite E3, (sessions_nth n p (into m)) by (auto; destruct Hx; congruence).
          assert (Hs : sess_of p (into m) (m :: suf) e = Snd (PVal (what m)) (sess_of p (into m) suf e)).
          { cbn [sess_of]. rewrite Ef, !Nat.eqb_refl. reflexivity. }
          rewrite Hs. destruct (nth_error (MeshRounds.mesh n g p) (field_pos p (into m))) as [h|] eqn:Eh.
          -- unfold do_send. cbn [op_send link_ops]. destruct h as [[l0 s0] f0]. unfold lk_send.
             destruct (f0 && is_snd (l_ty (lk L l0) s0)); [|discriminate].
             destruct (l_open (lk L l0) (negb s0)); [discriminate|]. destruct strict; discriminate.
          -- apply nth_error_None in Eh. unfold MeshRounds.mesh in Eh. rewrite meshb_length in Eh.
             pose proof (field_range n _ _ Hp Hx). lia.
        * unfold involves in E2. destruct (Nat.eqb_spec (from m) p); [contradiction|]. cbn in E2. apply Nat.eqb_eq in E2.
          set (x := from m) in *.
          right. right. left. exists x. split; [exact Hfrom|]. split; [exact Et|].
          exists ss, (stack_of p suf e), (MeshRounds.mesh n g p), (PVal (what m)), (sess_of p x suf e).
          split; [|split; [exact Ef|split; [|exact Logic.I]]].
          -- rewrite Ep, E4. cbn [stack_of]. fold x. destruct (Nat.eqb_spec x p); [contradiction|].
             rewrite E2, Nat.eqb_refl. reflexivity.
          -- rewrite comm_field_pos by lia. rewrite E3, sessions_nth by auto. f_equal.
             cbn [sess_of]. fold x. destruct (Nat.eqb_spec x p); [contradiction|]. rewrite Nat.eqb_refl, E2, Nat.eqb_refl. reflexivity.
    - right. left. exists ITau. split; [discriminate|]. unfold tstep. rewrite Et, Ep.
      destruct pend as [|[[x h] m] pend]; [discriminate|]. unfold do_choose_send. cbn [op_send link_ops].
      destruct h as [[l0 s0] f0]. unfold lk_send. destruct (f0 && is_snd (l_ty (lk L l0) s0)); [|discriminate].
      destruct (l_open (lk L l0) (negb s0)); [discriminate|]. destruct strict; discriminate.
    - destruct HR as (-> & _ & _). cbn in PO. destruct PO as (_ & _ & PT & PQ). set (g := t_round (thr p)) in *.
      destruct (nth_error (MeshRounds.mesh n g p) a) as [h|] eqn:Ea.
      + right. left. exists ITau. split; [discriminate|]. unfold tstep. rewrite Et, Ep. unfold do_close. rewrite Ea. cbn [op_tell link_ops].
        destruct (mesh_field n _ _ _ _ Hp Ea) as (x & Hx & -> & ->).
        assert (Hq : quiet L (MeshRounds.hnd n g p x)).
        { rewrite (skipn_cons _ _ _ _ Ea) in PQ. inversion PQ; assumption. }
        unfold quiet, MeshRounds.hnd in Hq. unfold MeshRounds.hnd, lk_tell. rewrite Hq.
        destruct (true && is_fin (l_ty (lk L (MeshRounds.lnk n g p x)) (p <? x))); [|discriminate].
        destruct (l_rx (lk L (MeshRounds.lnk n g p x)) (negb (p <? x))); discriminate.
      + apply nth_error_None in Ea as Ea'. unfold MeshRounds.mesh in Ea'. rewrite meshb_length in Ea'.
        destruct (lt_dec r (n - 1)) as [Hr|Hr].
        * right. right. right. split; [exact Et|]. exists a, r, (MeshRounds.mesh n g p). auto.
        * right. left. exists ITau. split; [discriminate|]. unfold tstep. rewrite Et, Ep. unfold do_close. rewrite Ea.
          destruct (nth_error (MeshRounds.mesh n g p) r) as [h|] eqn:Er; [|discriminate].
          exfalso. assert (r < length (MeshRounds.mesh n g p)) as K by (apply nth_error_Some; congruence).
          unfold MeshRounds.mesh in K. rewrite meshb_length in K. lia.
    - left. split; [eauto|exact Et].
    - contradiction.
  Qed.
End Wait.
