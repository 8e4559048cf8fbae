(** The simulation of BinSim.v for whole executions, and the other direction for what can be done next. Proofs. *)
From Coq Require Import List Arith Bool Lia.
From Verif Require Import Types Diag DiagProofs Wiring WiringProofs Session Mesh MeshSpec Links LinksProofs Refine Sim MeshWire
  BinMesh BinSpec BinHeap BinWire BinSim.
Import ListNotations.

Section Reach.
  Variable n : nat.
  Variable branch : nat -> nat -> nat -> mty.
  Variable labels : nat -> nat.
  Variable make : nat -> nat -> nat -> list ep -> heap -> option (@prog ep * heap).
  Variable any_rest : bool.
  Hypothesis make_ok : makes n branch labels make.

  Notation bsteps0 := (bsteps heap_ops n branch labels false make any_rest).
  Notation esteps0 := (steps heap_ops n (enum_branch branch) labels false).

  Fixpoint total (w : nat -> nat) (k : nat) : nat := match k with 0 => 0 | S k' => total w k' + w (S k') end.
  Lemma total_set : forall w k p v, 1 <= p <= k -> total (fun q => if q =? p then v else w q) k + w p = total w k + v.
  Proof.
    intros w. assert (Hi : forall k p v, k < p -> total (fun q => if q =? p then v else w q) k = total w k).
    { induction k as [|k IH]; intros p v H; [reflexivity|]. cbn [total]. rewrite IH by lia. destruct (Nat.eqb_spec (S k) p); lia. }
    induction k as [|k IH]; intros p v H; [lia|]. cbn [total]. destruct (Nat.eq_dec p (S k)) as [->|Hne].
    - rewrite Hi by lia. rewrite Nat.eqb_refl. lia.
    - specialize (IH p v ltac:(lia)). destruct (Nat.eqb_spec (S k) p); lia.
  Qed.

  Record srel (s : nat -> nat) (P D : lates) (w : nat -> nat) (st : @bstate heap ep) (sl : @state heap ep) : Prop := Srel {
    sr_heap : hrel s P D (bs_store st) (st_store sl);
    sr_thr : forall q, 1 <= q <= n -> trel s P D (hnext (bs_store st)) (w q) (bs_thr st q) (st_thr sl q)
  }.

  Lemma steps_app : forall a t1 b t2 c, esteps0 a t1 b -> esteps0 b t2 c -> esteps0 a (t1 ++ t2) c.
  Proof. intros a t1 b t2 c H. induction H; intros H2; [exact H2|]. cbn. econstructor; eauto. Qed.

  (** Steps of one thread as steps of the session. *)
  Lemma ego_steps : forall p, 1 <= p <= n -> forall is sl th' g', ego n branch labels p is (st_thr sl p) (st_store sl) = Some (th', g') ->
    exists sl', esteps0 sl (map (pair p) is) sl' /\ st_store sl' = g' /\ st_thr sl' p = th' /\ forall q, q <> p -> st_thr sl' q = st_thr sl q.
  Proof.
    intros p Hp. induction is as [|i is IH]; intros sl th' g' E.
    - cbn in E. injection E as <- <-. exists sl. split; [constructor|]. auto.
    - cbn [ego] in E. destruct (tstep heap_ops n (enum_branch branch) labels false p i (st_thr sl p) (st_store sl)) as [[th1 g1]|] eqn:E1; [|discriminate].
      set (sl1 := State g1 (set_thr (st_thr sl) p th1)).
      assert (Ex : exec heap_ops n (enum_branch branch) labels false p i sl = Some sl1).
      { unfold exec. rewrite (proj2 (Nat.leb_le 1 p)), (proj2 (Nat.leb_le p n)) by lia. cbn [andb]. rewrite E1. reflexivity. }
      assert (Ep : st_thr sl1 p = th1) by (cbn; unfold set_thr; rewrite Nat.eqb_refl; reflexivity).
      destruct (IH sl1 th' g') as (sl' & H1 & H2 & H3 & H4); [rewrite Ep; exact E|].
      exists sl'. split; [cbn [map]; econstructor; eauto|]. split; [exact H2|]. split; [exact H3|].
      intros q Hq. rewrite H4 by exact Hq. cbn. unfold set_thr. destruct (Nat.eqb_spec q p); [congruence|reflexivity].
  Qed.

  Lemma sim_exec : forall p i s P D w st sl st', srel s P D w st sl -> bexec heap_ops n branch labels false make any_rest p i st = Some st' ->
    exists s' P' D' w' sl' is, esteps0 sl (map (pair p) is) sl' /\ srel s' P' D' w' st' sl' /\ (forall j, In j is -> j = i \/ j = ITau) /\
      1 + total w' n <= length is + total w n /\ 1 <= p <= n.
  Proof.
    intros p i s P D w st sl st' [R T] E. unfold bexec in E. destruct ((1 <=? p) && (p <=? n)) eqn:Ep; [|discriminate].
    apply andb_prop in Ep. destruct Ep as [E1 E2]. apply Nat.leb_le in E1, E2. assert (Hp : 1 <= p <= n) by lia.
    destruct (btstep heap_ops n branch labels false make any_rest p i (bs_thr st p) (bs_store st)) as [[bt' h']|] eqn:Eb; [|discriminate]. injection E as <-.
    destruct (sim_thread n branch labels make any_rest make_ok p i s P D _ _ (w p) _ _ bt' h' Hp R (T p Hp) Eb)
      as (s' & P' & D' & g' & et' & is & k' & K1 & K2 & K3 & K4 & K5 & K6 & K7 & K8 & K9).
    destruct (ego_steps p Hp is sl et' g' K1) as (sl' & J1 & J2 & J3 & J4).
    exists s', P', D', (fun q => if q =? p then k' else w q), sl', is. split; [exact J1|]. split; [|split; [exact K2|split; [|exact Hp]]].
    - constructor; cbn [bs_store bs_thr].
      + rewrite J2. exact K3.
      + intros q Hq. unfold bset. destruct (Nat.eqb_spec q p) as [->|Hne]; [rewrite J3; exact K4|]. rewrite J4 by exact Hne.
        eapply trel_mono; [apply T, Hq|exact K5|exact K6|exact K7|exact K8].
    - pose proof (total_set w n p k' Hp). lia.
  Qed.

  Lemma hrel_empty : hrel (fun c => c) [] [] empty_heap empty_heap.
  Proof.
    constructor.
    - constructor; auto; try (intros; reflexivity).
    - constructor; [discriminate|intros t r []|reflexivity].
    - apply incl_refl.
  Qed.

  Lemma sim_init : forall T, exists s, srel s [] [] (fun _ => 0) (binit heap_ops n T empty_heap) (init heap_ops n (enum_mesh T) empty_heap).
  Proof.
    intros T. unfold binit, init. change (pair_types n (fork_vars n) (enum_mesh T)) with (pair_types n (fork_vars n) T).
    destruct (alloc heap_ops (pair_types n (fork_vars n) T) empty_heap) as [pl h] eqn:Ea.
    destruct (alloc_turn _ [] _ _ _ _ _ pl h hrel_empty Ea) as (s & pe & g & K1 & K2 & K3 & K4 & K5 & K6).
    assert (Ec : cos [] (pair_types n (fork_vars n) T) = pair_types n (fork_vars n) T) by (destruct (pair_types n (fork_vars n) T); reflexivity).
    assert (Et : turns [] pl = pl) by (destruct pl; reflexivity). rewrite Ec, Ea in K1. injection K1 as <- <-. rewrite Et in K2.
    exists s. constructor; cbn [bs_store bs_thr st_store st_thr]; [exact K3|]. intros q Hq.
    assert (St : trel s [] [] (hnext h) 0 (BThread (Thread (PStuck []) [] 0 []) []) (Thread (PStuck []) [] 0 [])).
    { apply (trel_plain s [] [] (hnext h) (PStuck []) [] 0 []); constructor. }
    destruct (fork_mesh n q) as [es|]; [|exact St].
    assert (Ep : pick_all pl es = option_map (map (ren s)) (pick_all pl es)).
    { rewrite K2 at 1. apply pick_all_natural. }
    destruct (pick_all pl es) as [hs|] eqn:Eh; [|exact St]. cbn in Ep. injection Ep as Ep.
    assert (Q : Thread (PRun (fst (enum_mesh T q)) (snd (enum_mesh T q)) hs) [] 0 [] = Thread (conv s (PRun (fst (T q)) (snd (T q)) hs)) (map (ren s) []) 0 []).
    { cbn. rewrite <- Ep. reflexivity. }
    rewrite Q. apply trel_plain; [|constructor]. cbn [held]. apply Forall_forall. intros e He.
    apply (fresh_good [] empty_heap e (hnext h)); [apply hrel_empty|]. apply K6. eapply pick_all_in; eauto.
  Qed.

  (** Every execution with binary choices is matched by one with enum choices: same programs, rounds and logs. *)
  Theorem bin_follows : forall T tr st, bsteps0 (binit heap_ops n T empty_heap) tr st ->
    exists s P D w sl tr', esteps0 (init heap_ops n (enum_mesh T) empty_heap) tr' sl /\ srel s P D w st sl /\
      length tr <= length tr' /\ forall p i, In (p, i) tr' -> i = ITau \/ In (p, i) tr.
  Proof.
    intros T tr st H. destruct (sim_init T) as (s & R).
    assert (G : forall st0 tr st1, bsteps0 st0 tr st1 -> forall s P D w sl, srel s P D w st0 sl ->
      exists s' P' D' w' sl' tr', esteps0 sl tr' sl' /\ srel s' P' D' w' st1 sl' /\ length tr + total w' n <= length tr' + total w n /\
        forall p i, In (p, i) tr' -> i = ITau \/ In (p, i) tr).
    { clear T tr st H s R. intros st0 tr st1 H. induction H as [st0|st0 p i st1 tr st2 Hx _ IH]; intros s P D w sl R.
      - exists s, P, D, w, sl, []. split; [constructor|]. split; [exact R|]. split; [cbn; lia|]. intros p i [].
      - destruct (sim_exec p i s P D w st0 sl st1 R Hx) as (s1 & P1 & D1 & w1 & sl1 & is & K1 & K2 & K3 & K4 & _).
        destruct (IH s1 P1 D1 w1 sl1 K2) as (s2 & P2 & D2 & w2 & sl2 & tr2 & J1 & J2 & J3 & J4).
        exists s2, P2, D2, w2, sl2, (map (pair p) is ++ tr2). split; [eapply steps_app; eauto|]. split; [exact J2|]. split.
        + rewrite app_length, map_length. cbn [length]. lia.
        + intros q j Hq. apply in_app_or in Hq. destruct Hq as [Hq|Hq].
          * apply in_map_iff in Hq. destruct Hq as (j' & E & Hj). injection E as <- <-. destruct (K3 _ Hj) as [-> | ->]; [right; left; reflexivity|left; reflexivity].
          * destruct (J4 q j Hq); [auto|right; right; assumption]. }
    destruct (G _ _ _ H s [] [] (fun _ => 0) _ R) as (s1 & P1 & D1 & w1 & sl & tr' & K1 & K2 & K3 & K4).
    exists s1, P1, D1, w1, sl, tr'. split; [exact K1|]. split; [exact K2|]. split; [|exact K4].
    assert (Z : total (fun _ => 0) n = 0) by (clear; induction n as [|k IH]; cbn; lia). lia.
  Qed.

  (** ** What can be done next *)
  Definition ready (p : nat) (bt : @bthread ep) : Prop :=
    match t_prog (b_th bt) with
    | PRun ss r _ => usable n branch labels p ss r
    | PChoose b l _ _ => l < labels b
    | _ => True
    end.
  Hypothesis branch_usable : forall b l, l < labels b -> usable_mesh n branch labels (branch b l).

  Lemma ready_step : forall p i bt h bt' h', 1 <= p <= n -> ready p bt -> btstep heap_ops n branch labels false make any_rest p i bt h = Some (bt', h') -> ready p bt'.
  Proof.
    intros p i [[pr tr ro lo] late] h bt' h' Hp U E. unfold ready in *. unfold btstep in E.
    cbn [b_th b_late t_trash t_prog t_round t_log] in *.
    destruct tr as [|x0 tr].
    2: { unfold tstep in E. cbn [t_trash t_prog t_round t_log] in E. destruct i; try discriminate. destruct (op_drop heap_ops x0 h) as [out h1].
         cbn in E. injection E as <- <-. exact U. }
    destruct pr as [ss r hs|b l pend own|a c hs|res|hs]; try discriminate.
    - destruct i as [|v|l|].
      + destruct r as [| |x r'|x r'|x r1 r2|x r1 r2]; try discriminate.
        * cbn in E. destruct (forallb is_end ss); [|discriminate]. cbn in E. injection E as <- <-. exact I.
        * destruct U as (Hx & Hxp & U). rewrite comm_field_pos in E by lia.
          destruct (nth_error ss (field_pos p x)) as [[|[t|? ?] t0|[t|? ?] t0]|] eqn:Es; try discriminate; cbn in E; rewrite comm_field_pos, Es in E by lia.
          -- destruct (callable n p x); discriminate.
          -- destruct (callable n p x); [|discriminate]. destruct (nth_error hs _) as [e|]; [|discriminate].
             unfold do_recv in E. destruct (op_recv heap_ops e h) as [w ca h0 h1|h1| |]; try discriminate.
             ++ destruct w as [t' v|? ? ?]; [destruct ca|]; [destruct (t' =? t)| |]; cbn in E; injection E as <- <-; try exact I. cbn. exact U.
             ++ cbn in E. injection E as <- <-. exact I.
             ++ cbn in E. injection E as <- <-. exact I.
        * destruct r1; try discriminate. destruct r2; try discriminate. destruct (callable n p x && _); [|discriminate].
          destruct (nth_error ss _) as [[|? ?|[?|b j] [|? ?|? ?]]|]; try discriminate. destruct (nth_error hs _) as [e|]; [|discriminate].
          destruct (j =? p); [|discriminate]. unfold do_offer in E. destruct (op_recv heap_ops e h) as [w ca h0 h1|h1| |]; try discriminate.
          -- destruct w as [t' v|b' l j']; [cbn in E; injection E as <- <-; exact I|].
             destruct ((b' =? b) && (j' =? p) && (l <? labels b)) eqn:Eb; cbn in E; injection E as <- <-; [|exact I].
             apply andb_prop in Eb. destruct Eb as [_ Eb]. apply Nat.ltb_lt in Eb. cbn. apply branch_usable; [exact Eb|exact Hp].
          -- cbn in E. injection E as <- <-. exact I.
          -- cbn in E. injection E as <- <-. exact I.
      + destruct r as [| |x r'|x r'|x r1 r2|x r1 r2]; try discriminate; [|destruct r1; try discriminate; destruct r2; discriminate].
        destruct U as (Hx & Hxp & U). rewrite comm_field_pos in E by lia.
        destruct (nth_error ss (field_pos p x)) as [[|[t|? ?] t0|[t|? ?] t0]|] eqn:Es; try discriminate; cbn in E; rewrite comm_field_pos, Es in E by lia.
        * destruct (callable n p x); [|discriminate]. destruct (nth_error hs _) as [e|]; [|discriminate].
          unfold do_send in E. destruct (op_send heap_ops e (VData t v) [] t0 h) as [here h1|here lost h1| |]; try discriminate; cbn in E; injection E as <- <-;
            try exact I; cbn; exact U.
        * destruct (callable n p x); discriminate.
      + destruct r as [| |x r'|x r'|x r1 r2|x r1 r2]; try discriminate.
        * destruct (nth_error ss (comm_field p x - 1)) as [[|[t|? ?] t0|[t|? ?] t0]|]; discriminate.
        * destruct (choice_of p ss) as [b|]; [|discriminate]. destruct (may_choose branch labels p x b r1 r2 && (l <? 2)) eqn:Em; [|discriminate].
          apply andb_prop in Em. destruct Em as [Em El]. unfold may_choose in Em. apply andb_prop in Em. destruct Em as [Em _].
          apply andb_prop in Em. destruct Em as [Em _]. apply andb_prop in Em. destruct Em as [_ Eb]. apply Nat.eqb_eq in Eb. apply Nat.ltb_lt in El.
          destruct (make p b l hs h) as [[pr h1]|] eqn:Ek; injection E as <- <-; [|exact I].
          destruct (proj2 make_ok _ _ _ _ _ _ _ Ek) as (pend & own & ->). cbn. lia.
        * destruct r1; try discriminate. destruct r2; discriminate.
      + assert (Q : Some (BThread (fin (Thread (PRun ss r hs) [] ro lo) RCrash hs) late, h) = Some (bt', h')).
        { destruct r as [| |x r'|x r'|x r1 r2|x r1 r2]; try exact E; destruct r1; try exact E; destruct r2; exact E. }
        injection Q as <- <-. exact I.
    - destruct i as [|v|l0|]; try (destruct pend; discriminate). destruct pend as [|[[x e] m] pend].
      + injection E as <- <-. cbn. apply branch_usable; assumption.
      + destruct (op_send heap_ops e (VLabel b l x) m End h) as [here h1|here lost h1| |]; try discriminate; injection E as <- <-; try exact I; exact U.
    - destruct i; try discriminate; cbn in E; [|injection E as <- <-; exact I].
      unfold do_close in E. destruct (nth_error hs a) as [e|].
      + destruct (op_tell heap_ops e Stop h); try discriminate; cbn in E; injection E as <- <-; exact I.
      + destruct (nth_error hs c) as [e|]; [|cbn in E; injection E as <- <-; exact I].
        destruct (op_hear heap_ops e h) as [[|] h1| | |]; try discriminate; cbn in E; injection E as <- <-; exact I.
  Qed.

  Lemma ready_reach : forall T tr st, usable_mesh n branch labels T -> bsteps0 (binit heap_ops n T empty_heap) tr st ->
    forall p, 1 <= p <= n -> ready p (bs_thr st p).
  Proof.
    intros T tr st UT H.
    assert (H0 : forall p, 1 <= p <= n -> ready p (bs_thr (binit heap_ops n T empty_heap) p)).
    { intros p Hp. unfold binit, init, ready. destruct (alloc heap_ops _ empty_heap) as [pl h]. cbn.
      destruct (fork_mesh n p) as [es|]; [|exact I]. destruct (pick_all pl es); [|exact I]. cbn. apply UT, Hp. }
    revert H0. induction H as [st0|st0 q i st1 tr st2 Hx _ IH]; intros H0; [exact H0|]. apply IH. intros p Hp.
    unfold bexec in Hx. destruct ((1 <=? q) && (q <=? n)) eqn:Eq; [|discriminate].
    destruct (btstep heap_ops n branch labels false make any_rest q i (bs_thr st0 q) (bs_store st0)) as [[bt' h']|] eqn:Eb; [|discriminate]. injection Hx as <-.
    cbn. unfold bset. destruct (Nat.eqb_spec p q) as [->|Hne]; [|apply H0, Hp]. eapply ready_step; [exact Hp|apply H0, Hp|exact Eb].
  Qed.

  Lemma rest_end_ok : forall f ss, (forall g s, g <> f -> nth_error ss g = Some s -> s = End) -> rest_end f ss = true.
  Proof.
    induction f as [|f IH]; intros [|s ss] H; cbn; try reflexivity.
    - apply forallb_forall. intros x Hx. apply In_nth_error in Hx. destruct Hx as [k Hk]. rewrite (H (S k) x); [reflexivity|discriminate|exact Hk].
    - rewrite (H 0 s) by (try discriminate; reflexivity). cbn. apply IH. intros g x Hg Hx. apply (H (S g) x); [congruence|exact Hx].
  Qed.
  Lemma stack_eqb_refl : forall r, stack_eqb r r = true.
  Proof. induction r; cbn; rewrite ?Nat.eqb_refl, ?IHr, ?IHr1, ?IHr2; reflexivity. Qed.

  (** If the role can go on in the second machine, it can go on in the first. *)
  Lemma can_step : forall p i s P D h g k bt et, 1 <= p <= n -> hrel s P D h g -> trel s P D (hnext h) k bt et -> ready p bt ->
    t_trash (b_th bt) = [] -> i <> ICrash -> tstep heap_ops n (enum_branch branch) labels false p i et g <> None ->
    btstep heap_ops n branch labels false make any_rest p i bt h <> None.
  Proof.
    intros p i s P D h g k [[pr tr ro lo] late] et Hp R T U Et Hi E. cbn [b_th t_trash] in Et. subst tr.
    destruct (at_rest _ _ _ _ _ _ _ _ _ _ T) as (-> & Hlate & Hk & Hh & Hl). clear T.
    unfold ready in U. unfold btstep. cbn [b_th b_late t_trash t_prog t_round t_log] in *.
    unfold tstep in E. cbn [t_trash t_prog t_round t_log] in E.
    destruct pr as [ss r hs|b l pend own|a c hs|res|hs]; cbn [conv map_prog estk] in E; try congruence.
    - cbn [held] in Hh. destruct r as [| |x r'|x r'|x r1 r2|x r1 r2]; cbn [enum_stack] in E; try (destruct i; congruence).
      + destruct i; try congruence. cbn. destruct (forallb is_end ss); [discriminate|congruence].
      + destruct U as (Hx & Hxp & U). rewrite comm_field_pos in * by lia.
        assert (Go : forall f e, nth_error hs f = Some e -> good P (hnext h) e).
        { intros f e He. rewrite Forall_forall in Hh. apply Hh. eapply nth_error_In; eauto. }
        destruct (nth_error ss (field_pos p x)) as [[|[t|? ?] t0|[t|? ?] t0]|] eqn:Es; try contradiction.
        * destruct i as [|v|l|]; try congruence.
          -- destruct (callable n p x); congruence.
          -- unfold tstep. cbn [t_trash t_prog t_round t_log]. rewrite comm_field_pos, Es by lia. destruct (callable n p x); [|congruence].
             rewrite nth_error_map in E. destruct (nth_error hs (field_pos p x)) as [e|] eqn:Eh; cbn [option_map] in E; [|congruence].
             unfold do_send in *. cbn [op_send heap_ops] in *. pose proof (env_send s P D h g e (VData t v) [] t0 R (Go _ _ Eh) (Forall_nil _)) as Q. cbn [map] in Q.
             destruct (heap_send e (VData t v) [] t0 h); cbn [option_map]; try discriminate. rewrite Q in E. congruence.
        * destruct i as [|v|l|]; try congruence.
          -- unfold tstep. cbn [t_trash t_prog t_round t_log]. rewrite comm_field_pos, Es by lia. destruct (callable n p x); [|congruence].
             rewrite nth_error_map in E. destruct (nth_error hs (field_pos p x)) as [e|] eqn:Eh; cbn [option_map] in E; [|congruence].
             unfold do_recv in *. cbn [op_recv heap_ops] in *. pose proof (env_recv s P D h g e R (Go _ _ Eh)) as Q.
             destruct (heap_recv e h) as [w ca h0 h1|h1| |]; cbn [option_map]; try discriminate; [|rewrite Q in E; congruence].
             destruct w as [t' v|? ? ?]; [destruct ca|]; [destruct (t' =? t)| |]; discriminate.
          -- destruct (callable n p x); congruence.
      + destruct i as [|v|l|]; try congruence. cbn [usable] in U. destruct U as (-> & b & Ec & El & Er1 & Er2). rewrite Ec in *.
        destruct (l <? labels b) eqn:Elb; [|congruence]. rewrite El in Elb.
        unfold may_choose. rewrite Nat.eqb_refl, El, <- Er1, <- Er2, !stack_eqb_refl, Elb. cbn [andb Nat.eqb].
        destruct (make p b l hs h) as [[pr h1]|]; discriminate.
      + cbn [usable] in U. destruct r1; try contradiction. destruct r2; try contradiction. destruct U as (Hx & Hxp & (b & Es) & Ur).
        rewrite comm_field_pos in * by lia. rewrite Es in *. rewrite (rest_end_ok _ _ Ur), orb_true_r, andb_true_r.
        destruct i as [|v|l|]; try congruence.
        * destruct (callable n p x); [|congruence]. rewrite nth_error_map in E.
          destruct (nth_error hs (field_pos p x)) as [e|] eqn:Eh; cbn [option_map] in E; [|congruence].
          assert (Go : good P (hnext h) e). { rewrite Forall_forall in Hh. apply Hh. eapply nth_error_In; eauto. }
          rewrite Nat.eqb_refl in *. unfold do_offer in *. cbn [op_recv heap_ops] in *. pose proof (env_recv s P D h g e R Go) as Q.
          destruct (heap_recv e h) as [w ca h0 h1|h1| |]; cbn [option_map]; try discriminate; [|rewrite Q in E; congruence].
          destruct w as [t' v|b' l j]; [discriminate|]. destruct ((b' =? b) && (j =? p) && (l <? labels b)); discriminate.
        * destruct (callable n p x); congruence.
    - destruct i as [|v|l0|]; try congruence.
      destruct pend as [|[[x e] m] pend]; [discriminate|].
      cbn [map] in E. unfold do_choose_send in E. cbn [op_send heap_ops] in *.
      assert (Ge : good P (hnext h) e) by (inversion Hh; assumption).
      assert (Gm : Forall (good P (hnext h)) m).
      { apply Forall_forall. intros z Hz. rewrite Forall_forall in Hh. apply Hh. cbn. right. apply in_app_iff. left. apply in_app_iff. auto. }
      pose proof (env_send s P D h g e (VLabel b l x) m End R Ge Gm) as Q.
      destruct (heap_send e (VLabel b l x) m End h); try discriminate. rewrite Q in E. congruence.
    - cbn [held] in Hh. destruct i as [|v|l|]; try congruence. unfold tstep. cbn [t_trash t_prog t_round t_log].
      unfold do_close in *. cbn [op_tell op_hear heap_ops] in *. rewrite !nth_error_map in E.
      assert (Go : forall f e, nth_error hs f = Some e -> good P (hnext h) e).
      { intros f e He. rewrite Forall_forall in Hh. apply Hh. eapply nth_error_In; eauto. }
      destruct (nth_error hs a) as [e|] eqn:Ea; cbn [option_map] in E.
      + pose proof (env_tell s P D h g e Stop R (Go _ _ Ea)) as Q. destruct (heap_tell e Stop h); cbn [option_map]; try discriminate. rewrite Q in E. congruence.
      + destruct (nth_error hs c) as [e|] eqn:Er; cbn [option_map] in E |- *; [|discriminate].
        pose proof (env_hear s P D h g e R (Go _ _ Er)) as Q. destruct (heap_hear e h) as [[|] h1| | |]; cbn [option_map]; try discriminate. rewrite Q in E. congruence.
  Qed.

  (** Who is dropping can go on dropping. *)
  Lemma can_drop : forall p bt h, t_trash (b_th bt) <> [] -> btstep heap_ops n branch labels false make any_rest p ITau bt h <> None.
  Proof.
    intros p [[pr tr ro lo] late] h H. cbn in H. destruct tr as [|x tr]; [congruence|]. unfold btstep, tstep.
    cbn [b_th b_late t_trash t_prog t_round t_log]. destruct (op_drop heap_ops x h). discriminate.
  Qed.

  Lemma bexec_some : forall p i st, 1 <= p <= n -> btstep heap_ops n branch labels false make any_rest p i (bs_thr st p) (bs_store st) <> None ->
    exists st', bexec heap_ops n branch labels false make any_rest p i st = Some st'.
  Proof.
    intros p i st Hp H. unfold bexec. rewrite (proj2 (Nat.leb_le 1 p)), (proj2 (Nat.leb_le p n)) by lia. cbn [andb].
    destruct (btstep heap_ops n branch labels false make any_rest p i (bs_thr st p) (bs_store st)) as [[bt' h']|]; [eauto|congruence].
  Qed.

  (** If the second machine is over or can go on, so is or can the first. *)
  Lemma bin_next : forall s P D w st sl, srel s P D w st sl -> (forall p, 1 <= p <= n -> ready p (bs_thr st p)) ->
    ((forall p, 1 <= p <= n -> (exists r, t_prog (st_thr sl p) = PFin r) /\ t_trash (st_thr sl p) = []) \/
     exists p i sl', 1 <= p <= n /\ i <> ICrash /\ exec heap_ops n (enum_branch branch) labels false p i sl = Some sl') ->
    (forall p, 1 <= p <= n -> (exists r, t_prog (b_th (bs_thr st p)) = PFin r) /\ t_trash (b_th (bs_thr st p)) = []) \/
    exists p i st', 1 <= p <= n /\ i <> ICrash /\ bexec heap_ops n branch labels false make any_rest p i st = Some st'.
  Proof.
    intros s P D w st sl [R T] U H.
    assert (Q : (exists p, 1 <= p <= n /\ t_trash (b_th (bs_thr st p)) <> []) \/ forall p, 1 <= p <= n -> t_trash (b_th (bs_thr st p)) = []).
    { clear. assert (Q : forall k, (exists p, 1 <= p <= k /\ t_trash (b_th (bs_thr st p)) <> []) \/ forall p, 1 <= p <= k -> t_trash (b_th (bs_thr st p)) = []).
      { induction k as [|k IH]; [right; lia|]. destruct IH as [(p & Hp & Hx)|IH]; [left; exists p; split; [lia|exact Hx]|].
        destruct (t_trash (b_th (bs_thr st (S k)))) as [|x tr] eqn:E.
        - right. intros p Hp. destruct (Nat.eq_dec p (S k)) as [->|]; [exact E|apply IH; lia].
        - left. exists (S k). split; [lia|]. congruence. }
      apply Q. }
    destruct Q as [(p & Hp & Hx)|Q].
    - right. exists p, ITau. destruct (bexec_some p ITau st Hp (can_drop p _ _ Hx)) as (st' & E). exists st'. split; [exact Hp|]. split; [discriminate|exact E].
    - destruct H as [H|(p & i & sl' & Hp & Hi & E)].
      + left. intros p Hp. split; [|apply Q, Hp]. destruct (H p Hp) as [[r Hr] _]. exists r. specialize (T p Hp). specialize (Q p Hp).
        destruct (bs_thr st p) as [[pr tr ro lo] late]. cbn in *. subst tr. destruct (at_rest _ _ _ _ _ _ _ _ _ _ T) as (Et & _).
        rewrite Et in Hr. cbn in Hr. destruct pr; cbn in Hr; congruence.
      + right. exists p, i. unfold exec in E. rewrite (proj2 (Nat.leb_le 1 p)), (proj2 (Nat.leb_le p n)) in E by lia. cbn [andb] in E.
        destruct (bexec_some p i st Hp) as (st' & E').
        * eapply can_step; [exact Hp|exact R|apply T, Hp|apply U, Hp|apply Q, Hp|exact Hi|].
          destruct (tstep heap_ops n (enum_branch branch) labels false p i (st_thr sl p) (st_store sl)); congruence.
        * exists st'. auto.
  Qed.
End Reach.
