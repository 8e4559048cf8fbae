(** Every step of a thread keeps the typing invariant. *)
From Coq Require Import List Arith Bool Lia Permutation.
From Verif Require Import Types Diag DiagProofs Wiring WiringProofs Session Mesh MeshSpec Links LinksProofs Refine Sim
  MeshWire MeshInv MeshStep.
Import ListNotations.

Lemma alloc_bal : forall tys L pl L', alloc link_ops tys L = (pl, L') -> wf_links L ->
  wf_links L' /\ bal L L' [] (flat pl).
Proof.
  induction tys as [|t tys IH]; intros L pl L' H W; cbn [alloc] in H.
  - injection H as <- <-. split; [exact W|apply bal_refl].
  - cbn [op_new link_ops] in H. destruct (lk_new t L) as [[a b] L1] eqn:E1.
    destruct (alloc link_ops tys L1) as [pl1 L2] eqn:E2. injection H as <- <-.
    destruct (new_ok t L a b L1 E1 W) as (W1 & _ & B1). destruct (IH L1 pl1 L2 E2 W1) as (W2 & B2).
    split; [exact W2|]. intros y. specialize (B1 y). specialize (B2 y).
    replace (flat ((a, b) :: pl1)) with ([a; b] ++ flat pl1) by reflexivity.
    rewrite cnt_app. rewrite cnt_nil in *. lia.
Qed.

Lemma map_nth_seq : forall A (hs : list A) d, map (fun i => nth (i - 1) hs d) (seq 1 (length hs)) = hs.
Proof.
  intros A hs d. rewrite <- seq_shift, map_map. rewrite (map_ext _ (fun i => nth i hs d)).
  - induction hs as [|x hs IH]; [reflexivity|]. cbn [length seq map nth]. f_equal.
    rewrite <- seq_shift, map_map. exact IH.
  - intros i. f_equal. lia.
Qed.

Lemma pend_cnt : forall n base p b l hs y, 1 <= p <= n -> length hs = n - 1 ->
  cnt y (held (PChoose b l (pend_of n base p hs) (meshb n base p))) =
  cnt y hs + cnt y (flat_map (meshb n base) (seq 1 n)).
Proof.
  intros n base p b l hs y Hp Hlen. cbn [held].
  rewrite <- (cnt_perm y _ _ (Permutation_flat_map (meshb n base) (others_perm n p Hp))).
  cbn [flat_map]. rewrite !cnt_app.
  cut (cnt y (flat_map (fun '(_, h, m) => h :: m) (pend_of n base p hs)) =
       cnt y hs + cnt y (flat_map (meshb n base) (map (other p) (seq 1 (n - 1))))); [lia|].
  rewrite <- (map_nth_seq _ hs (0, false, true)) at 2. rewrite Hlen. unfold pend_of.
  induction (seq 1 (n - 1)) as [|i is IH]; [reflexivity|]. cbn [map flat_map].
  rewrite !cnt_app, (cnt_cons y _ (map _ is)), (cnt_cons y _ (meshb n base (other p i))). lia.
Qed.

Lemma nth_nth_error : forall A (l : list A) k d, k < length l -> nth_error l k = Some (nth k l d).
Proof. intros. apply nth_error_nth'. assumption. Qed.

Lemma Forall2_len : forall A B (R : A -> B -> Prop) l l', Forall2 R l l' -> length l = length l'.
Proof. intros A B R l l' H. induction H; cbn; congruence. Qed.

Section Keep.
  Variable n : nat.
  Variable branch : nat -> nat -> nat -> mty.
  Variable labels : nat -> nat.
  Variable strict : bool.
  Hypothesis branch_dual : forall b l, l < labels b -> dual_mesh n (branch b l).

  Notation lthread := (@thread handle).
  Notation tcase := (tcase n branch labels strict).
  Notation tinv := (tinv n branch labels).
  Notation prog_ok := (prog_ok n branch labels).
  Notation mesh_ok := (mesh_ok n).
  Notation queues_ok := (queues_ok n branch labels).

  Lemma mesh_ok_new : forall L base T p, 1 <= p <= n -> length (fst (T p)) = n - 1 ->
    (forall q, 1 <= q <= n -> q <> p -> lty L (hndb n base p q) = sess T p q /\ quiet L (hndb n base p q)) ->
    mesh_ok L (fst (T p)) (meshb n base p).
  Proof.
    intros L base T p Hp Hlen H. split; [apply meshb_length|]. split.
    - rewrite Forall_forall. intros y Hy. eapply meshb_full; eauto.
    - rewrite <- (map_nth_seq _ (fst (T p)) End), Hlen. unfold meshb.
      assert (Hin : forall j, In j (seq 1 (n - 1)) -> 1 <= j <= n - 1) by (intros j Hj; apply in_seq in Hj; lia).
      induction (seq 1 (n - 1)) as [|j js IH]; [constructor|]. cbn [map]. constructor.
      + assert (Hj : 1 <= j <= n - 1) by (apply Hin; left; reflexivity).
        destruct (H (peer p j)) as [H1 H2]; [apply peer_range; lia|apply peer_neq|].
        split; [|exact H2]. rewrite H1. unfold sess. rewrite field_pos_peer by lia. reflexivity.
      + apply IH. intros k Hk. apply Hin. right; exact Hk.
  Qed.

  (** What every step guarantees. *)
  Definition kept (L L' : links) (p : nat) (th th' : lthread) : Prop :=
    wf_links L' /\ queues_ok L' /\ lnext L <= lnext L' /\ bal L L' (all_of th) (all_of th') /\
    frame L L' (all_of th) /\ prog_ok L' p (t_prog th').

  Lemma tcase_keep : forall p i th L th' L' xs, 1 <= p <= n -> tinv L p th xs ->
    tcase p th L i th' L' -> kept L L' p th th'.
  Proof.
    intros p i th L th' L' xs Hp I C. pose proof (ti_wf _ _ _ _ _ _ _ I) as W.
    pose proof (ti_q _ _ _ _ _ _ _ I) as Q. pose proof (ti_own _ _ _ _ _ _ _ I) as O.
    pose proof (ti_prog _ _ _ _ _ _ _ I) as P. unfold kept.
    assert (Fin : forall r, prog_ok L' p (t_prog (fin th r (held (t_prog th))))) by (intros; exact Logic.I).
    destruct C as [x rest out L1 Et Ed|Et Hnf
      |v x ss r hs t k h L1 Et Ep Hx Es Eh El|v x ss r hs t k h lost L1 Et Ep Hx Es Eh El Est
      |v x ss r hs t k h lost L1 Et Ep Hx Es Eh El Est
      |v x ss r hs t k h L1 Et Ep Hx Es Eh El|b l m x ss r hs h L1 Et Ep Hx Es Eh El Hl
      |x ss r hs P0 k h L1 Et Ep Hx Es Eh El
      |b l ss hs pl L1 Et Ep Ec Hl Ea
      |b l x h m pend own L1 Et Ep El|b l x h m pend own lost L1 Et Ep El Est
      |b l x h m pend own lost L1 Et Ep El Est
      |b l own Et Ep|ss hs Et Ep Ee
      |a r hs h L1 Et Ep Ea El|a r hs h Et Ep Ea El
      |a r hs h L1 Et Ep Ea Er El|a r hs h Et Ep Ea Er El|a r hs h L1 Et Ep Ea Er El
      |a r hs Et Ep Ea Er].
    - (* drop *)
      assert (O1 : owns L (x :: (held (t_prog th) ++ rest) ++ xs)).
      { eapply owns_perm; [|exact O]. intros y. unfold all_of. rewrite Et.
        rewrite (cnt_cons y x), !cnt_app, (cnt_cons y x rest). lia. }
      destruct (drop_inv n branch labels x L out L1 _ W Q O1 Ed) as (W' & Q' & Hn & B & F).
      split; [exact W'|]. split; [exact Q'|]. split; [lia|]. split; [|split].
      + intros y. specialize (B y). unfold all_of. cbn [t_prog t_trash]. rewrite Et, !cnt_app, (cnt_cons y x). lia.
      + eapply frame_weaken; [exact F|]. intros y [<-|[]]. unfold all_of. rewrite Et.
        apply in_or_app. right; left; reflexivity.
      + cbn [t_prog]. eapply prog_ok_frame; [exact P|exact F|]. intros y Hy.
        change (x :: (held (t_prog th) ++ rest) ++ xs) with ([x] ++ (held (t_prog th) ++ rest) ++ xs) in O1.
        eapply owns_disjoint; [exact O1|]. apply in_or_app; left. apply in_or_app; left; exact Hy.
    - (* crash *)
      split; [exact W|]. split; [exact Q|]. split; [lia|]. split; [|split; [apply frame_refl|exact Logic.I]].
      apply bal_same. intros y. unfold all_of. rewrite Et. cbn. rewrite app_nil_r. reflexivity.
    - (* send *)
      destruct (run_nth _ _ _ _ _ _ _ _ _ _ _ _ _ I Ep Es Eh) as (Ht & Hq & Hf).
      destruct (full_split h Hf) as (l & s & ->).
      assert (Hin : In (l, s, true) (held (t_prog th))) by (rewrite Ep; eapply nth_error_In; eauto).
      destruct (owns_first _ _ _ _ O Hin) as [O1 Hc].
      pose proof (send_inv n branch labels l s (VData t v) [] _ _ L xs W Q O1 Ht (conj eq_refl eq_refl)) as HS.
      rewrite El in HS. destruct HS as (_ & W' & Q' & Hn & B & F & Ht' & Hq').
      split; [exact W'|]. split; [exact Q'|]. split; [lia|]. split; [|split].
      + unfold all_of. rewrite Et, Ep. cbn [t_prog t_trash held]. intros y. specialize (B y). rewrite cnt_nil in B. lia.
      + eapply frame_weaken; [exact F|]. intros y [<-|[]]. unfold all_of. apply in_or_app. left; exact Hin.
      + rewrite Ep in P, Hc. cbn in P, Hc |- *. destruct P as (P1 & P2 & P3).
        split; [exact P1|]. split; [exact P2|].
        eapply Forall2_set; [exact P3|exact Eh|exact Hc|auto|].
        intros y u Hy Hne [H1 H2]. rewrite Forall_forall in P2.
        destruct (F y) as [H3 H4]; [apply P2, Hy| | |].
        * eapply owns_live; [exact O|]. unfold all_of. rewrite Ep. apply in_or_app; left. apply in_or_app; left; exact Hy.
        * intros [E|[]]. congruence.
        * split; [congruence|auto].
    - (* send lost *)
      destruct (run_nth _ _ _ _ _ _ _ _ _ _ _ _ _ I Ep Es Eh) as (Ht & Hq & Hf).
      destruct (full_split h Hf) as (l & s & ->).
      assert (Hin : In (l, s, true) (held (t_prog th))) by (rewrite Ep; eapply nth_error_In; eauto).
      destruct (owns_first _ _ _ _ O Hin) as [O1 Hc].
      pose proof (send_inv n branch labels l s (VData t v) [] _ _ L xs W Q O1 Ht (conj eq_refl eq_refl)) as HS.
      rewrite El in HS. destruct HS as (_ & W' & Q' & Hn & B & F & Ht' & Hq' & _).
      split; [exact W'|]. split; [exact Q'|]. split; [lia|]. split; [|split].
      + unfold all_of. rewrite Et, Ep. cbn [t_prog t_trash held]. intros y. specialize (B y). rewrite cnt_nil in B.
        rewrite !cnt_app, cnt_nil. lia.
      + eapply frame_weaken; [exact F|]. intros y [<-|[]]. unfold all_of. apply in_or_app. left; exact Hin.
      + rewrite Ep in P, Hc. cbn in P, Hc |- *. destruct P as (P1 & P2 & P3).
        split; [exact P1|]. split; [exact P2|].
        eapply Forall2_set; [exact P3|exact Eh|exact Hc|auto|].
        intros y u Hy Hne [H1 H2]. rewrite Forall_forall in P2.
        destruct (F y) as [H3 H4]; [apply P2, Hy| | |].
        * eapply owns_live; [exact O|]. unfold all_of. rewrite Ep. apply in_or_app; left. apply in_or_app; left; exact Hy.
        * intros [E|[]]. congruence.
        * split; [congruence|auto].
    - (* send error *)
      destruct (run_nth _ _ _ _ _ _ _ _ _ _ _ _ _ I Ep Es Eh) as (Ht & Hq & Hf).
      destruct (full_split h Hf) as (l & s & ->).
      assert (Hin : In (l, s, true) (held (t_prog th))) by (rewrite Ep; eapply nth_error_In; eauto).
      destruct (owns_first _ _ _ _ O Hin) as [O1 Hc].
      pose proof (send_inv n branch labels l s (VData t v) [] _ _ L xs W Q O1 Ht (conj eq_refl eq_refl)) as HS.
      rewrite El in HS. destruct HS as (_ & W' & Q' & Hn & B & F & Ht' & Hq' & _).
      split; [exact W'|]. split; [exact Q'|]. split; [lia|]. split; [|split; [|exact Logic.I]].
      + unfold all_of. rewrite Et, Ep. cbn [fin t_prog t_trash held app]. intros y. specialize (B y). rewrite cnt_nil in B.
        rewrite !cnt_app, cnt_nil. lia.
      + eapply frame_weaken; [exact F|]. intros y [<-|[]]. unfold all_of. apply in_or_app. left; exact Hin.
    - (* recv *)
      destruct (run_nth _ _ _ _ _ _ _ _ _ _ _ _ _ I Ep Es Eh) as (Ht & Hq & Hf).
      destruct (full_split h Hf) as (l & s & ->).
      assert (Hin : In (l, s, true) (held (t_prog th))) by (rewrite Ep; eapply nth_error_In; eauto).
      destruct (owns_first _ _ _ _ O Hin) as [O1 Hc].
      pose proof (recv_inv n branch labels l s _ _ L xs W Q O1 Ht) as HR.
      rewrite El in HR. destruct HR as (_ & W' & Q' & Hn & B & F & Ht' & Hq' & _).
      split; [exact W'|]. split; [exact Q'|]. split; [lia|]. split; [|split].
      + unfold all_of. rewrite Et, Ep. cbn [t_prog t_trash held]. intros y. specialize (B y). rewrite cnt_nil in B. lia.
      + eapply frame_weaken; [exact F|]. intros y [<-|[]]. unfold all_of. apply in_or_app. left; exact Hin.
      + rewrite Ep in P, Hc. cbn in P, Hc |- *. destruct P as (P1 & P2 & P3).
        split; [exact P1|]. split; [exact P2|].
        eapply Forall2_set; [exact P3|exact Eh|exact Hc|auto|].
        intros y u Hy Hne [H1 H2]. rewrite Forall_forall in P2.
        destruct (F y) as [H3 H4]; [apply P2, Hy| | |].
        * eapply owns_live; [exact O|]. unfold all_of. rewrite Ep. apply in_or_app; left. apply in_or_app; left; exact Hy.
        * intros [E|[]]. congruence.
        * split; [congruence|auto].
    - (* offer *)
      destruct (run_nth _ _ _ _ _ _ _ _ _ _ _ _ _ I Ep Es Eh) as (Ht & Hq & Hf).
      destruct (full_split h Hf) as (l0 & s & ->).
      assert (Hin : In (l0, s, true) (held (t_prog th))) by (rewrite Ep; eapply nth_error_In; eauto).
      destruct (owns_first _ _ _ _ O Hin) as [O1 Hc].
      pose proof (recv_inv n branch labels l0 s _ _ L xs W Q O1 Ht) as HR.
      rewrite El in HR. destruct HR as (_ & W' & Q' & Hn & B & F & Ht' & Hq' & Hv & _).
      split; [exact W'|]. split; [exact Q'|]. split; [lia|]. split; [|split].
      + unfold all_of. rewrite Et, Ep. cbn [t_prog t_trash held]. intros y. specialize (B y). rewrite cnt_nil in B.
        rewrite !cnt_app, cnt_nil. lia.
      + eapply frame_weaken; [exact F|]. intros y [<-|[]]. unfold all_of. apply in_or_app. left; exact Hin.
      + cbn. cbn in Hv. apply Hv.
    - (* recv error *)
      destruct (run_nth _ _ _ _ _ _ _ _ _ _ _ _ _ I Ep Es Eh) as (Ht & Hq & Hf).
      destruct (full_split h Hf) as (l0 & s & ->).
      assert (Hin : In (l0, s, true) (held (t_prog th))) by (rewrite Ep; eapply nth_error_In; eauto).
      destruct (owns_first _ _ _ _ O Hin) as [O1 Hc].
      pose proof (recv_inv n branch labels l0 s _ _ L xs W Q O1 Ht) as HR.
      rewrite El in HR. destruct HR as (W' & Q' & Hn & B & F & _).
      split; [exact W'|]. split; [exact Q'|]. split; [lia|]. split; [|split; [|exact Logic.I]].
      + unfold all_of. rewrite Et, Ep. cbn [fin t_prog t_trash held app]. intros y. specialize (B y). rewrite cnt_nil in B.
        rewrite app_nil_r, (cnt_without _ _ _ y Eh). lia.
      + eapply frame_weaken; [exact F|]. intros y [].
    - (* choose *)
      rewrite Ep in P. cbn in P. pose proof P as Pm. destruct P as (P1 & P2 & P3).
      destruct (new_mesh n (choose_vars n) (branch b l) L pl L1 (choose_vars_spec n) (branch_dual b l Hl) Ea)
        as (Hpl & Hn & Hold & Hnew & Hty).
      destruct (alloc_bal _ _ _ _ Ea W) as [W' B].
      assert (F : forall U, frame L L1 U).
      { intros U [[m s] f] _ [Hm _] _. unfold lty, quiet. rewrite Hold by exact Hm. auto. }
      assert (Hqn : forall p0 q, 1 <= p0 <= n -> 1 <= q <= n -> q <> p0 -> quiet L1 (hndb n (lnext L) p0 q)).
      { intros p0 q H0 Hq Hne. unfold quiet, hndb.
        assert (Hr : lnext L <= lnext L + (idx n (min p0 q) (max p0 q) - 1) < lnext L1).
        { pose proof (idx_range n (min p0 q) (max p0 q) ltac:(lia) ltac:(lia) ltac:(lia)) as Hi. rewrite <- npairs_tri in Hi. lia. }
        destruct (Hnew _ Hr) as [t ->]. reflexivity. }
      split; [exact W'|]. split; [|split; [lia|split; [|split; [apply F|]]]].
      + intros m Hm. destruct (lt_dec m (lnext L)) as [Hlt|Hge].
        * rewrite Hold by exact Hlt. eapply qtyped_frame; [apply Q, Hlt|apply (F [])|].
          intros y Hy. split; [|intros []].
          assert (Hi : 0 < inside y L) by (pose proof (inside_le y L m Hlt); lia).
          apply (owns_queued _ _ _ O Hi).
        * destruct (Hnew m) as [t ->]; [lia|]. exact Logic.I.
      + unfold all_of. rewrite Et, Ep. cbn [t_prog t_trash]. intros y. specialize (B y).
        rewrite !cnt_app, !cnt_nil, pend_cnt by assumption. cbn [held].
        assert (HM : cnt y (flat pl) = cnt y (flat_map (meshb n (lnext L)) (seq 1 n)))
          by (rewrite Hpl; apply cnt_perm, mesh_perm).
        rewrite cnt_nil in B. lia.
      + cbn [t_prog]. cbn. split; [exact Hl|]. destruct (branch_dual b l Hl) as [Hd1 Hd2]. split.
        * apply (mesh_ok_new L1 (lnext L) (branch b l) p Hp (Hd1 p Hp)). intros q Hq Hne. split; [apply Hty; auto|auto].
        * rewrite Forall_forall. intros [[q h] m] Hin. unfold pend_of in Hin. apply in_map_iff in Hin.
          destruct Hin as (i & E & Hi). apply in_seq in Hi. injection E as <- <- <-.
          assert (Hlen : length ss = n - 1) by (rewrite <- (Forall2_len _ _ _ _ _ P3); exact P1).
          assert (Hnh : nth_error hs (i - 1) = Some (nth (i - 1) hs (0, false, true)))
            by (apply nth_nth_error; lia).
          pose proof (choice_shape p ss b Ec (i - 1) ltac:(lia)) as Hns.
          replace (i - 1 + 1) with i in Hns by lia.
          destruct (Forall2_nth _ _ _ _ _ _ _ _ P3 Hnh Hns) as [H3 H4].
          rewrite Forall_forall in P2. pose proof (nth_error_In _ _ Hnh) as Hin.
          assert (Hlv : live L (nth (i - 1) hs (0, false, true))).
          { eapply owns_live; [exact O|]. unfold all_of. rewrite Ep. apply in_or_app; left. apply in_or_app; left; exact Hin. }
          destruct (F [] _ (P2 _ Hin) Hlv (fun x => x)) as [H5 H6].
          split; [apply P2, Hin|]. split; [congruence|]. split; [auto|].
          assert (Hpi : 1 <= other p i <= n) by (rewrite <- peer_other; apply peer_range; lia).
          apply (mesh_ok_new L1 (lnext L) (branch b l) (other p i) Hpi (Hd1 _ Hpi)). intros q Hq Hne. split; [apply Hty; auto|auto].
    - (* choice send *)
      rewrite Ep in P. cbn in P. destruct P as (Hl & Hown & Hpend). inversion Hpend as [|? ? Hx Hrest]; subst.
      destruct Hx as (Hf & Ht & Hq & Hm). destruct (full_split h Hf) as (l0 & s & ->).
      assert (O1 : owns L ((l0, s, true) :: m ++ (held (PChoose b l pend own) ++ xs))).
      { eapply owns_perm; [|exact O]. intros y. unfold all_of. rewrite Ep, Et. cbn [held flat_map].
        rewrite (cnt_cons y _ (m ++ _)), !cnt_app, (cnt_cons y _ m). lia. }
      pose proof (send_inv n branch labels l0 s (VLabel b l x) m _ _ L _ W Q O1 Ht
                    (conj eq_refl (conj eq_refl (conj Hl Hm)))) as HS.
      rewrite El in HS. destruct HS as (_ & W' & Q' & Hn & B & F & Ht' & Hq').
      split; [exact W'|]. split; [exact Q'|]. split; [lia|]. split; [|split].
      + unfold all_of. rewrite Et, Ep. cbn [t_prog t_trash held flat_map]. intros y. specialize (B y). rewrite cnt_nil in B.
        rewrite !cnt_app, cnt_nil, (cnt_cons y _ m). lia.
      + eapply frame_weaken; [exact F|]. intros y [<-|[]]. unfold all_of. rewrite Ep. left; reflexivity.
      + cbn [t_prog]. eapply (prog_ok_frame n branch labels L L1 [(l0, s, true)] p (PChoose b l pend own));
          [split; [exact Hl|split; assumption]|exact F|].
        intros y Hy. split.
        * eapply owns_live; [exact O1|]. right. apply in_or_app; right. apply in_or_app; left; exact Hy.
        * intros [<-|[]]. pose proof (owns_once _ _ (l0, s, true) O1) as Hc.
          rewrite cnt_cons, cnt_self, !cnt_app in Hc. apply cnt_in in Hy. lia.
    - (* choice send lost *)
      rewrite Ep in P. cbn in P. destruct P as (Hl & Hown & Hpend). inversion Hpend as [|? ? Hx Hrest]; subst.
      destruct Hx as (Hf & Ht & Hq & Hm). destruct (full_split h Hf) as (l0 & s & ->).
      assert (O1 : owns L ((l0, s, true) :: m ++ (held (PChoose b l pend own) ++ xs))).
      { eapply owns_perm; [|exact O]. intros y. unfold all_of. rewrite Ep, Et. cbn [held flat_map].
        rewrite (cnt_cons y _ (m ++ _)), !cnt_app, (cnt_cons y _ m). lia. }
      pose proof (send_inv n branch labels l0 s (VLabel b l x) m _ _ L _ W Q O1 Ht
                    (conj eq_refl (conj eq_refl (conj Hl Hm)))) as HS.
      rewrite El in HS. destruct HS as (_ & W' & Q' & Hn & B & F & Ht' & Hq' & _).
      split; [exact W'|]. split; [exact Q'|]. split; [lia|]. split; [|split].
      + unfold all_of. rewrite Et, Ep. cbn [t_prog t_trash held flat_map]. intros y. specialize (B y).
        rewrite !cnt_app, cnt_nil, (cnt_cons y _ m). lia.
      + eapply frame_weaken; [exact F|]. intros y [<-|[]]. unfold all_of. rewrite Ep. left; reflexivity.
      + cbn [t_prog]. eapply (prog_ok_frame n branch labels L L1 [(l0, s, true)] p (PChoose b l pend own));
          [split; [exact Hl|split; assumption]|exact F|].
        intros y Hy. split.
        * eapply owns_live; [exact O1|]. right. apply in_or_app; right. apply in_or_app; left; exact Hy.
        * intros [<-|[]]. pose proof (owns_once _ _ (l0, s, true) O1) as Hc.
          rewrite cnt_cons, cnt_self, !cnt_app in Hc. apply cnt_in in Hy. lia.
    - (* choice send error *)
      rewrite Ep in P. cbn in P. destruct P as (Hl & Hown & Hpend). inversion Hpend as [|? ? Hx Hrest]; subst.
      destruct Hx as (Hf & Ht & Hq & Hm). destruct (full_split h Hf) as (l0 & s & ->).
      assert (O1 : owns L ((l0, s, true) :: m ++ (held (PChoose b l pend own) ++ xs))).
      { eapply owns_perm; [|exact O]. intros y. unfold all_of. rewrite Ep, Et. cbn [held flat_map].
        rewrite (cnt_cons y _ (m ++ _)), !cnt_app, (cnt_cons y _ m). lia. }
      pose proof (send_inv n branch labels l0 s (VLabel b l x) m _ _ L _ W Q O1 Ht
                    (conj eq_refl (conj eq_refl (conj Hl Hm)))) as HS.
      rewrite El in HS. destruct HS as (_ & W' & Q' & Hn & B & F & Ht' & Hq' & _).
      split; [exact W'|]. split; [exact Q'|]. split; [lia|]. split; [|split; [|exact Logic.I]].
      + unfold all_of. rewrite Et, Ep. cbn [fin t_prog t_trash held flat_map]. intros y. specialize (B y).
        rewrite !cnt_app, cnt_nil, (cnt_cons y _ m). lia.
      + eapply frame_weaken; [exact F|]. intros y [<-|[]]. unfold all_of. rewrite Ep. left; reflexivity.
    - (* enter *)
      rewrite Ep in P. cbn in P. destruct P as (Hl & Hown & Hpend).
      split; [exact W|]. split; [exact Q|]. split; [lia|]. split; [|split; [apply frame_refl|exact Hown]].
      apply bal_same. intros y. unfold all_of. rewrite Et, Ep. reflexivity.
    - (* close *)
      rewrite Ep in P. cbn in P. destruct P as (P1 & P2 & P3).
      split; [exact W|]. split; [exact Q|]. split; [lia|]. split; [|split; [apply frame_refl|]].
      + apply bal_same. intros y. unfold all_of. rewrite Et, Ep. reflexivity.
      + cbn. split; [exact P1|]. split; [exact P2|].
        clear -P3 Ee. induction P3 as [|y u hs ss [H1 H2] H IH]; [split; constructor|].
        cbn in Ee. apply andb_true_iff in Ee. destruct Ee as [E1 E2]. destruct (IH E2) as [H3 H4].
        destruct u; try discriminate. split; constructor; auto.
    - (* tell *)
      rewrite Ep in P. cbn in P. destruct P as (P1 & P2 & P3 & P4).
      rewrite Forall_forall in P2, P3, P4. pose proof (nth_error_In _ _ Ea) as Hin.
      destruct (full_split h (P2 h Hin)) as (l & s & ->).
      assert (Hin' : In (l, s, true) (held (t_prog th))) by (rewrite Ep; exact Hin).
      destruct (owns_first _ _ _ _ O Hin') as [O1 Hc].
      assert (Hqq : quiet L (l, s, true)) by (apply P4; rewrite (skipn_cons _ _ _ _ Ea); left; reflexivity).
      pose proof (tell_inv n branch labels l s Stop L xs W Q O1 (P3 _ Hin) Hqq) as HT.
      rewrite El in HT. destruct HT as (W' & Q' & Hn & B & F & Ht' & _).
      split; [exact W'|]. split; [exact Q'|]. split; [lia|].
      assert (Hlv : forall y, In y hs -> live L y).
      { intros y Hy. eapply owns_live; [exact O|]. unfold all_of. rewrite Ep. apply in_or_app; left. apply in_or_app; left; exact Hy. }
      split; [|split].
      + unfold all_of. rewrite Et, Ep. cbn [t_prog t_trash held]. intros y. specialize (B y). rewrite cnt_nil in B. lia.
      + eapply frame_weaken; [exact F|]. intros y [<-|[]]. unfold all_of. apply in_or_app. left; exact Hin'.
      + cbn. rewrite !Forall_forall. split; [exact P1|]. split; [exact P2|]. split.
        * intros y Hy. destruct (handle_eq_dec y (l, s, true)) as [->|Hne]; [exact Ht'|].
          destruct (F y (P2 y Hy) (Hlv y Hy)) as [H1 _]; [intros [E|[]]; congruence|]. rewrite H1. auto.
        * intros y Hy. rewrite (skipn_cons _ _ _ _ Ea) in P4.
          assert (Hy' : In y hs) by (rewrite <- (firstn_skipn (a + 1) hs); apply in_or_app; right; exact Hy).
          destruct (F y (P2 y Hy') (Hlv y Hy')) as [_ H2]; [|apply H2, P4; right; exact Hy].
          intros [<-|[]]. rewrite Ep in Hc. cbn [held] in Hc.
          rewrite <- (firstn_skipn a hs), cnt_app, (skipn_cons _ _ _ _ Ea), cnt_cons, cnt_self in Hc.
          apply cnt_in in Hy. lia.
    - (* tell error *)
      split; [exact W|]. split; [exact Q|]. split; [lia|]. split; [|split; [apply frame_refl|exact Logic.I]].
      apply bal_same. intros y. unfold all_of. rewrite Et, Ep. cbn. rewrite app_nil_r. reflexivity.
    - (* hear *)
      rewrite Ep in P. cbn in P. destruct P as (P1 & P2 & P3 & P4).
      rewrite Forall_forall in P2, P3. pose proof (nth_error_In _ _ Er) as Hin.
      destruct (full_split h (P2 h Hin)) as (l & s & ->).
      assert (Hin' : In (l, s, true) (held (t_prog th))) by (rewrite Ep; exact Hin).
      destruct (owns_first _ _ _ _ O Hin') as [O1 Hc].
      pose proof (hear_inv n branch labels l s L xs W Q O1 (P3 _ Hin)) as HT.
      rewrite El in HT. destruct HT as (W' & Q' & Hn & B & F & _).
      split; [exact W'|]. split; [exact Q'|]. split; [lia|]. split; [|split].
      + unfold all_of. rewrite Et, Ep. cbn [t_prog t_trash held]. intros y. specialize (B y). rewrite cnt_nil in B. lia.
      + eapply frame_weaken; [exact F|]. intros y [].
      + cbn [t_prog]. eapply (prog_ok_frame n branch labels L L1 [] p (PClose a (r + 1) hs)); [|exact F|].
        * cbn. rewrite !Forall_forall. rewrite Forall_forall in P4. auto.
        * intros y Hy. split; [|intros []]. eapply owns_live; [exact O|]. unfold all_of. rewrite Ep.
          apply in_or_app; left. apply in_or_app; left; exact Hy.
    - (* hear error *)
      split; [exact W|]. split; [exact Q|]. split; [lia|]. split; [|split; [apply frame_refl|exact Logic.I]].
      apply bal_same. intros y. unfold all_of. rewrite Et, Ep. cbn. rewrite app_nil_r. reflexivity.
    - (* cancel *)
      rewrite Ep in P. cbn in P. destruct P as (P1 & P2 & P3 & P4).
      rewrite Forall_forall in P2, P3. pose proof (nth_error_In _ _ Er) as Hin.
      destruct (full_split h (P2 h Hin)) as (l & s & ->).
      assert (Hin' : In (l, s, true) (held (t_prog th))) by (rewrite Ep; exact Hin).
      destruct (owns_first _ _ _ _ O Hin') as [O1 Hc].
      pose proof (hear_inv n branch labels l s L xs W Q O1 (P3 _ Hin)) as HT.
      rewrite El in HT. destruct HT as (W' & Q' & Hn & B & F & _).
      split; [exact W'|]. split; [exact Q'|]. split; [lia|]. split; [|split; [|exact Logic.I]].
      + unfold all_of. rewrite Et, Ep. cbn [fin t_prog t_trash held app]. rewrite app_nil_r.
        intros y. specialize (B y). rewrite cnt_nil in B. lia.
      + eapply frame_weaken; [exact F|]. intros y [].
    - (* done *)
      split; [exact W|]. split; [exact Q|]. split; [lia|]. split; [|split; [apply frame_refl|exact Logic.I]].
      apply bal_same. intros y. unfold all_of. rewrite Et, Ep. cbn. rewrite app_nil_r. reflexivity.
  Qed.
End Keep.
