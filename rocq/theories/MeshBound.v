(** Executions of a finite protocol are finite, whoever crashes: an explicit bound. *)
From Coq Require Import List Arith Bool Lia Permutation.
From Verif Require Import Types Diag DiagProofs Wiring WiringProofs Session Mesh MeshSpec Links LinksProofs Refine Sim
  MeshWire MeshInv MeshStep MeshKeep MeshSafe MeshRounds MeshRun MeshLog MeshReach Global MeshGlobal.
Import ListNotations.

Fixpoint depth (r : stack) : nat := match r with SRole _ r' => S (depth r') | _ => 0 end.

Lemma depth_stack : forall p ms e, depth (stack_of p ms e) <= length ms + match e with GEnd => 0 | _ => 1 end.
Proof.
  intros p ms e. induction ms as [|m ms IH]; cbn.
  - destruct e as [|c b]; cbn; [lia|]. destruct (p =? c); cbn; lia.
  - destruct (from m =? p); cbn; [lia|]. destruct (into m =? p); cbn; lia.
Qed.

(** What is left to be done with a link. *)
Definition side_weight (k : link) (s : bool) : nat := if l_open k s then 2 else if l_rx k s then 1 else 0.
Definition link_weight (k : link) : nat := side_weight k true + side_weight k false + length (l_q k).
Definition store_weight (L : links) : nat := sum_to (lnext L) (fun m => link_weight (lk L m)).

Lemma link_weight_side : forall k s, link_weight k = side_weight k s + side_weight k (negb s) + length (l_q k).
Proof. intros k []; unfold link_weight; cbn; lia. Qed.

Lemma side_le2 : forall k s, side_weight k s <= 2.
Proof. intros k s. unfold side_weight. destruct (l_open k s); [lia|]. destruct (l_rx k s); lia. Qed.

Lemma store_set : forall L m k, m < lnext L ->
  store_weight (set_link L m k) + link_weight (lk L m) = store_weight L + link_weight k.
Proof.
  intros L m k Hm. unfold store_weight. cbn [lnext set_link].
  pose proof (sum_to_upd (lnext L) (fun m0 => link_weight (lk (set_link L m k) m0)) (fun m0 => link_weight (lk L m0)) m Hm) as H.
  cbn beta in H. rewrite lk_set_same in H. apply H. intros m0 Hne. rewrite lk_set_other by exact Hne. reflexivity.
Qed.

Lemma sum_to_app : forall a b f, sum_to (a + b) f = sum_to a f + sum_to b (fun i => f (a + i)).
Proof.
  intros a b f. induction b as [|b IH]; cbn; [rewrite Nat.add_0_r; lia|].
  rewrite Nat.add_succ_r. cbn. lia.
Qed.
Lemma sum_to_const : forall k c, sum_to k (fun _ => c) = k * c.
Proof. induction k as [|k IH]; intros c; cbn; [reflexivity|]. rewrite IH. lia. Qed.
Lemma sum_to_le : forall k f c, (forall i, i < k -> f i <= c) -> sum_to k f <= k * c.
Proof.
  induction k as [|k IH]; intros f c H; cbn; [lia|]. specialize (IH f c (fun i Hi => H i (Nat.lt_lt_succ_r _ _ Hi))).
  specialize (H k (Nat.lt_succ_diag_r k)). lia.
Qed.

Section Bound.
  Variable n : nat.
  Variable labels : nat -> nat.
  Variable strict : bool.
  Variable P : protocol.
  Hypothesis wf : wf_protocol n labels P.
  (** What a choice of round g may still lead to. *)
  Variable size : nat -> nat -> nat.

  Notation branch := (branch_g n P).
  Notation T := (T_g n P).
  Notation lthread := (@thread handle).
  Notation tcase := (tcase n branch labels strict).
  Notation inv := (inv n branch labels).
  Notation rinv := (rinv n labels).
  Notation ginv := (ginv n labels P).
  Notation grnd := (grnd P).
  Notation gthr := (gthr n P).
  Notation peer_role := (peer_role n).
  Notation lnk := (lnk n).
  Notation hnd := (hnd n).
  Notation mesh := (mesh n).
  Notation N := (npairs n).

  Definition tail_weight (g : nat) (e : finale) : nat := match e with GEnd => 2 * n | GChoose _ b => size g b + n + 1 end.
  (** The choices made so far lead to what was announced. *)
  Definition shrinks (hist : history) : Prop :=
    forall g c b l, nth_error hist g = Some (c, b, l) -> l < labels b -> weight n (size (S g)) (body P b l) <= size g b.

  (** Steps of a thread, apart from drops. *)
  Definition rem (hist : history) (th : lthread) : nat :=
    match t_prog th with
    | PRun _ r _ => depth r + tail_weight (t_round th) (snd (grnd hist (t_round th)))
    | PChoose b _ pend _ => length pend + 1 + size (t_round th) b
    | PClose a r _ => (n - 1 - a) + (n - 1 - r) + 1
    | PFin _ | PStuck _ => 0
    end.

  Definition rems (hist : history) (thr : nat -> lthread) : nat := sum_to n (fun i => rem hist (thr (S i))).
  Definition factor : nat := 4 * N + 3.
  Definition total (hist : history) (L : links) (thr : nat -> lthread) : nat :=
    store_weight L + factor * rems hist thr.

  Lemma rem_app : forall hist x th, t_round th <= length hist -> rem (hist ++ [x]) th = rem hist th.
  Proof. intros hist x th H. unfold rem. rewrite grnd_app by exact H. reflexivity. Qed.

  (** A thread that starts round g. *)
  Lemma rem_start : forall hist p g tr log G hs, grnd hist g = G ->
    rem hist (Thread (PRun (fst (proj n G p)) (snd (proj n G p)) hs) tr g log) <= weight n (size g) G.
  Proof.
    intros hist p g tr log G hs E. unfold rem. cbn [t_prog t_round]. rewrite E. cbn [proj snd]. unfold weight, tail_weight.
    pose proof (depth_stack p (fst G) (snd G)) as H. destruct (snd G); lia.
  Qed.

  Lemma rems_set : forall hist hist' L thr p th', 1 <= p <= n -> rinv hist L thr ->
    (hist' = hist \/ exists x, hist' = hist ++ [x]) ->
    rems hist' (set_thr thr p th') + rem hist (thr p) = rems hist thr + rem hist' th'.
  Proof.
    intros hist hist' L thr p th' Hp R Hh. unfold rems.
    pose proof (sum_to_upd n (fun i => rem hist' (set_thr thr p th' (S i))) (fun i => rem hist (thr (S i))) (p - 1) ltac:(lia)) as H.
    cbn beta in H. replace (S (p - 1)) with p in H by lia.
    assert (Es : set_thr thr p th' p = th') by (unfold set_thr; rewrite Nat.eqb_refl; reflexivity). rewrite Es in H.
    set (f := fun i => if i <? n then rem hist' (set_thr thr p th' (S i)) else 0).
    set (g := fun i => if i <? n then rem hist (thr (S i)) else 0).
    assert (Hf : sum_to n (fun i => rem hist' (set_thr thr p th' (S i))) = sum_to n f).
    { apply sum_to_ext. intros i Hi. unfold f. destruct (Nat.ltb_spec i n); [reflexivity|lia]. }
    assert (Hg : sum_to n (fun i => rem hist (thr (S i))) = sum_to n g).
    { apply sum_to_ext. intros i Hi. unfold g. destruct (Nat.ltb_spec i n); [reflexivity|lia]. }
    rewrite Hf, Hg. pose proof (sum_to_upd n f g (p - 1) ltac:(lia)) as H1.
    assert (H2 : f (p - 1) = rem hist' th').
    { unfold f. destruct (Nat.ltb_spec (p - 1) n); [|lia]. replace (S (p - 1)) with p by lia. rewrite Es. reflexivity. }
    assert (H3 : g (p - 1) = rem hist (thr p)).
    { unfold g. destruct (Nat.ltb_spec (p - 1) n); [|lia]. replace (S (p - 1)) with p by lia. reflexivity. }
    rewrite H2, H3 in H1. apply H1. intros i Hi. unfold f, g. destruct (Nat.ltb_spec i n); [|reflexivity].
    unfold set_thr. destruct (Nat.eqb_spec (S i) p); [lia|].
    destruct Hh as [->|[x ->]]; [reflexivity|]. apply rem_app. apply (r_thr _ _ _ _ _ R (S i)). lia.
  Qed.

  (** A step pays for its changes. *)
  Lemma pays : forall hist hist' L L' thr p th', 1 <= p <= n -> rinv hist L thr ->
    (hist' = hist \/ exists x, hist' = hist ++ [x]) ->
    store_weight L' + factor * rem hist' th' + 1 <= store_weight L + factor * rem hist (thr p) ->
    total hist' L' (set_thr thr p th') + 1 <= total hist L thr.
  Proof.
    intros hist hist' L L' thr p th' Hp R Hh H. unfold total.
    pose proof (rems_set hist hist' L thr p th' Hp R Hh) as E.
    assert (E' : factor * rems hist' (set_thr thr p th') + factor * rem hist (thr p) = factor * rems hist thr + factor * rem hist' th').
    { rewrite <- !Nat.mul_add_distr_l. f_equal. exact E. }
    lia.
  Qed.

  (** Enough to lower the remaining steps by one while adding at most 2 to the store. *)
  Lemma pays_one : forall w w' a b, a + 1 <= b -> w' <= w + 2 -> w' + factor * a + 1 <= w + factor * b.
  Proof. intros w w' a b H1 H2. unfold factor. nia. Qed.

  Lemma step_pays : forall hist L thr p i th' L', 1 <= p <= n -> inv L thr -> rinv hist L thr -> ginv hist thr ->
    shrinks hist -> tcase p (thr p) L i th' L' -> total (record p i (thr p) hist) L' (set_thr thr p th') + 1 <= total hist L thr.
  Proof.
    intros hist L thr p i th' L' Hp I R G Sh C.
    pose proof (r_thr _ _ _ _ _ R p Hp) as [Hle HR]. pose proof (g_thr _ _ _ _ _ G p Hp) as HG.
    pose proof (i_wf _ _ _ _ _ I) as W. pose proof (i_prog _ _ _ _ _ I p Hp) as PO.
    assert (Htail : forall g e, 1 <= tail_weight g e) by (intros g [|c b]; unfold tail_weight; destruct wf; lia).
    assert (Hhist : record p i (thr p) hist = hist \/ exists x, record p i (thr p) hist = hist ++ [x]).
    { destruct (record_case n branch labels strict L p i (thr p) th' L' hist C) as [E|(b & l & ss & hs & pl & E & _)]; eauto. }
    assert (EF : effect n labels hist p L (thr p) th' L') by (eapply effect_case; eauto; apply branch_g_dual).
    apply pays; [exact Hp|exact R|exact Hhist|].
    destruct C as [x rest out L1 Et Ed|Et Hnf
      |v x ss r hs t k h L1 Et Ep Hx Es Eh El|v x ss r hs t k h lost L1 Et Ep Hx Es Eh El Est
      |v x ss r hs t k h lost L1 Et Ep Hx Es Eh El Est
      |v x ss r hs t k h L1 Et Ep Hx Es Eh El|b l m x ss r hs h L1 Et Ep Hx Es Eh El Hl
      |x ss r hs P0 k h L1 Et Ep Hx Es Eh El
      |b l ss hs pl L1 Et Ep Ec Hl Ea
      |b l x h m pend own L1 Et Ep El|b l x h m pend own lost L1 Et Ep El Est
      |b l x h m pend own lost L1 Et Ep El Est
      |b l own Et Ep|ss hs Et Ep Ee
      |a r hs h L1 Et Ep Ea El|a r hs h Et Ep Ea El
      |a r hs h L1 Et Ep Ea Er El|a r hs h Et Ep Ea Er El|a r hs h L1 Et Ep Ea Er El
      |a r hs Et Ep Ea Er]; try (rewrite Ep in HR).
    - (* drop *)
      assert (Hlv : live L x).
      { apply (live_link n branch labels L thr p x Hp I). unfold all_of. rewrite Et. apply in_or_app. right; left; reflexivity. }
      destruct x as [[l s] f]. pose proof Hlv as [Hl Ho].
      assert (Hr : rem hist (Thread (t_prog (thr p)) (out ++ rest) (t_round (thr p)) (t_log (thr p))) = rem hist (thr p)) by reflexivity.
      cbn [record]. rewrite Hr.
      assert (Hw : store_weight L1 + 1 <= store_weight L); [|lia].
      unfold lk_drop in Ed. destruct f.
      + destruct (is_fin (l_ty (lk L l) s)); [|destruct (pending (lk L l) s) as [[[v c] t]|] eqn:Hpe]; injection Ed as _ <-.
        * pose proof (store_set L l (Link (l_ty (lk L l)) (l_q (lk L l)) (l_to (lk L l)) (upd (l_open (lk L l)) s false)
                        (l_rx (lk L l)) (l_sig (lk L l))) Hl) as H.
          rewrite !(link_weight_side _ s) in H. unfold side_weight in H. cbn [l_open l_rx l_q] in H.
          rewrite upd_same, upd_neg, Ho in H. cbv iota in H. destruct (l_rx (lk L l) s); lia.
        * pose proof (store_set L l (popped (lk L l) s t) Hl) as H.
          apply pending_some in Hpe. destruct Hpe as [_ Hq]. unfold popped in *. unfold link_weight, side_weight in H.
          cbn [l_open l_rx l_q] in H. rewrite Hq in H. cbn [tl length] in H. lia.
        * pose proof (store_set L l (closed (lk L l) s) Hl) as H.
          rewrite !(link_weight_side _ s) in H. unfold side_weight in H. unfold closed in *. cbn [l_open l_rx l_q] in H.
          rewrite !upd_same, !upd_neg, Ho in H. cbv iota in H. lia.
      + injection Ed as _ <-. destruct Ho as [Ho1 Ho2].
        pose proof (store_set L l (Link (l_ty (lk L l)) (l_q (lk L l)) (l_to (lk L l)) (l_open (lk L l))
                      (upd (l_rx (lk L l)) s false) (upd (l_sig (lk L l)) (negb s) None)) Hl) as H.
        rewrite !(link_weight_side _ s) in H. unfold side_weight in H. cbn [l_open l_rx l_q] in H.
        rewrite upd_same, upd_neg, Ho1, Ho2 in H. cbv iota in H. lia.
    - (* crash *)
      cbn [record]. apply pays_one; [|lia]. unfold rem at 1. cbn [fin t_prog].
      unfold rem. destruct (t_prog (thr p)) as [ss r hs|b l pend own|a r hs|r|hs]; try lia.
      + specialize (Htail (t_round (thr p)) (snd (grnd hist (t_round (thr p))))). lia.
      + exfalso. exact (Hnf r eq_refl).
    - (* send *)
      cbn [record]. destruct (run_field n branch labels hist L thr p ss _ hs x _ h Hp I R Ep Hx Es Eh) as (-> & Hl & Ht & _).
      destruct (send_shape _ _ _ _ _ _ _ _ El) as (_ & ->).
      apply pays_one; [unfold rem; rewrite Ep; cbn [t_prog t_round depth]; lia|].
      pose proof (store_set L (lnk (t_round (thr p)) p x) (Link (upd (l_ty (lk L (lnk (t_round (thr p)) p x))) (p <? x) k)
        (l_q (lk L (lnk (t_round (thr p)) p x)) ++ [(VData t v, [], co k)]) (negb (p <? x))
        (l_open (lk L (lnk (t_round (thr p)) p x))) (l_rx (lk L (lnk (t_round (thr p)) p x))) (l_sig (lk L (lnk (t_round (thr p)) p x)))) Hl) as H.
      unfold link_weight, side_weight in H. cbn [l_open l_rx l_q] in H. rewrite app_length in H. cbn [length] in H. lia.
    - (* send lost *)
      cbn [record]. destruct (run_field n branch labels hist L thr p ss _ hs x _ h Hp I R Ep Hx Es Eh) as (-> & Hl & Ht & _).
      destruct (lost_shape _ _ _ _ _ _ _ _ _ El) as (Ho & -> & ->).
      apply pays_one; [unfold rem; rewrite Ep; cbn [t_prog t_round depth]; lia|].
      match goal with |- store_weight (set_link L ?m ?kk) <= _ => pose proof (store_set L m kk Hl) as H end.
      rewrite !(link_weight_side _ (p <? x)) in H. unfold side_weight in H. cbn [l_open l_rx l_q length] in H.
      rewrite !upd_same, !upd_neg', Ho in H. cbv iota in H. lia.
    - (* send error *)
      cbn [record]. destruct (run_field n branch labels hist L thr p ss _ hs x _ h Hp I R Ep Hx Es Eh) as (-> & Hl & Ht & _).
      destruct (lost_shape _ _ _ _ _ _ _ _ _ El) as (Ho & -> & ->).
      apply pays_one; [unfold rem; rewrite Ep; cbn [fin t_prog t_round depth]; lia|].
      match goal with |- store_weight (set_link L ?m ?kk) <= _ => pose proof (store_set L m kk Hl) as H end.
      rewrite !(link_weight_side _ (p <? x)) in H. unfold side_weight in H. cbn [l_open l_rx l_q length] in H.
      rewrite !upd_same, !upd_neg', Ho in H. cbv iota in H. lia.
    - (* recv *)
      cbn [record]. destruct (run_field n branch labels hist L thr p ss _ hs x _ h Hp I R Ep Hx Es Eh) as (-> & Hl & Ht & _).
      destruct (got_shape _ _ _ _ _ _ _ El) as (t' & Hpend & ->). apply pending_some in Hpend. destruct Hpend as [_ Hq].
      apply pays_one; [unfold rem; rewrite Ep; cbn [t_prog t_round depth]; lia|].
      match goal with |- store_weight (set_link L ?m ?kk) <= _ => pose proof (store_set L m kk Hl) as H end.
      unfold popped in *. unfold link_weight, side_weight in H. cbn [l_open l_rx l_q] in H. rewrite Hq in H. cbn [tl length] in H. lia.
    - (* offer *)
      cbn [record]. destruct (run_field n branch labels hist L thr p ss _ hs x _ h Hp I R Ep Hx Es Eh) as (-> & Hl' & Ht & _).
      destruct (got_shape _ _ _ _ _ _ _ El) as (t' & Hpend & ->). apply pending_some in Hpend. destruct Hpend as [_ Hq].
      assert (Hg : nth_error hist (t_round (thr p)) = Some (x, b, l)).
      { destruct (e_act _ _ _ _ _ _ _ _ EF) as [[H _]|[H|H]].
        - exfalso. specialize (H (t_round (thr p)) x). cbn [t_log] in H. rewrite evs_app in H. cbn in H.
          rewrite !Nat.eqb_refl in H. cbn in H. apply (f_equal (@length _)) in H. rewrite app_length in H. cbn in H. lia.
        - exfalso. destruct H as (x' & v & P' & k' & _ & _ & _ & _ & H & _). cbn [t_log] in H.
          apply app_inv_head in H. discriminate.
        - destruct H as (x' & v & P' & k' & c' & _ & _ & _ & _ & H & H' & _). cbn [t_log] in H.
          apply app_inv_head in H. injection H as <- <-. apply H'. }
      apply pays_one.
      + pose proof (rem_start hist p (S (t_round (thr p))) (mesh (t_round (thr p)) p)
                      (t_log (thr p) ++ [EvRecv (t_round (thr p)) x (VLabel b l p)]) (body P b l) m) as Hs.
        cbn [MeshGlobal.grnd] in Hs. rewrite Hg in Hs. specialize (Hs eq_refl). specialize (Sh _ _ _ _ Hg Hl).
        destruct HR as [-> _].
        assert (Hrem : size (t_round (thr p)) b + 1 <= rem hist (thr p)).
        { unfold rem. rewrite Ep. pose proof (g_hist _ _ _ _ _ G _ _ _ _ Hg) as Ee. rewrite Ee. cbn [tail_weight depth]. lia. }
        unfold branch_g in *. lia.
      + match goal with |- store_weight (set_link L ?m ?kk) <= _ => pose proof (store_set L m kk Hl') as H end.
        unfold popped in *. unfold link_weight, side_weight in H. cbn [l_open l_rx l_q] in H. rewrite Hq in H. cbn [tl length] in H. lia.
    - (* recv error *)
      cbn [record]. destruct (run_field n branch labels hist L thr p ss _ hs x _ h Hp I R Ep Hx Es Eh) as (-> & Hl & Ht & _).
      destruct (goterr_shape _ _ _ _ El) as (_ & _ & ->).
      apply pays_one; [unfold rem; rewrite Ep; cbn [fin t_prog t_round depth]; lia|].
      match goal with |- store_weight (set_link L ?m ?kk) <= _ => pose proof (store_set L m kk Hl) as H end.
      rewrite !(link_weight_side _ (p <? x)) in H. unfold side_weight in H. unfold closed in *. cbn [l_open l_rx l_q] in H.
      rewrite !upd_same, !upd_neg in H. cbv iota in H. lia.
    - (* choose *)
      destruct (new_mesh n (choose_vars n) (branch b l) L pl L1 (choose_vars_spec n) (branch_g_dual n labels P b l Hl) Ea)
        as (_ & Hn & Hold & Hnew & _).
      assert (Hrec : record p (ILabel l) (thr p) hist = hist ++ [(p, b, l)]) by (unfold record; rewrite Et, Ep, Ec; reflexivity).
      rewrite Hrec in *.
      assert (Hround : t_round (thr p) = length hist) by (eapply chooser_last; eauto).
      assert (Hg' : ginv (hist ++ [(p, b, l)]) (set_thr thr p (Thread (PChoose b l (pend_of n (lnext L) p hs) (meshb n (lnext L) p)) []
                                 (t_round (thr p)) (t_log (thr p))))).
      { rewrite <- Hrec. eapply ginv_step with (L := L) (strict := strict); [exact wf|exact Hp|exact I|exact R|exact G|]. eapply TChoose; eauto. }
      assert (Ee : snd (grnd hist (t_round (thr p))) = GChoose p b).
      { rewrite <- (grnd_app P hist (p, b, l)) by lia. apply (g_hist _ _ _ _ _ Hg' _ p b l).
        rewrite Hround, nth_error_app2, Nat.sub_diag by lia. reflexivity. }
      assert (Hw : store_weight L1 = store_weight L + 4 * N).
      { unfold store_weight. rewrite Hn, sum_to_app. f_equal.
        - apply sum_to_ext. intros m Hm. rewrite Hold by exact Hm. reflexivity.
        - rewrite <- (Nat.mul_comm N 4), <- (sum_to_const N 4). apply sum_to_ext. intros m Hm.
          destruct (Hnew (lnext L + m)) as [t ->]; [lia|]. reflexivity. }
      assert (Hlen : length (pend_of n (lnext L) p hs) = n - 1) by (unfold pend_of; rewrite map_length, seq_length; reflexivity).
      unfold rem. rewrite Ep. cbn [t_prog t_round depth]. rewrite Ee, Hlen, Hw. cbn [tail_weight].
      unfold factor. destruct wf as [Hn2 _]. nia.
    - (* choice send *)
      cbn [record]. destruct HR as (Hg & -> & qs & Epend & Hqs). destruct qs as [|q qs]; [discriminate|].
      cbn [map] in Epend. injection Epend as -> -> -> ->. inversion Hqs as [|? ? Hq Hqs']; subst.
      assert (Hin : In (hnd (t_round (thr p)) p q) (held (t_prog (thr p)))) by (rewrite Ep; left; reflexivity).
      destruct (live_link n branch labels L thr p (hnd (t_round (thr p)) p q) Hp I) as [Hl _].
      { unfold all_of. apply in_or_app. left. exact Hin. }
      destruct (send_shape _ _ _ _ _ _ _ _ El) as (_ & ->).
      apply pays_one; [unfold rem; rewrite Ep; cbn [t_prog t_round length]; lia|].
      match goal with |- store_weight (set_link L ?m ?kk) <= _ => pose proof (store_set L m kk Hl) as H end.
      unfold link_weight, side_weight in H. cbn [l_open l_rx l_q] in H. rewrite app_length in H. cbn [length] in H. lia.
    - (* choice send lost *)
      cbn [record]. destruct HR as (Hg & -> & qs & Epend & Hqs). destruct qs as [|q qs]; [discriminate|].
      cbn [map] in Epend. injection Epend as -> -> -> ->. inversion Hqs as [|? ? Hq Hqs']; subst.
      assert (Hin : In (hnd (t_round (thr p)) p q) (held (t_prog (thr p)))) by (rewrite Ep; left; reflexivity).
      destruct (live_link n branch labels L thr p (hnd (t_round (thr p)) p q) Hp I) as [Hl _].
      { unfold all_of. apply in_or_app. left. exact Hin. }
      destruct (lost_shape _ _ _ _ _ _ _ _ _ El) as (Ho & -> & ->).
      apply pays_one; [unfold rem; rewrite Ep; cbn [t_prog t_round length]; lia|].
      match goal with |- store_weight (set_link L ?m ?kk) <= _ => pose proof (store_set L m kk Hl) as H end.
      rewrite !(link_weight_side _ (p <? q)) in H. unfold side_weight in H. cbn [l_open l_rx l_q length] in H.
      rewrite !upd_same, !upd_neg', Ho in H. cbv iota in H. lia.
    - (* choice send error *)
      cbn [record]. destruct HR as (Hg & -> & qs & Epend & Hqs). destruct qs as [|q qs]; [discriminate|].
      cbn [map] in Epend. injection Epend as -> -> -> ->. inversion Hqs as [|? ? Hq Hqs']; subst.
      assert (Hin : In (hnd (t_round (thr p)) p q) (held (t_prog (thr p)))) by (rewrite Ep; left; reflexivity).
      destruct (live_link n branch labels L thr p (hnd (t_round (thr p)) p q) Hp I) as [Hl _].
      { unfold all_of. apply in_or_app. left. exact Hin. }
      destruct (lost_shape _ _ _ _ _ _ _ _ _ El) as (Ho & -> & ->).
      apply pays_one; [unfold rem; rewrite Ep; cbn [fin t_prog t_round length]; lia|].
      match goal with |- store_weight (set_link L ?m ?kk) <= _ => pose proof (store_set L m kk Hl) as H end.
      rewrite !(link_weight_side _ (p <? q)) in H. unfold side_weight in H. cbn [l_open l_rx l_q length] in H.
      rewrite !upd_same, !upd_neg', Ho in H. cbv iota in H. lia.
    - (* enter *)
      cbn [record]. destruct HR as (Hg & _). apply pays_one; [|lia].
      pose proof (rem_start hist p (S (t_round (thr p))) [] (t_log (thr p)) (body P b l) own) as Hs.
      cbn [MeshGlobal.grnd] in Hs. rewrite Hg in Hs. specialize (Hs eq_refl).
      rewrite Ep in PO. destruct PO as (Hl & _). specialize (Sh _ _ _ _ Hg Hl).
      assert (Hrem : size (t_round (thr p)) b + 1 <= rem hist (thr p)) by (unfold rem; rewrite Ep; cbn; lia).
      unfold branch_g in *. lia.
    - (* close *)
      cbn [record]. apply pays_one; [|lia]. unfold rem. rewrite Ep. cbn [t_prog t_round depth].
      unfold MeshGlobal.gthr in HG. rewrite Ep in HG. destruct HG as (pre & suf & E1 & E2 & E3 & E4).
      destruct suf as [|m suf]; [|exfalso; cbn in E2, E4; unfold involves in E2;
        destruct (from m =? p); [discriminate|]; destruct (into m =? p); discriminate].
      destruct (snd (grnd hist (t_round (thr p)))) as [|c b]; [cbn [tail_weight]; destruct wf; lia|].
      exfalso. cbn in E4. destruct (p =? c); discriminate.
    - cbn [record]. destruct HR as (-> & _). destruct (mesh_field n _ _ _ _ Hp Ea) as (x & Hx & -> & ->).
      assert (Hl : lnk (t_round (thr p)) p x < lnext L).
      { destruct (live_link n branch labels L thr p (hnd (t_round (thr p)) p x) Hp I) as [H _]; [|exact H].
        unfold all_of. rewrite Ep. apply in_or_app. left. apply in_mesh; assumption. }
      pose proof (tell_shape _ _ _ _ _ El) as ->. pose proof (nth_error_len _ _ _ _ Ea) as Hlen.
      unfold MeshRounds.mesh in Hlen. rewrite meshb_length in Hlen.
      apply pays_one; [unfold rem; rewrite Ep; cbn [t_prog t_round]; lia|].
      match goal with |- store_weight (set_link L ?m ?kk) <= _ => pose proof (store_set L m kk Hl) as H end.
      unfold link_weight, side_weight in H. cbn [l_open l_rx l_q] in H. lia.
    - cbn [record]. apply pays_one; [unfold rem; rewrite Ep; cbn [fin t_prog t_round]; lia|lia].
    - cbn [record]. destruct HR as (-> & _). destruct (mesh_field n _ _ _ _ Hp Er) as (x & Hx & -> & ->).
      assert (Hl : lnk (t_round (thr p)) p x < lnext L).
      { destruct (live_link n branch labels L thr p (hnd (t_round (thr p)) p x) Hp I) as [H _]; [|exact H].
        unfold all_of. rewrite Ep. apply in_or_app. left. apply in_mesh; assumption. }
      destruct (hear_shape _ _ _ _ _ El) as [_ ->]. pose proof (nth_error_len _ _ _ _ Er) as Hlen.
      unfold MeshRounds.mesh in Hlen. rewrite meshb_length in Hlen.
      apply pays_one; [unfold rem; rewrite Ep; cbn [t_prog t_round]; lia|].
      match goal with |- store_weight (set_link L ?m ?kk) <= _ => pose proof (store_set L m kk Hl) as H end.
      unfold link_weight, side_weight in H. cbn [l_open l_rx l_q] in H. lia.
    - cbn [record]. apply pays_one; [unfold rem; rewrite Ep; cbn [fin t_prog t_round]; lia|lia].
    - cbn [record]. destruct HR as (-> & _). destruct (mesh_field n _ _ _ _ Hp Er) as (x & Hx & -> & ->).
      assert (Hl : lnk (t_round (thr p)) p x < lnext L).
      { destruct (live_link n branch labels L thr p (hnd (t_round (thr p)) p x) Hp I) as [H _]; [|exact H].
        unfold all_of. rewrite Ep. apply in_or_app. left. apply in_mesh; assumption. }
      destruct (hear_shape _ _ _ _ _ El) as [_ ->].
      apply pays_one; [unfold rem; rewrite Ep; cbn [fin t_prog t_round]; lia|].
      match goal with |- store_weight (set_link L ?m ?kk) <= _ => pose proof (store_set L m kk Hl) as H end.
      unfold link_weight, side_weight in H. cbn [l_open l_rx l_q] in H. lia.
    - cbn [record]. apply pays_one; [unfold rem; rewrite Ep; cbn [fin t_prog t_round]; lia|lia].
  Qed.

  Notation init_l := (init link_ops n T empty_links).

  (** The bound: a function of the protocol and the number of roles only. *)
  Definition bound : nat := 4 * N + factor * (n * weight n (size 0) (first_round P)).

  Lemma total_init : total [] (st_store init_l) (st_thr init_l) <= bound.
  Proof.
    destruct (init_form n T (T_g_dual n P)) as (L & _ & Hn & Hnew & _ & -> & Hthr). unfold total, bound.
    assert (H1 : store_weight L = 4 * N).
    { unfold store_weight. rewrite Hn. rewrite <- (Nat.mul_comm N 4), <- (sum_to_const N 4). apply sum_to_ext.
      intros m Hm. destruct (Hnew m Hm) as [t ->]. reflexivity. }
    assert (H2 : rems [] (st_thr init_l) <= n * weight n (size 0) (first_round P)).
    { unfold rems. apply sum_to_le. intros i Hi. rewrite Hthr by lia. apply rem_start. reflexivity. }
    rewrite H1. apply Nat.add_le_mono_l, Nat.mul_le_mono_l, H2.
  Qed.

  Hypothesis finite : forall g b l, l < labels b -> weight n (size (S g)) (body P b l) <= size g b.

  Theorem bounded_links : forall tr st, steps link_ops n branch labels strict init_l tr st -> length tr <= bound.
  Proof.
    intros tr st H.
    destruct (reach_inv n branch labels strict (branch_g_dual n labels P) T (T_g_dual n P)
                (fun tr hist L thr => ginv hist thr /\ length tr + total hist L thr <= bound)) with (tr := tr) (st := st)
      as (hist & _ & _ & _ & _ & H1); [| |exact H|lia].
    - split; [apply ginv_init; exact wf|]. apply total_init.
    - intros tr0 hist L thr p i th' L' Hp I R D [G Hb] C. split; [eapply ginv_step; eauto|].
      pose proof (step_pays hist L thr p i th' L' Hp I R G (fun g c b l _ => finite g b l) C). rewrite app_length. cbn [length]. lia.
  Qed.
End Bound.
