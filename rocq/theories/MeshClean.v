(** Runs in which nobody crashes: nothing fails and nothing is lost. First for any pairwise dual types whose roles leave
    a round only when they have nothing left to do in it; then for global protocols. *)
From Coq Require Import List Arith Bool Lia Permutation.
From Verif Require Import Types Diag DiagProofs Wiring WiringProofs Session Mesh MeshSpec Links LinksProofs Refine Sim
  MeshWire MeshInv MeshStep MeshKeep MeshSafe MeshRounds MeshRun MeshLog MeshReach Global MeshGlobal MeshSignal
  MeshProgress.
Import ListNotations.

Section General.
  Variable n : nat.
  Variable branch : nat -> nat -> nat -> mty.
  Variable labels : nat -> nat.
  Variable strict : bool.
  Hypothesis branch_dual : forall b l, l < labels b -> dual_mesh n (branch b l).
  Variable T : nat -> mty.
  Hypothesis T_dual : dual_mesh n T.

  Notation lthread := (@thread handle).
  Notation tcase := (tcase n branch labels strict).
  Notation inv := (inv n branch labels).
  Notation rinv := (rinv n labels).
  Notation dinv := (dinv n branch labels T).
  Notation sinv := (sinv n).
  Notation peer_role := (peer_role n).
  Notation lnk := (lnk n).
  Notation hnd := (hnd n).
  Notation mesh := (mesh n).
  Notation kept := (kept n).

  Definition to (e : nat * handle * list handle) : nat := fst (fst e).

  (** The thread is done with its end towards q of round g. *)
  Definition left_end (th : lthread) (q g : nat) : Prop :=
    g < t_round th \/ t_round th = g /\
    match t_prog th with PFin ROk => True | PChoose _ _ pend _ => ~ In q (map to pend) | _ => False end.

  Definition all_in (thr : nat -> lthread) (g p q : nat) : Prop :=
    outs (evs g p (t_log (thr q))) = ins (evs g q (t_log (thr p))).

  Definition done_end (L : links) (thr : nat -> lthread) (g p q : nat) : Prop :=
    left_end (thr p) q g /\ l_ty (lk L (lnk g p q)) (p <? q) = End /\ all_in thr g p q.

  Record cinv (L : links) (thr : nat -> lthread) : Prop := CInv {
    c_ok : forall p r, 1 <= p <= n -> t_prog (thr p) = PFin r -> r = ROk;
    c_pend : forall p b l pend own, 1 <= p <= n -> t_prog (thr p) = PChoose b l pend own -> NoDup (map to pend);
    c_trash : forall p m s, 1 <= p <= n -> In (m, s, true) (t_trash (thr p)) ->
      exists g q, peer_role p q /\ (m, s, true) = hnd g p q;
    c_left : forall g p q, 1 <= p <= n -> peer_role p q -> lnk g p q < lnext L ->
      kept L thr (hnd g p q) \/ done_end L thr g p q
  }.

  Lemma not_open : forall L thr g p q, cinv L thr -> 1 <= p <= n -> peer_role p q -> lnk g p q < lnext L ->
    l_open (lk L (lnk g p q)) (p <? q) = false -> done_end L thr g p q.
  Proof.
    intros L thr g p q C Hp Hq Hm Ho. destruct (c_left _ _ C g p q Hp Hq Hm) as [[H _]|H]; [|exact H].
    apply full_avail in H. destruct H as [_ H]. congruence.
  Qed.

  (** *** What a step may do to the ends *)

  Definition log_act (p : nat) (L : links) (th th' : lthread) : Prop :=
    (forall g x, evs g x (t_log th') = evs g x (t_log th)) \/
    exists x v Q k, let m := lnk (t_round th) p x in let s := p <? x in
      peer_role p x /\ m < lnext L /\
      ((l_ty (lk L m) s = Snd Q k /\ t_log th' = t_log th ++ [EvSend (t_round th) x v]) \/
       (l_ty (lk L m) s = Rcv Q k /\ t_log th' = t_log th ++ [EvRecv (t_round th) x v])).

  Lemma all_in_stays : forall L thr p th' g a q, wf_links L -> 1 <= p <= n -> log_act p L (thr p) th' ->
    1 <= a <= n -> peer_role a q -> l_ty (lk L (lnk g a q)) (a <? q) = End ->
    all_in thr g a q -> all_in (set_thr thr p th') g a q.
  Proof.
    intros L thr p th' g a q W Hp HA Ha Hq Ht H. unfold all_in in *.
    destruct HA as [HA|(x & v & Q & k & HA)].
    - unfold set_thr. destruct (Nat.eqb_spec q p) as [->|], (Nat.eqb_spec a p) as [->|]; rewrite ?HA; assumption.
    - cbn zeta in HA. destruct HA as (Hx & Hm & HA). set (g0 := t_round (thr p)) in *.
      assert (Hmiss : forall d : bool, t_log th' = t_log (thr p) ++ [if d then EvSend g0 x v else EvRecv g0 x v] ->
                forall g' x', (g', x') <> (g0, x) -> evs g' x' (t_log th') = evs g' x' (t_log (thr p)))
        by (intros d E g' x' Hd; rewrite E; exact (evs_miss g' x' g0 x (t_log (thr p)) d v Hd)).
      destruct (Nat.eq_dec q p) as [->|Hqp].
      + assert (Hap : a <> p) by (destruct Hq; congruence).
        rewrite set_here, set_there by exact Hap.
        destruct HA as [[Ht' E]|[Ht' E]].
        * destruct (Nat.eq_dec g g0) as [->|]; [destruct (Nat.eq_dec a x) as [->|]|].
          -- exfalso. rewrite (lnk_sym n) in Ht. rewrite (side_other p x) in Ht by congruence.
             pose proof (snd_dual _ (p <? x) (W _ Hm)) as Hd. rewrite Ht', Ht in Hd. discriminate (Hd eq_refl).
          -- rewrite (Hmiss true E) by congruence. exact H.
          -- rewrite (Hmiss true E) by congruence. exact H.
        * rewrite E, evs_app, outs_app. rewrite H.
          replace (outs (evs g a [EvRecv g0 x v])) with (@nil value); [apply app_nil_r|].
          cbn. destruct ((g0 =? g) && (x =? a)); reflexivity.
      + rewrite (set_there thr p q) by exact Hqp. destruct (Nat.eq_dec a p) as [->|Hap].
        * rewrite set_here. destruct HA as [[Ht' E]|[Ht' E]].
          -- rewrite E, evs_app, ins_app, H. replace (ins (evs g q [EvSend g0 x v])) with (@nil value); [symmetry; apply app_nil_r|].
             cbn. destruct ((g0 =? g) && (x =? q)); reflexivity.
          -- destruct (Nat.eq_dec g g0) as [->|]; [destruct (Nat.eq_dec q x) as [->|]|].
             ++ exfalso. congruence.
             ++ rewrite (Hmiss false E) by congruence. exact H.
             ++ rewrite (Hmiss false E) by congruence. exact H.
        * rewrite set_there by exact Hap. exact H.
  Qed.

  Lemma left_generic : forall L thr p th' L', wf_links L -> 1 <= p <= n -> cinv L thr ->
    (forall m s, m < lnext L -> l_ty (lk L m) s = End -> l_ty (lk L' m) s = End) ->
    log_act p L (thr p) th' ->
    (forall q g, left_end (thr p) q g -> left_end th' q g) ->
    (forall g a q, 1 <= a <= n -> peer_role a q -> lnk g a q < lnext L -> kept L thr (hnd g a q) ->
       kept L' (set_thr thr p th') (hnd g a q) \/ done_end L' (set_thr thr p th') g a q) ->
    (forall g a q, 1 <= a <= n -> peer_role a q -> lnext L <= lnk g a q < lnext L' ->
       kept L' (set_thr thr p th') (hnd g a q)) ->
    forall g a q, 1 <= a <= n -> peer_role a q -> lnk g a q < lnext L' ->
      kept L' (set_thr thr p th') (hnd g a q) \/ done_end L' (set_thr thr p th') g a q.
  Proof.
    intros L thr p th' L' W Hp C Hty Hlog Hleft Hkeep Hnew g a q Ha Hq Hm.
    destruct (lt_dec (lnk g a q) (lnext L)) as [Hold|Hge]; [|left; apply Hnew; auto; lia].
    destruct (c_left _ _ C g a q Ha Hq Hold) as [Hk|(H1 & H2 & H3)]; [apply Hkeep; assumption|].
    right. split; [|split].
    - unfold set_thr. destruct (Nat.eqb_spec a p) as [->|]; auto.
    - apply Hty; assumption.
    - eapply all_in_stays; eassumption.
  Qed.

  Lemma kept_calm : forall L thr p (th' : lthread) L' m s,
    (forall s, l_open (lk L' m) s = l_open (lk L m) s) -> lnext L <= lnext L' ->
    kept L thr (m, s, true) -> ~ In (m, s, true) (t_trash th') -> kept L' (set_thr thr p th') (m, s, true).
  Proof.
    intros L thr p th' L' m s Ho Hn [H1 H2] H3. split.
    - apply full_avail. apply full_avail in H1. rewrite Ho. split; [lia|apply H1].
    - intros q Hq. unfold set_thr. destruct (Nat.eqb_spec q p) as [->|]; auto.
  Qed.

  (** A step that closes no end and throws nothing away. *)
  Lemma calm : forall L thr p th' L', wf_links L -> 1 <= p <= n -> cinv L thr ->
    (forall m s, m < lnext L -> l_ty (lk L m) s = End -> l_ty (lk L' m) s = End) ->
    (forall m s, m < lnext L -> l_open (lk L' m) s = l_open (lk L m) s) ->
    lnext L' = lnext L -> log_act p L (thr p) th' ->
    (forall q g, left_end (thr p) q g -> left_end th' q g) ->
    t_trash th' = [] ->
    (forall r, t_prog th' <> PFin r) ->
    (forall b l pend own, t_prog th' = PChoose b l pend own -> NoDup (map to pend)) ->
    cinv L' (set_thr thr p th').
  Proof.
    intros L thr p th' L' W Hp C Hty Ho Hn Hlog Hleft Et Hf Hpd. constructor.
    - intros q r Hq E. unfold set_thr in E. destruct (Nat.eqb_spec q p) as [->|]; [destruct (Hf _ E)|eapply C; eauto].
    - intros q b l pend own Hq E. unfold set_thr in E. destruct (Nat.eqb_spec q p) as [->|]; [eapply Hpd; eauto|].
      exact (c_pend _ _ C q b l pend own Hq E).
    - intros q m s Hq E. unfold set_thr in E. destruct (Nat.eqb_spec q p) as [->|]; [rewrite Et in E; contradiction|].
      eapply C; eauto.
    - eapply left_generic; eauto.
      + intros g a q Ha Hq Hm Hk. left. apply (kept_calm L thr p); [intros; apply Ho; exact Hm|lia|exact Hk|rewrite Et; intros []].
      + intros; lia.
  Qed.

  (** A step after which p throws away ends it has finished with. *)
  Lemma leave : forall L thr p th' L', wf_links L -> 1 <= p <= n -> cinv L thr ->
    (forall m s, m < lnext L -> l_ty (lk L m) s = End -> l_ty (lk L' m) s = End) ->
    (forall m s, m < lnext L -> l_open (lk L' m) s = l_open (lk L m) s) ->
    lnext L' = lnext L -> log_act p L (thr p) th' ->
    (forall q g, left_end (thr p) q g -> left_end th' q g) ->
    (forall y, In y (t_trash th') -> exists q, peer_role p q /\ y = hnd (t_round (thr p)) p q /\
       done_end L' (set_thr thr p th') (t_round (thr p)) p q) ->
    (forall r, t_prog th' = PFin r -> r = ROk) ->
    (forall b l pend own, t_prog th' = PChoose b l pend own -> NoDup (map to pend)) ->
    cinv L' (set_thr thr p th').
  Proof.
    intros L thr p th' L' W Hp C Hty Ho Hn Hlog Hleft Htr Hf Hpd. constructor.
    - intros q r Hq E. unfold set_thr in E. destruct (Nat.eqb_spec q p) as [->|]; [auto|eapply C; eauto].
    - intros q b l pend own Hq E. unfold set_thr in E. destruct (Nat.eqb_spec q p) as [->|]; [eapply Hpd; eauto|].
      exact (c_pend _ _ C q b l pend own Hq E).
    - intros q m s Hq E. unfold set_thr in E. destruct (Nat.eqb_spec q p) as [->|].
      + destruct (Htr _ E) as (x & Hx & -> & _). eauto.
      + eapply C; eauto.
    - eapply left_generic; eauto.
      + intros g a q Ha Hq Hm Hk. destruct (in_dec handle_eq_dec (hnd g a q) (t_trash th')) as [Hin|Hin].
        * right. destruct (Htr _ Hin) as (x & Hx & E & HD). injection E as E1 E2.
          destruct (hnd_inj n _ _ _ _ _ _ Ha Hq Hp Hx E1 E2) as (-> & -> & ->). exact HD.
        * left. apply (kept_calm L thr p); [intros; apply Ho; exact Hm|lia|exact Hk|exact Hin].
      + intros; lia.
  Qed.

  Lemma open_set : forall L m k', l_open k' = l_open (lk L m) ->
    forall m0 s, m0 < lnext L -> l_open (lk (set_link L m k') m0) s = l_open (lk L m0) s.
  Proof.
    intros L m k' E m0 s _. destruct (Nat.eq_dec m0 m) as [->|Hne].
    - rewrite lk_set_same, E. reflexivity.
    - rewrite lk_set_other by exact Hne. reflexivity.
  Qed.

  Lemma ty_set : forall L m s t k', l_ty (lk L m) s <> End -> l_ty k' = upd (l_ty (lk L m)) s t ->
    forall m0 s0, m0 < lnext L -> l_ty (lk L m0) s0 = End -> l_ty (lk (set_link L m k') m0) s0 = End.
  Proof.
    intros L m s t k' Hne E m0 s0 _ H. destruct (Nat.eq_dec m0 m) as [->|Hd].
    - rewrite lk_set_same, E. destruct (bool_cases s s0) as [-> | ->]; [contradiction|]. rewrite upd_neg. exact H.
    - rewrite lk_set_other by exact Hd. exact H.
  Qed.

  Lemma ty_same : forall L m k', l_ty k' = l_ty (lk L m) ->
    forall m0 s0, m0 < lnext L -> l_ty (lk L m0) s0 = End -> l_ty (lk (set_link L m k') m0) s0 = End.
  Proof.
    intros L m k' E m0 s0 _ H. destruct (Nat.eq_dec m0 m) as [->|Hd].
    - rewrite lk_set_same, E. exact H.
    - rewrite lk_set_other by exact Hd. exact H.
  Qed.

  Lemma end_no_tow : forall k s, wf_link k -> l_ty k s = End -> tow k s = [].
  Proof.
    intros k s W H. destruct (bool_cases s (l_to k)) as [E|E]; [|apply tow_there; exact E].
    apply tow_nil. pose proof (wf_ty k W) as Ht. rewrite E, H in Ht. destruct (l_q k) as [|[[v c] t] q]; [reflexivity|].
    cbn in Ht. destruct Ht as [Ht _]. discriminate.
  Qed.

  Lemma left_same : forall (th th' : lthread) q g, (forall r, t_prog th <> PFin r) ->
    (forall b l pend own, t_prog th <> PChoose b l pend own) -> t_round th <= t_round th' ->
    left_end th q g -> left_end th' q g.
  Proof.
    intros th th' q g H1 H2 H3 [H|[H H4]]; [left; lia|].
    destruct (t_prog th) as [| | |r|]; try contradiction; exfalso; [eapply H2|eapply H1]; reflexivity.
  Qed.

  Lemma rcv_not_left : forall k s P t, wf_link k -> l_ty k s = Rcv P t -> l_ty k (negb s) = End -> pending k s <> None.
  Proof.
    intros k s P t W H1 H2 Hp. assert (Hq : l_q k = []).
    { destruct (bool_cases s (l_to k)) as [E|E].
      - unfold pending in Hp. rewrite E, Bool.eqb_reflx in Hp. destruct (l_q k); [reflexivity|discriminate].
      - pose proof (wf_ty k W) as Ht. rewrite <- E in H2. rewrite H2 in Ht.
        destruct (l_q k) as [|[[v c] t'] q]; [reflexivity|]. cbn in Ht. destruct Ht as [Ht _]. discriminate. }
    pose proof (sync_dual k s W Hq) as E. rewrite H1, H2 in E. discriminate.
  Qed.

  Lemma cinv_step_gen : forall hist L thr p i th' L', 1 <= p <= n -> i <> ICrash -> inv L thr -> rinv hist L thr ->
    dinv hist L thr -> sinv L thr -> cinv L thr ->
    (* when it takes an offer, the role has nothing left to do with the others *)
    (forall x ss r hs b q, t_prog (thr p) = PRun ss (SRole x r) hs -> peer_role p x ->
       nth_error ss (field_pos p x) = Some (Rcv (PChoice b p) End) -> peer_role p q -> q <> x ->
       nth_error ss (field_pos p q) = Some End) ->
    (* who has left the round in which the role closes has closed too *)
    (forall x a r hs, t_prog (thr p) = PClose a r hs -> peer_role p x -> left_end (thr x) p (t_round (thr p)) ->
       t_round (thr x) = t_round (thr p) /\ t_prog (thr x) = PFin ROk) ->
    tcase p (thr p) L i th' L' -> cinv L' (set_thr thr p th').
  Proof.
    intros hist L thr p i th' L' Hp Hi I R D SI C Hoff Hgone CA.
    pose proof (i_wf _ _ _ _ _ I) as W. pose proof (i_q _ _ _ _ _ I) as Q.
    pose proof (r_thr _ _ _ _ _ R p Hp) as [Hle HR].
    (* nobody is gone while a send is left *)
    assert (Hsend : forall x, peer_role p x -> lnk (t_round (thr p)) p x < lnext L ->
              is_snd (l_ty (lk L (lnk (t_round (thr p)) p x)) (p <? x)) = true ->
              l_open (lk L (lnk (t_round (thr p)) p x)) (negb (p <? x)) = true).
    { intros x Hx Hm Hs. destruct (l_open (lk L (lnk (t_round (thr p)) p x)) (negb (p <? x))) eqn:Eo; [reflexivity|].
      exfalso. destruct (peer_sym n p x Hp Hx) as [Hx' Hpx].
      rewrite <- (side_other p x) in Eo by (destruct Hx; congruence). rewrite (lnk_sym n) in Eo, Hm.
      destruct (not_open L thr _ x p C Hx' Hpx Hm Eo) as (_ & Ht & _).
      rewrite (lnk_sym n) in Ht, Hm. rewrite (side_other p x) in Ht by (destruct Hx; congruence).
      pose proof (snd_dual _ _ (W _ Hm) Hs) as Hd. rewrite Ht in Hd. discriminate. }
    destruct CA as [x rest out L1 Et Ed|Et Hnf
      |v x ss r hs t k h L1 Et Ep Hx Es Eh El|v x ss r hs t k h lost L1 Et Ep Hx Es Eh El Est
      |v x ss r hs t k h lost L1 Et Ep Hx Es Eh El Est
      |v x ss r hs t k h L1 Et Ep Hx Es Eh El|b l m x ss r hs h L1 Et Ep Hx Es Eh El Hl
      |x ss r hs P0 k h L1 Et Ep Hx Es Eh El
      |b l ss hs pl L1 Et Ep Ec Hl Ea
      |b l x h m pend own L1 Et Ep El|b l x h m pend own lost L1 Et Ep El Est
      |b l x h m pend own lost L1 Et Ep El Est
      |b l own Et Ep|ss hs Et Ep Ee
      |a r hs h L1 Et Ep Ea El|a r hs h Et Ep Ea El
      |a r hs h L1 Et Ep Ea Er El|a r hs h Et Ep Ea Er El|a r hs h L1 Et Ep Ea Er El
      |a r hs Et Ep Ea Er]; try (rewrite Ep in HR).
    - (* drop *)
      destruct x as [[l s] f].
      assert (Hlv : live L (l, s, f)).
      { apply (live_link n branch labels L thr p _ Hp I). unfold all_of. rewrite Et. apply in_or_app. right; left; reflexivity. }
      destruct Hlv as [Hl Ho].
      assert (Hfin : f = true -> l_ty (lk L l) s = End).
      { intros ->. destruct (c_trash _ _ C p l s Hp) as (g & q & Hq & E); [rewrite Et; left; reflexivity|].
        injection E as -> ->. destruct (c_left _ _ C g p q Hp Hq Hl) as [[_ Hk]|(_ & H & _)]; [|exact H].
        exfalso. apply (Hk p Hp). rewrite Et. left. reflexivity. }
      assert (Hfacts : (forall m s, m < lnext L -> l_ty (lk L1 m) s = l_ty (lk L m) s) /\ lnext L1 = lnext L /\
                (forall m0 s0, m0 < lnext L -> (m0, s0, true) <> (l, s, f) -> l_open (lk L1 m0) s0 = l_open (lk L m0) s0) /\
                (forall m0 s0, In (m0, s0, true) (out ++ rest) -> In (m0, s0, true) rest)).
      { unfold lk_drop in Ed. destruct f.
        - rewrite (Hfin eq_refl) in Ed. cbn [is_fin] in Ed. injection Ed as <- <-. split; [|split; [reflexivity|split]].
          + intros m0 s0 _. destruct (Nat.eq_dec m0 l) as [->|Hne]; [rewrite lk_set_same|rewrite lk_set_other by exact Hne]; reflexivity.
          + intros m0 s0 _ Hne. destruct (Nat.eq_dec m0 l) as [->|Hd]; [|rewrite lk_set_other by exact Hd; reflexivity].
            rewrite lk_set_same. cbn [l_open]. destruct (bool_cases s s0) as [-> | ->]; [congruence|]. rewrite upd_neg. reflexivity.
          + intros m0 s0 [E|H]; [discriminate|exact H].
        - injection Ed as <- <-. split; [|split; [reflexivity|split]].
          + intros m0 s0 _. destruct (Nat.eq_dec m0 l) as [->|Hne]; [rewrite lk_set_same|rewrite lk_set_other by exact Hne]; reflexivity.
          + intros m0 s0 _ _. destruct (Nat.eq_dec m0 l) as [->|Hne]; [rewrite lk_set_same|rewrite lk_set_other by exact Hne]; reflexivity.
          + intros m0 s0 H. exact H. }
      destruct Hfacts as (F1 & F2 & F3 & F4). constructor.
      + intros q r Hq E. unfold set_thr in E. destruct (Nat.eqb_spec q p) as [->|]; eapply C; eauto.
      + intros q b0 l0 pend own Hq E. unfold set_thr in E. destruct (Nat.eqb_spec q p) as [->|].
        * exact (c_pend _ _ C p b0 l0 pend own Hp E).
        * exact (c_pend _ _ C q b0 l0 pend own Hq E).
      + intros q m0 s0 Hq E. unfold set_thr in E. destruct (Nat.eqb_spec q p) as [->|]; [|eapply C; eauto].
        apply (c_trash _ _ C p m0 s0 Hp). rewrite Et. right. apply F4. exact E.
      + eapply left_generic; eauto.
        * intros m0 s0 Hm H. rewrite F1 by exact Hm. exact H.
        * left. reflexivity.
        * intros g a q Ha Hq Hm Hk. left.
          assert (Hne : hnd g a q <> (l, s, f)).
          { intros E. apply (proj2 Hk p Hp). rewrite Et, E. left. reflexivity. }
          destruct Hk as [K1 K2]. split.
          -- apply full_avail. apply full_avail in K1. rewrite F2, F3; auto.
          -- intros q0 Hq0. unfold set_thr. destruct (Nat.eqb_spec q0 p) as [->|]; [|apply K2, Hq0]. cbn [t_trash].
             intros H. apply F4 in H. apply (K2 p Hp). rewrite Et. right. exact H.
        * intros; lia.
    - congruence.
    - (* send *)
      destruct (run_field n branch labels hist L thr p ss _ hs x _ h Hp I R Ep Hx Es Eh) as (-> & Hl & Ht & _).
      destruct (send_shape _ _ _ _ _ _ _ _ El) as (_ & ->). eapply calm; eauto.
      + eapply ty_set; [|reflexivity]. rewrite Ht. discriminate.
      + apply open_set. reflexivity.
      + right. exists x, (VData t v), (PVal t), k. cbn zeta. split; [exact Hx|]. split; [exact Hl|]. left. auto.
      + intros q g H. eapply left_same; [..|exact H]; cbn; try (intros; rewrite Ep; discriminate); lia.
      + cbn. discriminate.
      + cbn. discriminate.
    - (* lost *)
      exfalso. destruct (run_field n branch labels hist L thr p ss _ hs x _ h Hp I R Ep Hx Es Eh) as (-> & Hl & Ht & _).
      destruct (lost_shape _ _ _ _ _ _ _ _ _ El) as (Ho & _). rewrite Hsend in Ho; auto; [discriminate|]. rewrite Ht. reflexivity.
    - exfalso. destruct (run_field n branch labels hist L thr p ss _ hs x _ h Hp I R Ep Hx Es Eh) as (-> & Hl & Ht & _).
      destruct (lost_shape _ _ _ _ _ _ _ _ _ El) as (Ho & _). rewrite Hsend in Ho; auto; [discriminate|]. rewrite Ht. reflexivity.
    - (* recv *)
      destruct (run_field n branch labels hist L thr p ss _ hs x _ h Hp I R Ep Hx Es Eh) as (-> & Hl & Ht & _).
      destruct (got_shape _ _ _ _ _ _ _ El) as (t' & Hpend & ->). eapply calm; eauto.
      + eapply ty_set; [|reflexivity]. rewrite Ht. discriminate.
      + apply open_set. reflexivity.
      + right. exists x, (VData t v), (PVal t), k. cbn zeta. split; [exact Hx|]. split; [exact Hl|]. right. auto.
      + intros q g H. eapply left_same; [..|exact H]; cbn; try (intros; rewrite Ep; discriminate); lia.
      + cbn. discriminate.
      + cbn. discriminate.
    - (* offer *)
      destruct (run_field n branch labels hist L thr p ss _ hs x _ h Hp I R Ep Hx Es Eh) as (-> & Hl' & Ht & _).
      destruct (got_shape _ _ _ _ _ _ _ El) as (t' & Hpend & ->).
      destruct (recv_typed n branch labels L _ _ _ _ _ _ _ Hl' Q Ht Hpend) as [-> _].
      destruct HR as [-> Hno].
      assert (Hact : log_act p L (thr p) (Thread (PRun (fst (branch b l p)) (snd (branch b l p)) m) (mesh (t_round (thr p)) p)
                (S (t_round (thr p))) (t_log (thr p) ++ [EvRecv (t_round (thr p)) x (VLabel b l p)]))).
      { right. exists x, (VLabel b l p), (PChoice b p), End. cbn zeta. split; [exact Hx|]. split; [exact Hl'|]. right. auto. }
      eapply leave; eauto.
      + eapply ty_set; [|reflexivity]. rewrite Ht. discriminate.
      + apply open_set. reflexivity.
      + intros q g H. eapply left_same; [..|exact H]; cbn; try (intros; rewrite Ep; discriminate); lia.
      + cbn [t_trash]. intros y Hy. destruct (mesh_in n _ p y Hp Hy) as (q & Hq & ->). exists q. split; [exact Hq|]. split; [reflexivity|].
        split; [rewrite set_here; left; cbn; lia|].
        assert (Hk : kept L thr (hnd (t_round (thr p)) p q)) by (eapply held_kept; eauto; rewrite Ep; apply in_mesh; assumption).
        destruct (d_sync _ _ _ _ _ _ _ D _ p q Hp Hq Hk) as [HS _].
        destruct (Nat.eq_dec q x) as [->|Hqx].
        * rewrite lk_set_same. cbn [popped l_ty]. rewrite upd_same. split; [reflexivity|].
          apply pending_some in Hpend. destruct Hpend as [Hto Hq0].
          assert (Htl : tl (l_q (lk L (lnk (t_round (thr p)) p x))) = []).
          { pose proof (Q _ Hl') as HQ. rewrite Hq0, Hto, Ht in HQ. cbn [qtyped] in HQ. destruct HQ as (P' & _ & _ & HQ).
            destruct (tl (l_q (lk L (lnk (t_round (thr p)) p x)))) as [|[[v0 c0] t0] q0]; [reflexivity|].
            cbn in HQ. destruct HQ as (P2 & HQ & _). discriminate. }
          rewrite (tow_here _ _ Hto), Hq0, Htl in HS. cbn [map] in HS.
          unfold all_in. rewrite set_here, set_there by (destruct Hx; congruence). cbn [t_log].
          rewrite (evs_hit (t_round (thr p)) x (t_log (thr p)) false), ins_app. exact HS.
        * assert (Hsq : nth_error ss (field_pos p q) = Some End).
          { eapply Hoff; eauto. }
          destruct (run_field n branch labels hist L thr p ss _ _ q _ _ Hp I R Ep Hq Hsq (mesh_nth n _ p q Hp Hq)) as (_ & Hlq & Htq & _).
          assert (Hne : lnk (t_round (thr p)) p q <> lnk (t_round (thr p)) p x).
          { intros E. destruct (lnk_inj n _ _ _ _ _ _ Hp Hq Hp Hx E) as [_ [[_ E']|[E' _]]]; [congruence|destruct Hx; congruence]. }
          rewrite lk_set_other by exact Hne. split; [exact Htq|].
          eapply all_in_stays; eauto. unfold all_in. rewrite HS, end_no_tow; [apply app_nil_r|apply W, Hlq|exact Htq].
      + cbn. discriminate.
      + cbn. discriminate.
    - (* recv error *)
      exfalso. destruct (run_field n branch labels hist L thr p ss _ hs x _ h Hp I R Ep Hx Es Eh) as (-> & Hl & Ht & _).
      destruct (goterr_shape _ _ _ _ El) as (Hpe & Ho & _). destruct (peer_sym n p x Hp Hx) as [Hx' Hpx].
      rewrite <- (side_other p x) in Ho by (destruct Hx; congruence). rewrite (lnk_sym n) in Ho.
      assert (Hl2 : lnk (t_round (thr p)) x p < lnext L) by (rewrite (lnk_sym n); exact Hl).
      destruct (not_open L thr _ x p C Hx' Hpx Hl2 Ho) as (_ & Ht2 & _).
      rewrite (lnk_sym n), (side_other p x) in Ht2 by (destruct Hx; congruence).
      exact (rcv_not_left _ _ _ _ (W _ Hl) Ht Ht2 Hpe).
    - (* choose *)
      destruct (new_mesh n (choose_vars n) (branch b l) L pl L1 (choose_vars_spec n) (branch_dual b l Hl) Ea)
        as (_ & Hn & Hold & Hnew & _).
      destruct HR as [-> Hno].
      constructor.
      + intros q r Hq E. unfold set_thr in E. destruct (Nat.eqb_spec q p) as [->|]; [discriminate|eapply C; eauto].
      + intros q b0 l0 pend own Hq E. unfold set_thr in E. destruct (Nat.eqb_spec q p) as [->|].
        * cbn [t_prog] in E. injection E as <- <- <- <-. rewrite (map_nth_others n _ p _ Hp), map_map. cbn.
          rewrite map_id. pose proof (others_perm n p Hp) as PP.
          assert (HN : NoDup (p :: map (other p) (seq 1 (n - 1)))).
          { eapply Permutation_NoDup; [|apply seq_NoDup]. apply Permutation_sym. exact PP. }
          inversion HN; assumption.
        * exact (c_pend _ _ C q b0 l0 pend own Hq E).
      + intros q m0 s0 Hq E. unfold set_thr in E. destruct (Nat.eqb_spec q p) as [->|]; [contradiction|eapply C; eauto].
      + eapply left_generic; eauto.
        * intros m0 s0 Hm H. rewrite Hold by exact Hm. exact H.
        * left. reflexivity.
        * intros q g H. eapply left_same; [..|exact H]; cbn; try (intros; rewrite Ep; discriminate); lia.
        * intros g a q Ha Hq Hm Hk. left. apply (kept_calm L thr p); [intros s0; rewrite Hold by exact Hm; reflexivity|lia|exact Hk|intros []].
        * intros g a q Ha Hq Hm. split.
          -- apply full_avail. split; [lia|]. destruct (Hnew (lnk g a q)) as [t Ht]; [lia|]. rewrite Ht. reflexivity.
          -- intros q0 Hq0. unfold set_thr. destruct (Nat.eqb_spec q0 p) as [->|]; [intros []|].
             intros Hin. destruct (live_link n branch labels L thr q0 (hnd g a q) Hq0 I) as [Hlv _].
             { unfold all_of. apply in_or_app. right. exact Hin. }
             lia.
    - (* choice send *)
      destruct HR as (Hg & -> & qs & Epend & Hqs). destruct qs as [|q qs]; [discriminate|].
      cbn [map] in Epend. injection Epend as -> -> -> ->. inversion Hqs as [|? ? Hq Hqs']; subst.
      assert (Hin : In (hnd (t_round (thr p)) p q) (held (t_prog (thr p)))) by (rewrite Ep; left; reflexivity).
      destruct (live_link n branch labels L thr p (hnd (t_round (thr p)) p q) Hp I) as [Hl _].
      { unfold all_of. apply in_or_app. left. exact Hin. }
      pose proof (i_prog _ _ _ _ _ I p Hp) as PO. rewrite Ep in PO. cbn in PO. destruct PO as (Hlb & _ & PO).
      apply Forall_inv in PO. destruct PO as (_ & Ht & _). unfold lty, MeshRounds.hnd in Ht.
      destruct (send_shape _ _ _ _ _ _ _ _ El) as (_ & ->).
      pose proof (c_pend _ _ C _ _ _ _ _ Hp Ep) as HN. cbn [map to fst] in HN. inversion HN as [|? ? HN1 HN2]; subst.
      match goal with |- cinv _ (set_thr _ _ ?th) => set (th' := th) end.
      assert (Hact : log_act p L (thr p) th').
      { right. exists q, (VLabel b l q), (PChoice b q), End. cbn zeta. split; [exact Hq|]. split; [exact Hl|]. left. auto. }
      assert (Hk : kept L thr (hnd (t_round (thr p)) p q)) by (eapply held_kept; eauto).
      destruct (d_sync _ _ _ _ _ _ _ D _ p q Hp Hq Hk) as [HS _].
      eapply leave; eauto.
      + eapply ty_set; [|reflexivity]. rewrite Ht. discriminate.
      + apply open_set. reflexivity.
      + intros q0 g [H|[H1 H2]]; [left; exact H|right; split; [exact H1|]]. rewrite Ep in H2. cbn [th' t_prog]. intros H3. apply H2. right. exact H3.
      + cbn [th' t_trash]. intros y [<-|[]]. exists q. split; [exact Hq|]. split; [reflexivity|].
        split; [rewrite set_here; right; split; [reflexivity|exact HN1]|].
        rewrite lk_set_same. cbn [l_ty]. rewrite upd_same. split; [reflexivity|].
        unfold all_in. rewrite set_here, set_there by (destruct Hq; congruence). cbn [th' t_log].
        rewrite (evs_hit (t_round (thr p)) q (t_log (thr p)) true), ins_app. cbn [ins filter map fst negb]. rewrite HS. f_equal.
        destruct (bool_cases (p <? q) (l_to (lk L (lnk (t_round (thr p)) p q)))) as [Eto|Eto]; [|apply tow_there; exact Eto].
        apply tow_nil. eapply snd_not_behind; [apply W; exact Hl| |exact Eto]. rewrite Ht. reflexivity.
      + cbn. discriminate.
      + cbn [th' t_prog]. intros b0 l0 pend0 own0 E. injection E as <- <- <- <-. exact HN2.
    - (* choice send lost *)
      exfalso. destruct HR as (Hg & -> & qs & Epend & Hqs). destruct qs as [|q qs]; [discriminate|].
      cbn [map] in Epend. injection Epend as -> -> -> ->. inversion Hqs as [|? ? Hq Hqs']; subst.
      destruct (live_link n branch labels L thr p (hnd (t_round (thr p)) p q) Hp I) as [Hl _].
      { unfold all_of. rewrite Ep. apply in_or_app. left. left. reflexivity. }
      pose proof (i_prog _ _ _ _ _ I p Hp) as PO. rewrite Ep in PO. cbn in PO. destruct PO as (Hlb & _ & PO).
      apply Forall_inv in PO. destruct PO as (_ & Ht & _). unfold lty, MeshRounds.hnd in Ht.
      destruct (lost_shape _ _ _ _ _ _ _ _ _ El) as (Ho & _). rewrite Hsend in Ho; auto; [discriminate|]. rewrite Ht. reflexivity.
    - exfalso. destruct HR as (Hg & -> & qs & Epend & Hqs). destruct qs as [|q qs]; [discriminate|].
      cbn [map] in Epend. injection Epend as -> -> -> ->. inversion Hqs as [|? ? Hq Hqs']; subst.
      destruct (live_link n branch labels L thr p (hnd (t_round (thr p)) p q) Hp I) as [Hl _].
      { unfold all_of. rewrite Ep. apply in_or_app. left. left. reflexivity. }
      pose proof (i_prog _ _ _ _ _ I p Hp) as PO. rewrite Ep in PO. cbn in PO. destruct PO as (Hlb & _ & PO).
      apply Forall_inv in PO. destruct PO as (_ & Ht & _). unfold lty, MeshRounds.hnd in Ht.
      destruct (lost_shape _ _ _ _ _ _ _ _ _ El) as (Ho & _). rewrite Hsend in Ho; auto; [discriminate|]. rewrite Ht. reflexivity.
    - (* enter *)
      eapply calm; eauto.
      + left. reflexivity.
      + intros q g [H|[H1 H2]]; left; cbn; lia.
      + cbn. discriminate.
      + cbn. discriminate.
    - (* close *)
      eapply calm; eauto.
      + left. intros g x. apply evs_close.
      + intros q g H. eapply left_same; [..|exact H]; cbn; try (intros; rewrite Ep; discriminate); lia.
      + cbn. discriminate.
      + cbn. discriminate.
    - (* tell *)
      destruct HR as (-> & _).
      destruct (mesh_field n _ p a h Hp Ea) as (q & Hq & -> & _).
      rewrite (tell_shape _ _ _ _ _ El). eapply calm; eauto.
      + apply ty_same. reflexivity.
      + apply open_set. reflexivity.
      + left. reflexivity.
      + intros q0 g H. eapply left_same; [..|exact H]; cbn; try (intros; rewrite Ep; discriminate); lia.
      + cbn. discriminate.
      + cbn. discriminate.
    - (* tell error *)
      exfalso. destruct HR as (-> & _).
      destruct (mesh_field n _ p a h Hp Ea) as (x & Hx & -> & ->).
      destruct (live_link n branch labels L thr p (hnd (t_round (thr p)) p x) Hp I) as [Hl _].
      { unfold all_of. rewrite Ep. apply in_or_app. left. apply in_mesh; assumption. }
      destruct (peer_sym n p x Hp Hx) as [Hx' Hpx].
      unfold lk_tell, MeshRounds.hnd in El. destruct (true && is_fin (l_ty (lk L (lnk (t_round (thr p)) p x)) (p <? x))); [|discriminate].
      destruct (l_rx (lk L (lnk (t_round (thr p)) p x)) (negb (p <? x))) eqn:Erx;
        [destruct (l_sig (lk L (lnk (t_round (thr p)) p x)) (p <? x)); discriminate|].
      assert (Ho : l_open (lk L (lnk (t_round (thr p)) p x)) (negb (p <? x)) = false).
      { destruct (l_open (lk L (lnk (t_round (thr p)) p x)) (negb (p <? x))) eqn:Eo; [|reflexivity].
        pose proof (wf_rx _ (W _ Hl) _ Eo). congruence. }
      rewrite <- (side_other p x) in Ho by (destruct Hx; congruence). rewrite (lnk_sym n) in Ho.
      assert (Hl2 : lnk (t_round (thr p)) x p < lnext L) by (rewrite (lnk_sym n); exact Hl).
      destruct (not_open L thr _ x p C Hx' Hpx Hl2 Ho) as (Hlf & _ & _).
      destruct (Hgone x _ _ _ Ep Hx Hlf) as [Hr Hf].
      destruct (s_heard _ _ _ SI x p Hx' Hpx) as [_ [H|H]].
      + unfold heard. rewrite Hf. exact Logic.I.
      + unfold told in H. rewrite Ep in H. lia.
      + unfold over in H. rewrite Ep in H. exact H.
    - (* hear *)
      destruct HR as (-> & _).
      destruct (mesh_field n _ p r h Hp Er) as (q & Hq & -> & _).
      destruct (hear_shape _ _ _ _ _ El) as [_ ->]. eapply calm; eauto.
      + apply ty_same. reflexivity.
      + apply open_set. reflexivity.
      + left. reflexivity.
      + intros q0 g H. eapply left_same; [..|exact H]; cbn; try (intros; rewrite Ep; discriminate); lia.
      + cbn. discriminate.
      + cbn. discriminate.
    - (* hear error *)
      exfalso. destruct HR as (-> & _).
      destruct (mesh_field n _ p r h Hp Er) as (x & Hx & -> & ->).
      assert (Hin : In (hnd (t_round (thr p)) p x) (held (t_prog (thr p)))) by (rewrite Ep; apply in_mesh; assumption).
      destruct (live_link n branch labels L thr p (hnd (t_round (thr p)) p x) Hp I) as [Hl _].
      { unfold all_of. apply in_or_app. left. exact Hin. }
      destruct (peer_sym n p x Hp Hx) as [Hx' Hpx].
      unfold lk_hear, MeshRounds.hnd in El. destruct (true && is_fin (l_ty (lk L (lnk (t_round (thr p)) p x)) (p <? x))); [|discriminate].
      destruct (l_sig (lk L (lnk (t_round (thr p)) p x)) (negb (p <? x))) eqn:Esg; [discriminate|].
      destruct (l_open (lk L (lnk (t_round (thr p)) p x)) (negb (p <? x))) eqn:Ho; [discriminate|].
      rewrite <- (side_other p x) in Ho by (destruct Hx; congruence). rewrite (lnk_sym n) in Ho.
      assert (Hl2 : lnk (t_round (thr p)) x p < lnext L) by (rewrite (lnk_sym n); exact Hl).
      destruct (not_open L thr _ x p C Hx' Hpx Hl2 Ho) as (Hlf & _ & _).
      destruct (Hgone x _ _ _ Ep Hx Hlf) as [Hr Hf].
      assert (E : l_sig (lk L (lnk (t_round (thr p)) p x)) (x <? p) = Some Stop).
      { apply (s_kept _ _ _ SI (t_round (thr p)) p x Hp Hx).
        - exact (held_kept n branch labels L thr p _ Hp I Hin).
        - exact Hr.
        - unfold told. rewrite Hf. exact Logic.I.
        - intros [_ H]. unfold heard in H. rewrite Ep in H. lia. }
      rewrite (side_other p x) in E by (destruct Hx; congruence). congruence.
    - (* cancel *)
      exfalso. destruct HR as (-> & _).
      destruct (mesh_field n _ p r h Hp Er) as (x & Hx & -> & ->).
      destruct (live_link n branch labels L thr p (hnd (t_round (thr p)) p x) Hp I) as [Hl _].
      { unfold all_of. rewrite Ep. apply in_or_app. left. apply in_mesh; assumption. }
      destruct (peer_sym n p x Hp Hx) as [Hx' Hpx].
      destruct (hear_shape _ _ _ _ _ El) as [E _].
      rewrite <- (side_other p x) in E by (destruct Hx; congruence).
      destruct (lo_sig _ _ _ _ _ (r_link _ _ _ _ _ R _ Hl) (t_round (thr p)) x p Cancel Hx' Hpx (lnk_sym n _ _ _) E) as [E' _]. discriminate.
    - (* done *)
      destruct HR as (-> & Hno & _).
      eapply leave; eauto.
      + left. reflexivity.
      + intros q g H. eapply left_same; [..|exact H]; cbn; try (intros; rewrite Ep; discriminate); lia.
      + cbn [fin t_trash]. intros y Hy. destruct (mesh_in n _ p y Hp Hy) as (q & Hq & ->). exists q. split; [exact Hq|]. split; [reflexivity|].
        split; [rewrite set_here; right; split; [reflexivity|exact Logic.I]|].
        assert (Hin : In (hnd (t_round (thr p)) p q) (held (t_prog (thr p)))) by (rewrite Ep; exact Hy).
        destruct (live_link n branch labels L thr p (hnd (t_round (thr p)) p q) Hp I) as [Hl _].
        { unfold all_of. apply in_or_app. left. exact Hin. }
        pose proof (i_prog _ _ _ _ _ I p Hp) as PO. rewrite Ep in PO. cbn in PO. destruct PO as (_ & _ & PO & _).
        rewrite Forall_forall in PO. specialize (PO _ Hy). unfold lty, MeshRounds.hnd in PO. split; [exact PO|].
        destruct (d_sync _ _ _ _ _ _ _ D _ p q Hp Hq (held_kept n branch labels L thr p _ Hp I Hin)) as [HS _].
        eapply all_in_stays; eauto; [left; reflexivity|]. unfold all_in. rewrite HS, end_no_tow; [apply app_nil_r|apply W, Hl|exact PO].
      + cbn. congruence.
      + cbn. discriminate.
  Qed.

  Lemma cinv_init_gen : cinv (st_store (init link_ops n T empty_links)) (st_thr (init link_ops n T empty_links)).
  Proof.
    destruct (init_form n T T_dual) as (L & _ & Hn & Hnew & Hty & -> & Hthr). constructor.
    - intros p r Hp E. rewrite Hthr in E by exact Hp. discriminate.
    - intros p b l pend own Hp E. rewrite Hthr in E by exact Hp. discriminate.
    - intros p m s Hp E. rewrite Hthr in E by exact Hp. contradiction.
    - intros g p q Hp Hq Hm. left. split.
      + apply full_avail. split; [exact Hm|]. rewrite Hn in Hm. destruct (Hnew _ Hm) as [t ->]. reflexivity.
      + intros q0 Hq0. rewrite Hthr by exact Hq0. intros [].
  Qed.

End General.

Section Clean.
  Variable n : nat.
  Variable labels : nat -> nat.
  Variable strict : bool.
  Variable P : protocol.
  Hypothesis wf : wf_protocol n labels P.

  Notation branch := (branch_g n P).
  Notation T := (T_g n P).
  Notation lthread := (@thread handle).
  Notation tcase := (tcase n branch labels strict).
  Notation inv := (inv n branch labels).
  Notation rinv := (rinv n labels).
  Notation dinv := (dinv n branch labels T).
  Notation ginv := (ginv n labels P).
  Notation sinv := (sinv n).
  Notation grnd := (grnd P).
  Notation peer_role := (peer_role n).
  Notation lnk := (lnk n).
  Notation hnd := (hnd n).
  Notation mesh := (mesh n).
  Notation kept := (kept n).
  Notation cinv := (cinv n).

  (** A round that someone has left after choosing does not end the session. *)
  Lemma left_choice : forall hist L thr g p q, 1 <= p <= n -> rinv hist L thr -> ginv hist thr -> left_end (thr p) q g ->
    snd (grnd hist g) = GEnd -> t_round (thr p) = g /\ t_prog (thr p) = PFin ROk.
  Proof.
    intros hist L thr g p q Hp R G H He. pose proof (r_thr _ _ _ _ _ R p Hp) as [Hle HR].
    destruct H as [H|[H H1]].
    - exfalso. destruct (nth_error hist g) as [[[c b] l]|] eqn:E; [|apply nth_error_None in E; lia].
      rewrite (g_hist _ _ _ _ _ G _ _ _ _ E) in He. discriminate.
    - split; [exact H|]. destruct (t_prog (thr p)) as [|b l pend own| |[]|]; try contradiction; [|reflexivity].
      exfalso. destruct HR as (E & _). rewrite H in E. rewrite (g_hist _ _ _ _ _ G _ _ _ _ E) in He. discriminate.
  Qed.

  Lemma cinv_step : forall hist L thr p i th' L', 1 <= p <= n -> i <> ICrash -> inv L thr -> rinv hist L thr ->
    dinv hist L thr -> ginv hist thr -> sinv L thr -> cinv L thr ->
    tcase p (thr p) L i th' L' -> cinv L' (set_thr thr p th').
  Proof.
    intros hist L thr p i th' L' Hp Hi I R D G SI C CA. pose proof (g_thr _ _ _ _ _ G p Hp) as HG.
    eapply cinv_step_gen with (T := T) (hist := hist) (i := i); eauto; [apply branch_g_dual| |].
    - intros x ss r hs b q Ep Hx Es Hq Hqx.
      unfold gthr in HG. rewrite Ep in HG. destruct HG as (pre & suf & E1 & E2 & E3 & E4). destruct Hx as [Hx1 Hx2], Hq as [Hq1 Hq2].
      rewrite E3 in Es |- *. rewrite sessions_nth in Es |- * by auto.
      destruct suf as [|m0 suf].
      + cbn [sess_of] in *. unfold last_sess in Es |- *.
        destruct (snd (grnd hist (t_round (thr p)))) as [|c b']; [reflexivity|].
        destruct (Nat.eqb_spec p c); [discriminate|]. destruct (Nat.eqb_spec x c) as [<-|]; [|discriminate].
        destruct (Nat.eqb_spec q x); [congruence|reflexivity].
      + exfalso. cbn in E2. destruct (next_message n p x r m0 suf (snd (grnd hist (t_round (thr p)))) Hp Hx2 Hx1 E2 (eq_sym E4)) as (_ & _ & [E|E]);
          rewrite E in Es; discriminate.
    - intros x a r hs Ep Hx Hlf. unfold gthr in HG. rewrite Ep in HG.
      exact (left_choice hist L thr _ x p (proj1 (peer_sym n p x Hp Hx)) R G Hlf HG).
  Qed.

  Lemma cinv_init : cinv (st_store (init link_ops n T empty_links)) (st_thr (init link_ops n T empty_links)).
  Proof. apply cinv_init_gen, T_g_dual. Qed.

  (** When everybody has finished, everything that was sent has been received. *)
  Lemma all_received : forall hist L thr, inv L thr -> rinv hist L thr -> dinv hist L thr -> cinv L thr ->
    (forall p, 1 <= p <= n -> finished (thr p)) -> forall g p q, 1 <= p <= n -> peer_role p q -> all_in thr g p q.
  Proof.
    intros hist L thr I R D C F g p q Hp Hq. destruct (peer_sym n p q Hp Hq) as [Hq' Hpq].
    destruct (lt_dec (lnk g p q) (lnext L)) as [Hm|Hm].
    - destruct (c_left _ _ _ C g p q Hp Hq Hm) as [[Hk _]|(_ & _ & H)]; [|exact H]. exfalso.
      assert (St : settled n thr).
      { intros x Hx. destruct (F x Hx) as [[r E] Et]. split; [exact Et|]. intros. rewrite E. discriminate. }
      destruct (holder n labels P hist L thr I R St g p q Hp Hq Hk) as [_ H].
      destruct (F p Hp) as [[r E] _]. unfold running in H. rewrite E in H. exact H.
    - pose proof (lnk_range n g p q Hp Hq) as Hr. rewrite (r_next _ _ _ _ _ R) in Hm.
      assert (Hg : length hist < g) by nia.
      unfold all_in. rewrite !(d_late _ _ _ _ _ _ _ D); auto.
      + pose proof (r_thr _ _ _ _ _ R p Hp) as [H _]. lia.
      + pose proof (r_thr _ _ _ _ _ R q Hq') as [H _]. lia.
  Qed.
End Clean.
