(** The signals of close: who sent one to whom, and who has read it. For any pairwise dual types. *)
From Coq Require Import List Arith Bool Lia Permutation.
From Verif Require Import Types Diag DiagProofs Wiring WiringProofs Session Mesh MeshSpec Links LinksProofs Refine Sim
  MeshWire MeshInv MeshStep MeshKeep MeshSafe MeshRounds MeshRun MeshLog.
Import ListNotations.

Section Signal.
  Variable n : nat.
  Variable branch : nat -> nat -> nat -> mty.
  Variable labels : nat -> nat.
  Variable strict : bool.
  Hypothesis branch_dual : forall b l, l < labels b -> dual_mesh n (branch b l).

  Notation lthread := (@thread handle).
  Notation tcase := (tcase n branch labels strict).
  Notation inv := (inv n branch labels).
  Notation peer_role := (peer_role n).
  Notation N := (npairs n).
  Notation lnk := (lnk n).
  Notation hnd := (hnd n).
  Notation mesh := (mesh n).
  Notation rinv := (rinv n labels).
  Notation kept := (kept n).

  (** Field k has been told, has been heard; the thread is over. *)
  Definition told (th : lthread) (k : nat) : Prop :=
    match t_prog th with PClose a _ _ => k < a | PFin ROk => True | _ => False end.
  Definition heard (th : lthread) (k : nat) : Prop :=
    match t_prog th with PClose _ r _ => k < r | PFin ROk => True | _ => False end.
  Definition over (th : lthread) : Prop := match t_prog th with PFin _ => True | _ => False end.

  (** Signals stay, except those lost because the receiving end is dropped. *)
  Definition same_sig (L L' : links) : Prop :=
    (forall m s, m < lnext L -> l_sig (lk L' m) s = l_sig (lk L m) s \/
       (l_sig (lk L' m) s = None /\ l_open (lk L' m) (negb s) = false)) /\
    forall m s, lnext L <= m < lnext L' -> l_sig (lk L' m) s = None.

  Definition calm_act (p : nat) (L : links) (th th' : lthread) (L' : links) : Prop :=
    same_sig L L' /\
    (((forall k, k < n - 1 -> told th' k <-> told th k) /\ (forall k, k < n - 1 -> heard th' k <-> heard th k) /\
      (over th -> over th') /\ ((exists k, told th k \/ heard th k) \/ over th -> t_round th' = t_round th)) \/
     (t_round th' = t_round th /\ (exists r, t_prog th' = PFin r /\ r <> ROk) /\ ~ over th /\
      forall x, peer_role p x -> In (hnd (t_round th) p x) (t_trash th') \/
                forall k, ~ told th k /\ ~ heard th k)).

  Definition tell_act (p : nat) (L : links) (th th' : lthread) (L' : links) : Prop :=
    exists r hs x, let m := lnk (t_round th) p x in let s := p <? x in peer_role p x /\ m < lnext L /\
      t_prog th = PClose (field_pos p x) r hs /\ t_prog th' = PClose (field_pos p x + 1) r hs /\
      t_round th' = t_round th /\
      L' = set_link L m (Link (l_ty (lk L m)) (l_q (lk L m)) (l_to (lk L m)) (l_open (lk L m)) (l_rx (lk L m))
                              (upd (l_sig (lk L m)) s (Some Stop))).

  Definition hear_act (p : nat) (L : links) (th th' : lthread) (L' : links) : Prop :=
    exists a hs x, let m := lnk (t_round th) p x in let s := p <? x in peer_role p x /\ m < lnext L /\
      n - 1 <= a /\ t_prog th = PClose a (field_pos p x) hs /\ t_prog th' = PClose a (field_pos p x + 1) hs /\
      t_round th' = t_round th /\ l_sig (lk L m) (negb s) = Some Stop /\
      L' = set_link L m (Link (l_ty (lk L m)) (l_q (lk L m)) (l_to (lk L m)) (l_open (lk L m)) (l_rx (lk L m))
                              (upd (l_sig (lk L m)) (negb s) None)).

  Definition seffect (p : nat) (L : links) (th th' : lthread) (L' : links) : Prop :=
    calm_act p L th th' L' \/ tell_act p L th th' L' \/ hear_act p L th th' L'.

  Lemma same_sig_refl : forall L, same_sig L L.
  Proof. intros L. split; [auto|]. intros m s H. lia. Qed.

  Lemma same_sig_set : forall L m k, (forall s, l_sig k s = l_sig (lk L m) s \/ (l_sig k s = None /\ l_open k (negb s) = false)) ->
    same_sig L (set_link L m k).
  Proof.
    intros L m k H. split.
    - intros m0 s _. destruct (Nat.eq_dec m0 m) as [->|Hne].
      + rewrite lk_set_same. apply H.
      + rewrite lk_set_other by exact Hne. auto.
    - intros m0 s H0. cbn in H0. lia.
  Qed.

  (** Outside close, nothing has been told. *)
  Lemma calm_run : forall p L th th' L', same_sig L L' ->
    (forall a r hs, t_prog th <> PClose a r hs) -> ~ over th ->
    (forall a r hs, t_prog th' = PClose a r hs -> a = 0 /\ r = 0) -> (forall r, t_prog th' = PFin r -> r <> ROk) ->
    calm_act p L th th' L'.
  Proof.
    intros p L th th' L' H1 H2 H3 H4 H5. split; [exact H1|]. left.
    assert (A : forall k, ~ told th k /\ ~ heard th k).
    { intros k. unfold told, heard, over in *. destruct (t_prog th) as [| |a r hs|r|]; try tauto. exfalso. exact (H2 _ _ _ eq_refl). }
    assert (B : forall k, ~ told th' k /\ ~ heard th' k).
    { intros k. unfold told, heard in *. destruct (t_prog th') as [| |a r hs|[]|]; try tauto.
      - destruct (H4 _ _ _ eq_refl) as [-> ->]. lia.
      - exfalso. exact (H5 _ eq_refl eq_refl). }
    split; [intros k _; specialize (A k); specialize (B k); tauto|].
    split; [intros k _; specialize (A k); specialize (B k); tauto|].
    split; [tauto|]. intros [(k & H)|H]; [|tauto]. specialize (A k). tauto.
  Qed.

  (** Leaving close with an error drops everything. *)
  Lemma calm_fail : forall p L th res a r hs L', 1 <= p <= n -> same_sig L L' -> t_prog th = PClose a r hs ->
    hs = mesh (t_round th) p -> res <> ROk -> calm_act p L th (fin th res hs) L'.
  Proof.
    intros p L th res a r hs L' Hp H1 Ep -> Hr. split; [exact H1|]. right. cbn [fin t_round t_prog t_trash].
    split; [reflexivity|]. split; [exists res; auto|]. split; [unfold over; rewrite Ep; tauto|].
    intros x Hx. left. apply in_mesh; assumption.
  Qed.

  Lemma seffect_case : forall hist L thr p i th' L', 1 <= p <= n -> inv L thr -> rinv hist L thr ->
    tcase p (thr p) L i th' L' -> seffect p L (thr p) th' L'.
  Proof.
    intros hist L thr p i th' L' Hp I R C.
    pose proof (r_thr _ _ _ _ _ R p Hp) as [Hle HR].
    pose proof (i_wf _ _ _ _ _ I) as W. pose proof (i_prog _ _ _ _ _ I p Hp) as PO.
    destruct C as [x rest out L1 Et Ed|Et Hnf
      |v x ss r hs t k h L1 Et Ep Hx Es Eh El|v x ss r hs t k h lost L1 Et Ep Hx Es Eh El Est
      |v x ss r hs t k h lost L1 Et Ep Hx Es Eh El Est
      |v x ss r hs t k h L1 Et Ep Hx Es Eh El|b l m x ss r hs h L1 Et Ep Hx Es Eh El Hl
      |x ss r hs P0 k h L1 Et Ep Hx Es Eh El
      |b l ss hs pl L1 Et Ep Ec Hl Ea
      |b l x h m pend own L1 Et Ep El|b l x h m pend own lost L1 Et Ep El Est
      |b l x h m pend own lost L1 Et Ep El Est
      |b l own Et Ep|ss hs Et Ep Ee
      |a r hs h L1 Et Ep Ea El|a r hs h Et Ep Ea El
      |a r hs h L1 Et Ep Ea Er El|a r hs h Et Ep Ea Er El|a r hs h L1 Et Ep Ea Er El
      |a r hs Et Ep Ea Er]; try (rewrite Ep in HR).
    - (* drop *)
      left. split; [|left; unfold told, heard, over; cbn [t_prog t_round]; tauto].
      assert (Hlv : live L x).
      { apply (live_link n branch labels L thr p x Hp I). unfold all_of. rewrite Et. apply in_or_app. right; left; reflexivity. }
      destruct x as [[l s] f]. pose proof Hlv as [Hl Ho]. unfold lk_drop in Ed. destruct f.
      + destruct (is_fin (l_ty (lk L l) s)); [|destruct (pending (lk L l) s) as [[[v c] t]|]];
          injection Ed as _ <-; apply same_sig_set; intros s0; left; reflexivity.
      + injection Ed as _ <-. apply same_sig_set. intros s0. cbn [l_sig l_open].
        destruct (bool_cases s s0) as [-> | ->].
        * left. apply upd_neg'.
        * right. rewrite upd_same, negb_involutive. tauto.
    - (* crash *)
      left. destruct (t_prog (thr p)) as [ss r hs|b l pend own|a r hs|r|hs] eqn:Ep.
      + apply calm_run; [apply same_sig_refl|intros; rewrite Ep; discriminate|unfold over; rewrite Ep; tauto|discriminate|].
        intros r0 E. cbn in E. congruence.
      + apply calm_run; [apply same_sig_refl|intros; rewrite Ep; discriminate|unfold over; rewrite Ep; tauto|discriminate|].
        intros r0 E. cbn in E. congruence.
      + cbn [held]. apply (calm_fail p L (thr p) RCrash a r hs); [exact Hp|apply same_sig_refl|exact Ep|apply HR|discriminate].
      + exfalso. exact (Hnf r eq_refl).
      + contradiction.
    - left. destruct (run_field n branch labels hist L thr p ss _ hs x _ h Hp I R Ep Hx Es Eh) as (-> & Hl & Ht & _).
      destruct (send_shape _ _ _ _ _ _ _ _ El) as (_ & ->).
      apply calm_run; [apply same_sig_set; auto|intros; rewrite Ep; discriminate|unfold over; rewrite Ep; tauto|discriminate|discriminate].
    - left. destruct (run_field n branch labels hist L thr p ss _ hs x _ h Hp I R Ep Hx Es Eh) as (-> & Hl & Ht & _).
      destruct (lost_shape _ _ _ _ _ _ _ _ _ El) as (Ho & -> & ->).
      apply calm_run; [apply same_sig_set; auto|intros; rewrite Ep; discriminate|unfold over; rewrite Ep; tauto|discriminate|discriminate].
    - left. destruct (run_field n branch labels hist L thr p ss _ hs x _ h Hp I R Ep Hx Es Eh) as (-> & Hl & Ht & _).
      destruct (lost_shape _ _ _ _ _ _ _ _ _ El) as (Ho & -> & ->).
      apply calm_run; [apply same_sig_set; auto|intros; rewrite Ep; discriminate|unfold over; rewrite Ep; tauto|discriminate|].
      intros r0 E. cbn in E. congruence.
    - left. destruct (run_field n branch labels hist L thr p ss _ hs x _ h Hp I R Ep Hx Es Eh) as (-> & Hl & Ht & _).
      destruct (got_shape _ _ _ _ _ _ _ El) as (t' & Hpend & ->).
      apply calm_run; [apply same_sig_set; auto|intros; rewrite Ep; discriminate|unfold over; rewrite Ep; tauto|discriminate|discriminate].
    - left. destruct (run_field n branch labels hist L thr p ss _ hs x _ h Hp I R Ep Hx Es Eh) as (-> & Hl' & Ht & _).
      destruct (got_shape _ _ _ _ _ _ _ El) as (t' & Hpend & ->).
      apply calm_run; [apply same_sig_set; auto|intros; rewrite Ep; discriminate|unfold over; rewrite Ep; tauto|discriminate|discriminate].
    - left. destruct (run_field n branch labels hist L thr p ss _ hs x _ h Hp I R Ep Hx Es Eh) as (-> & Hl & Ht & _).
      destruct (goterr_shape _ _ _ _ El) as (_ & _ & ->).
      apply calm_run; [apply same_sig_set; auto|intros; rewrite Ep; discriminate|unfold over; rewrite Ep; tauto|discriminate|].
      intros r0 E. cbn in E. congruence.
    - (* choose *)
      left. destruct (new_mesh n (choose_vars n) (branch b l) L pl L1 (choose_vars_spec n) (branch_dual b l Hl) Ea)
        as (_ & Hn & Hold & Hnew & _).
      apply calm_run; [|intros; rewrite Ep; discriminate|unfold over; rewrite Ep; tauto|discriminate|discriminate].
      split; [intros m s Hm; rewrite Hold by exact Hm; auto|].
      intros m s Hm. destruct (Hnew m) as [t ->]; [lia|]. reflexivity.
    - left. destruct HR as (Hg & -> & qs & Epend & Hqs). destruct qs as [|q qs]; [discriminate|].
      cbn [map] in Epend. injection Epend as -> -> -> ->.
      destruct (send_shape _ _ _ _ _ _ _ _ El) as (_ & ->).
      apply calm_run; [apply same_sig_set; auto|intros; rewrite Ep; discriminate|unfold over; rewrite Ep; tauto|discriminate|discriminate].
    - left. destruct HR as (Hg & -> & qs & Epend & Hqs). destruct qs as [|q qs]; [discriminate|].
      cbn [map] in Epend. injection Epend as -> -> -> ->.
      destruct (lost_shape _ _ _ _ _ _ _ _ _ El) as (Ho & -> & ->).
      apply calm_run; [apply same_sig_set; auto|intros; rewrite Ep; discriminate|unfold over; rewrite Ep; tauto|discriminate|discriminate].
    - left. destruct HR as (Hg & -> & qs & Epend & Hqs). destruct qs as [|q qs]; [discriminate|].
      cbn [map] in Epend. injection Epend as -> -> -> ->.
      destruct (lost_shape _ _ _ _ _ _ _ _ _ El) as (Ho & -> & ->).
      apply calm_run; [apply same_sig_set; auto|intros; rewrite Ep; discriminate|unfold over; rewrite Ep; tauto|discriminate|].
      intros r0 E. cbn in E. congruence.
    - left. apply calm_run; [apply same_sig_refl|intros; rewrite Ep; discriminate|unfold over; rewrite Ep; tauto|discriminate|discriminate].
    - left. apply calm_run; [apply same_sig_refl|intros; rewrite Ep; discriminate|unfold over; rewrite Ep; tauto| |discriminate].
      intros a r hs0 E. cbn in E. injection E as <- <- _. auto.
    - (* tell *)
      right; left. destruct HR as (-> & _). destruct (mesh_field n _ _ _ _ Hp Ea) as (x & Hx & -> & ->).
      assert (Hl : lnk (t_round (thr p)) p x < lnext L).
      { destruct (live_link n branch labels L thr p (hnd (t_round (thr p)) p x) Hp I) as [H _]; [|exact H].
        unfold all_of. rewrite Ep. apply in_or_app. left. apply in_mesh; assumption. }
      exists r, (mesh (t_round (thr p)) p), x. cbn zeta. split; [exact Hx|]. split; [exact Hl|].
      split; [exact Ep|]. split; [reflexivity|]. split; [reflexivity|]. exact (tell_shape _ _ _ _ _ El).
    - left. apply (calm_fail p L (thr p) RErr a r hs); [exact Hp|apply same_sig_refl|exact Ep|apply HR|discriminate].
    - (* hear *)
      right; right. destruct HR as (-> & _). destruct (mesh_field n _ _ _ _ Hp Er) as (x & Hx & -> & ->).
      assert (Hl : lnk (t_round (thr p)) p x < lnext L).
      { destruct (live_link n branch labels L thr p (hnd (t_round (thr p)) p x) Hp I) as [H _]; [|exact H].
        unfold all_of. rewrite Ep. apply in_or_app. left. apply in_mesh; assumption. }
      exists a, (mesh (t_round (thr p)) p), x. cbn zeta. split; [exact Hx|]. split; [exact Hl|].
      split; [apply nth_error_None in Ea; unfold MeshRounds.mesh in Ea; rewrite meshb_length in Ea; exact Ea|].
      split; [exact Ep|]. split; [reflexivity|]. split; [reflexivity|]. exact (hear_shape _ _ _ _ _ El).
    - left. apply (calm_fail p L (thr p) RErr a r hs); [exact Hp|apply same_sig_refl|exact Ep|apply HR|discriminate].
    - (* cancel heard: impossible *)
      exfalso. destruct HR as (-> & _). destruct (mesh_field n _ _ _ _ Hp Er) as (x & Hx & -> & ->).
      assert (Hl : lnk (t_round (thr p)) p x < lnext L).
      { destruct (live_link n branch labels L thr p (hnd (t_round (thr p)) p x) Hp I) as [H _]; [|exact H].
        unfold all_of. rewrite Ep. apply in_or_app. left. apply in_mesh; assumption. }
      destruct (hear_shape _ _ _ _ _ El) as [H _]. destruct (peer_sym n p x Hp Hx) as [Hx' Hxp].
      rewrite <- (side_other p x) in H by (destruct Hx; congruence).
      destruct (lo_sig _ _ _ _ _ (r_link _ _ _ _ _ R _ Hl) (t_round (thr p)) x p Cancel Hx' Hxp (lnk_sym n _ _ _) H). discriminate.
    - (* done *)
      left. split; [apply same_sig_refl|]. left. destruct HR as (-> & _).
      apply nth_error_None in Ea, Er. unfold MeshRounds.mesh in Ea, Er. rewrite meshb_length in Ea, Er.
      unfold told, heard, over. rewrite Ep. cbn [fin t_prog t_round].
      split; [intros k Hk; split; [lia|tauto]|]. split; [intros k Hk; split; [lia|tauto]|]. tauto.
  Qed.

  (** ** The invariant *)

  Record sinv (L : links) (thr : nat -> lthread) : Prop := SInv {
    s_sent : forall g p x, 1 <= p <= n -> peer_role p x -> lnk g p x < lnext L ->
      l_sig (lk L (lnk g p x)) (p <? x) <> None -> t_round (thr p) = g /\ (told (thr p) (field_pos p x) \/ over (thr p));
    s_kept : forall g p x, 1 <= p <= n -> peer_role p x -> kept L thr (hnd g p x) ->
      t_round (thr x) = g -> told (thr x) (field_pos x p) ->
      ~ (t_round (thr p) = g /\ heard (thr p) (field_pos p x)) ->
      l_sig (lk L (lnk g p x)) (x <? p) = Some Stop;
    s_heard : forall p x, 1 <= p <= n -> peer_role p x -> heard (thr p) (field_pos p x) ->
      t_round (thr x) = t_round (thr p) /\ (told (thr x) (field_pos x p) \/ over (thr x))
  }.

  Lemma field_range : forall p x, 1 <= p <= n -> peer_role p x -> field_pos p x < n - 1.
  Proof. intros p x Hp [H1 H2]. apply (peer_field n p x Hp H2). congruence. Qed.

  Lemma field_inj : forall p x y, 1 <= p <= n -> peer_role p x -> peer_role p y -> field_pos p x = field_pos p y -> x = y.
  Proof.
    intros p x y Hp [H1 H2] [H3 H4] E. destruct (peer_field n p x Hp H2 (not_eq_sym H1)) as [_ E1].
    destruct (peer_field n p y Hp H4 (not_eq_sym H3)) as [_ E2]. congruence.
  Qed.

  (** What has been told or heard stays so. *)
  Lemma told_stays : forall p L th th' L' k, 1 <= p <= n -> seffect p L th th' L' -> k < n - 1 ->
    told th k \/ over th -> t_round th' = t_round th /\ (told th' k \/ over th').
  Proof.
    intros p L th th' L' k Hp E Hk H. destruct E as [[_ E]|[E|E]].
    - destruct E as [(A & B & C & D)|(A & (r & B & _) & _)].
      + split; [apply D; destruct H; [left; exists k; auto|auto]|]. destruct H as [H|H]; [left; apply A; auto|right; auto].
      + split; [exact A|]. right. unfold over. rewrite B. exact Logic.I.
    - destruct E as (r & hs & x & Hx & _ & E1 & E2 & E3 & _). split; [exact E3|]. unfold told, over in *.
      rewrite E1 in H. rewrite E2. destruct H as [H|[]]. left. lia.
    - destruct E as (a & hs & x & Hx & _ & Ha & E1 & E2 & E3 & _). split; [exact E3|]. unfold told, over in *.
      rewrite E1 in H. rewrite E2. destruct H as [H|[]]. left. lia.
  Qed.

  Lemma sinv_step : forall hist L thr p i th' L', 1 <= p <= n -> inv L thr -> rinv hist L thr ->
    sinv L thr -> tcase p (thr p) L i th' L' -> sinv L' (set_thr thr p th').
  Proof.
    intros hist L thr p i th' L' Hp I R S C.
    pose proof (seffect_case hist L thr p i th' L' Hp I R C) as E.
    pose proof (effect_case n branch labels strict branch_dual hist L thr p i th' L' Hp I R C) as EF.
    pose proof (inv_case n branch labels strict branch_dual L thr p i th' L' Hp I C) as I'.
    pose proof (rinv_case n branch labels strict branch_dual hist L thr p i th' L' Hp I R C) as R'.
    assert (Hold : forall q k, k < n - 1 -> told (thr q) k \/ over (thr q) ->
              t_round (set_thr thr p th' q) = t_round (thr q) /\ (told (set_thr thr p th' q) k \/ over (set_thr thr p th' q))).
    { intros q k Hk H. unfold set_thr. destruct (Nat.eqb_spec q p) as [->|]; [|auto].
      exact (told_stays p L (thr p) th' L' k Hp E Hk H). }
    assert (Hsent : forall g q x, 1 <= q <= n -> peer_role q x -> lnk g q x < lnext L ->
              l_sig (lk L (lnk g q x)) (q <? x) <> None ->
              t_round (set_thr thr p th' q) = g /\ (told (set_thr thr p th' q) (field_pos q x) \/ over (set_thr thr p th' q))).
    { intros g q x Hq Hx Hm H. destruct (s_sent _ _ S g q x Hq Hx Hm H) as [<- H'].
      exact (Hold q _ (field_range q x Hq Hx) H'). }
    constructor.
    - (* sent *)
      intros g q x Hq Hx Hm H. destruct (lt_dec (lnk g q x) (lnext L)) as [Hlt|Hge].
      + destruct E as [[[E _] _]|[E|E]].
        * destruct (E (lnk g q x) (q <? x) Hlt) as [E1|[E1 _]]; [|congruence]. apply Hsent; auto. rewrite <- E1. exact H.
        * destruct E as (r & hs & y & Hy & Hl & E1 & E2 & E3 & ->).
          destruct (Nat.eq_dec (lnk g q x) (lnk (t_round (thr p)) p y)) as [Em|Hne].
          -- rewrite Em, lk_set_same in H. cbn [l_sig] in H.
             destruct (lnk_inj n _ _ _ _ _ _ Hq Hx Hp Hy Em) as [-> [[-> ->]|[-> ->]]].
             ++ unfold set_thr. rewrite Nat.eqb_refl. split; [exact E3|]. left. unfold told. rewrite E2. lia.
             ++ rewrite (side_other p y) in H by (destruct Hy; congruence). rewrite upd_neg in H.
                apply Hsent; auto. rewrite Em, (side_other p y) by (destruct Hy; congruence). exact H.
          -- rewrite lk_set_other in H by exact Hne. apply Hsent; auto.
        * destruct E as (a & hs & y & Hy & Hl & Ha & E1 & E2 & E3 & E4 & ->). apply Hsent; auto.
          destruct (Nat.eq_dec (lnk g q x) (lnk (t_round (thr p)) p y)) as [Em|Hne].
          -- rewrite Em, lk_set_same in H. cbn [l_sig] in H. rewrite Em.
             destruct (bool_cases (p <? y) (q <? x)) as [Es|Es]; rewrite Es in *.
             ++ rewrite upd_neg' in H. exact H.
             ++ rewrite upd_same in H. congruence.
          -- rewrite lk_set_other in H by exact Hne. exact H.
      + exfalso. apply H. destruct E as [[[_ E] _]|[E|E]].
        * apply E. lia.
        * destruct E as (r & hs & y & _ & _ & _ & _ & _ & ->). cbn in Hm. lia.
        * destruct E as (a & hs & y & _ & _ & _ & _ & _ & _ & _ & ->). cbn in Hm. lia.
    - (* kept *)
      intros g q x Hq Hx K Hg Ht Hnh. destruct (peer_sym n q x Hq Hx) as [Hx' Hxq].
      assert (Hm : lnk g q x < lnext L').
      { destruct K as [K _]. apply full_avail in K. apply K. }
      assert (Hlt : lnk g q x < lnext L).
      { (* x is at round g and told: the round exists *)
        destruct (lt_dec (lnk g q x) (lnext L)) as [H|Hge]; [exact H|exfalso].
        pose proof (r_next _ _ _ _ _ R) as Hn1. pose proof (lnk_range n g q x Hq Hx) as Hr.
        assert (Hgg : t_round (thr x) <= length hist) by apply (r_thr _ _ _ _ _ R x Hx').
        unfold set_thr in Hg, Ht. destruct (Nat.eqb_spec x p) as [E0|]; [|nia]. subst x.
        destruct E as [[_ [(A & B & C0 & D)|(A & _)]]|[E|E]].
        - rewrite D in Hg; [nia|]. left. exists (field_pos p q). left. apply A; [apply field_range; assumption|exact Ht].
        - nia.
        - destruct E as (r & hs & y & _ & _ & _ & _ & E3 & _). nia.
        - destruct E as (a & hs & y & _ & _ & _ & _ & _ & E3 & _). nia. }
      assert (Kb : kept L thr (hnd g q x)).
      { destruct K as [K1 K2].
        assert (Htr : ~ In (hnd g q x) (t_trash th')).
        { specialize (K2 p Hp). unfold set_thr in K2. rewrite Nat.eqb_refl in K2. exact K2. }
        destruct (e_back _ _ _ _ _ _ _ _ EF _ _ Hlt K1 Htr) as [B1 B2]. split; [exact B1|].
        intros y Hy. destruct (Nat.eq_dec y p) as [->|Hne]; [exact B2|].
        specialize (K2 y Hy). unfold set_thr in K2. destruct (Nat.eqb_spec y p); [contradiction|exact K2]. }
      (* the receiver had not heard before *)
      assert (Hnh0 : ~ (t_round (thr q) = g /\ heard (thr q) (field_pos q x))).
      { intros [H1 H2]. apply Hnh. unfold set_thr. destruct (Nat.eqb_spec q p) as [E0|]; [|auto]. subst q.
        destruct E as [[_ [(A & B & C0 & D)|(A & (r & B & Br) & Hno & B')]]|[E|E]].
        - split; [rewrite D; [exact H1|left; exists (field_pos p x); auto]|]. apply B; [apply field_range; assumption|exact H2].
        - exfalso. destruct (B' x Hx) as [H|H]; [|destruct (H (field_pos p x)); tauto].
          destruct K as [_ K]. apply (K p Hp). unfold set_thr. rewrite Nat.eqb_refl. rewrite <- H1. exact H.
        - destruct E as (r & hs & y & _ & _ & E1 & E2 & E3 & _). unfold heard in *. rewrite E1 in H2. rewrite E2. split; [lia|lia].
        - destruct E as (a & hs & y & _ & _ & _ & E1 & E2 & E3 & _). unfold heard in *. rewrite E1 in H2. rewrite E2. split; lia. }
      (* did x tell q before? *)
      assert (Hback : t_round (thr x) = g -> told (thr x) (field_pos x q) -> l_sig (lk L (lnk g q x)) (x <? q) = Some Stop).
      { intros H1 H2. apply (s_kept _ _ S g q x); auto. }
      destruct E as [[[Es _] E]|[E|E]].
      + assert (H12 : t_round (thr x) = g /\ told (thr x) (field_pos x q)).
        { unfold set_thr in Hg, Ht. destruct (Nat.eqb_spec x p) as [E0|]; [|auto]. subst x.
          destruct E as [(A & B & C0 & D)|(A & (r & B & Br) & _)].
          - assert (told (thr p) (field_pos p q)) by (apply A; [apply field_range; assumption|exact Ht]).
            split; [rewrite <- D; [exact Hg|left; exists (field_pos p q); auto]|assumption].
          - exfalso. unfold told in Ht. rewrite B in Ht. destruct r; congruence || contradiction. }
        destruct H12 as [H1 H2]. specialize (Hback H1 H2).
        destruct (Es (lnk g q x) (x <? q) Hlt) as [->|[_ Hcl]]; [exact Hback|].
        exfalso. rewrite <- (side_other x q) in Hcl by (destruct Hx; congruence).
        destruct K as [K _]. apply full_avail in K. destruct K as [_ K]. congruence.
      + destruct E as (r & hs & y & Hy & Hl & E1 & E2 & E3 & ->).
        destruct (Nat.eq_dec x p) as [->|Hxp].
        * unfold set_thr in Hg, Ht. rewrite Nat.eqb_refl in Hg, Ht. rewrite E3 in Hg. subst g.
          destruct (Nat.eq_dec q y) as [->|Hqy].
          -- rewrite (lnk_sym n _ y p), lk_set_same. cbn [l_sig]. apply upd_same.
          -- rewrite lk_set_other.
             ++ apply Hback; [reflexivity|]. unfold told in *. rewrite E1. rewrite E2 in Ht.
                assert (field_pos p q <> field_pos p y).
                { intros E0. apply Hqy. exact (field_inj p q y Hp Hxq Hy E0). }
                lia.
             ++ intros E0. destruct (lnk_inj n _ _ _ _ _ _ Hq Hx Hp Hy E0) as [_ [[-> ->]|[-> _]]]; [destruct Hy; congruence|congruence].
        * unfold set_thr in Hg, Ht. destruct (Nat.eqb_spec x p); [contradiction|]. specialize (Hback Hg Ht).
          destruct (Nat.eq_dec (lnk g q x) (lnk (t_round (thr p)) p y)) as [Em|Hne].
          -- destruct (lnk_inj n _ _ _ _ _ _ Hq Hx Hp Hy Em) as [E0 [[-> ->]|[-> ->]]]; [|congruence].
             rewrite Em, lk_set_same. cbn [l_sig]. rewrite (side_other p y) by (destruct Hy; congruence). rewrite upd_neg.
             rewrite <- (side_other p y) by (destruct Hy; congruence). rewrite <- Em. exact Hback.
          -- rewrite lk_set_other by exact Hne. exact Hback.
      + destruct E as (a & hs & y & Hy & Hl & Ha & E1 & E2 & E3 & E4 & ->).
        assert (H12 : t_round (thr x) = g /\ told (thr x) (field_pos x q)).
        { unfold set_thr in Hg, Ht. destruct (Nat.eqb_spec x p) as [E0|]; [|auto]. subst x. split; [congruence|].
          unfold told in *. rewrite E1. rewrite E2 in Ht. exact Ht. }
        destruct H12 as [H1 H2]. specialize (Hback H1 H2).
        destruct (Nat.eq_dec (lnk g q x) (lnk (t_round (thr p)) p y)) as [Em|Hne].
        * destruct (lnk_inj n _ _ _ _ _ _ Hq Hx Hp Hy Em) as [E0 [[-> ->]|[-> ->]]].
          -- exfalso. apply Hnh. unfold set_thr. rewrite Nat.eqb_refl. split; [congruence|]. unfold heard. rewrite E2. lia.
          -- rewrite Em, lk_set_same. cbn [l_sig]. rewrite upd_neg'. rewrite <- Em. exact Hback.
        * rewrite lk_set_other by exact Hne. exact Hback.
    - (* heard *)
      intros q x Hq Hx H. destruct (peer_sym n q x Hq Hx) as [Hx' Hxq].
      destruct (Nat.eq_dec q p) as [->|Hne].
      + assert (Hrd : t_round (set_thr thr p th' p) = t_round th') by (unfold set_thr; rewrite Nat.eqb_refl; reflexivity).
        assert (Hh : heard th' (field_pos p x)) by (unfold set_thr in H; rewrite Nat.eqb_refl in H; exact H).
        rewrite Hrd.
        assert (Hcase : t_round th' = t_round (thr p) /\ (heard (thr p) (field_pos p x) \/
                  (t_round (thr x) = t_round (thr p) /\ (told (thr x) (field_pos x p) \/ over (thr x))))).
        { destruct E as [[_ [(A & B & C0 & D)|(A & (r & B & Br) & _)]]|[E|E]].
          - apply B in Hh; [|apply field_range; assumption]. split; [apply D; left; exists (field_pos p x); auto|auto].
          - exfalso. unfold heard in Hh. rewrite B in Hh. destruct r; congruence || contradiction.
          - destruct E as (r & hs & y & Hy & Hl & E1 & E2 & E3 & _). split; [exact E3|]. left. unfold heard in *.
            rewrite E1. rewrite E2 in Hh. exact Hh.
          - destruct E as (a & hs & y & Hy & Hl & Ha & E1 & E2 & E3 & E4 & _). split; [exact E3|].
            unfold heard in *. rewrite E1. rewrite E2 in Hh. destruct (Nat.eq_dec x y) as [->|Hxy].
            + right. apply (s_sent _ _ S (t_round (thr p)) y p); auto.
              * rewrite (lnk_sym n). exact Hl.
              * rewrite (lnk_sym n), (side_other p y) by (destruct Hy; congruence). rewrite E4. discriminate.
            + left. assert (field_pos p x <> field_pos p y).
              { intros E0. apply Hxy. exact (field_inj p x y Hp Hx Hy E0). }
              lia. }
        destruct Hcase as [-> [Hc|[Hc1 Hc2]]].
        * destruct (s_heard _ _ S p x Hp Hx Hc) as [<- H2]. exact (Hold x _ (field_range x p Hx' Hxq) H2).
        * rewrite <- Hc1. exact (Hold x _ (field_range x p Hx' Hxq) Hc2).
      + assert (Eq : set_thr thr p th' q = thr q) by (unfold set_thr; destruct (Nat.eqb_spec q p); [contradiction|reflexivity]).
        rewrite Eq in *. destruct (s_heard _ _ S q x Hq Hx H) as [<- H2]. exact (Hold x _ (field_range x q Hx' Hxq) H2).
  Qed.

  Lemma sinv_init : forall T, dual_mesh n T ->
    sinv (st_store (init link_ops n T empty_links)) (st_thr (init link_ops n T empty_links)).
  Proof.
    intros T HT. destruct (init_form n T HT) as (L & _ & Hn & Hnew & _ & -> & Hthr). constructor.
    - intros g p x Hp Hx Hm H. exfalso. apply H. destruct (Hnew (lnk g p x)) as [t ->]; [lia|]. reflexivity.
    - intros g p x Hp Hx _ _ H. destruct (peer_sym n p x Hp Hx) as [Hx' _]. rewrite Hthr in H by exact Hx'. contradiction.
    - intros p x Hp Hx H. rewrite Hthr in H by exact Hp. contradiction.
  Qed.
End Signal.
