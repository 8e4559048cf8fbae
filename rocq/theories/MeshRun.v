(** Every step keeps the round structure. *)
From Coq Require Import List Arith Bool Lia Permutation.
From Verif Require Import Types Diag DiagProofs Wiring WiringProofs Session Mesh MeshSpec Links LinksProofs Refine Sim
  MeshWire MeshInv MeshStep MeshKeep MeshSafe MeshRounds.
Import ListNotations.

Section Run.
  Variable n : nat.
  Variable branch : nat -> nat -> nat -> mty.
  Variable labels : nat -> nat.
  Variable strict : bool.
  Hypothesis branch_dual : forall b l, l < labels b -> dual_mesh n (branch b l).

  Notation lthread := (@thread handle).
  Notation tcase := (tcase n branch labels strict).
  Notation tinv := (tinv n branch labels).
  Notation prog_ok := (prog_ok n branch labels).
  Notation inv := (inv n branch labels).
  Notation peer_role := (peer_role n).
  Notation N := (npairs n).
  Notation lnk := (lnk n).
  Notation hnd := (hnd n).
  Notation mesh := (mesh n).
  Notation lok := (lok n).
  Notation rthr := (rthr n).
  Notation rinv := (rinv n labels).

  Lemma live_link : forall L thr p y, 1 <= p <= n -> inv L thr -> In y (all_of (thr p)) -> live L y.
  Proof.
    intros L thr p y Hp I Hin. eapply owns_live; [apply (ti_own _ _ _ _ _ _ _ (inv_tinv n branch labels L thr p Hp I))|].
    apply in_or_app. left; exact Hin.
  Qed.

  (** The field of a running role towards another role. *)
  Lemma run_field : forall hist L thr p ss r hs x t h, 1 <= p <= n -> inv L thr -> rinv hist L thr ->
    t_prog (thr p) = PRun ss r hs -> peer_role p x -> nth_error ss (field_pos p x) = Some t ->
    nth_error hs (field_pos p x) = Some h ->
    h = hnd (t_round (thr p)) p x /\ lnk (t_round (thr p)) p x < lnext L /\
    l_ty (lk L (lnk (t_round (thr p)) p x)) (p <? x) = t /\
    (forall g c b l q, nth_error hist g = Some (c, b, l) -> 1 <= c <= n -> peer_role c q ->
       lnk (t_round (thr p)) p x = lnk g c q -> (c <? q) <> (p <? x)).
  Proof.
    intros hist L thr p ss r hs x t h Hp I R Ep Hx Es Eh.
    pose proof (r_thr _ _ _ _ _ R p Hp) as [_ HR]. rewrite Ep in HR. destruct HR as [-> Hno].
    rewrite (mesh_nth n _ p x Hp Hx) in Eh. injection Eh as <-. split; [reflexivity|].
    assert (Hin : In (hnd (t_round (thr p)) p x) (all_of (thr p))).
    { unfold all_of. rewrite Ep. apply in_or_app. left. apply in_mesh; assumption. }
    destruct (live_link L thr p _ Hp I Hin) as [Hl _]. split; [exact Hl|]. split.
    - pose proof (i_prog _ _ _ _ _ I p Hp) as P. rewrite Ep in P. cbn in P. destruct P as (_ & _ & P).
      destruct (Forall2_nth _ _ _ _ _ _ _ _ P (mesh_nth n _ p x Hp Hx) Es) as [H _]. exact H.
    - intros g c b l q H1 H2 H3 H4 H5. symmetry in H5.
      destruct (hnd_inj n _ _ _ _ _ _ Hp Hx H2 H3 H4 H5) as (<- & <- & <-). apply (Hno b l H1).
  Qed.

  Lemma map_nth_others : forall g p base, 1 <= p <= n ->
    pend_of n base p (mesh g p) =
    map (fun q => (q, hnd g p q, meshb n base q)) (map (other p) (seq 1 (n - 1))).
  Proof.
    intros g p base Hp. unfold pend_of. rewrite map_map. apply map_ext_in. intros i Hi. apply in_seq in Hi.
    assert (Hx : peer_role p (other p i)).
    { rewrite <- peer_other. split; [apply peer_neq|apply peer_range; lia]. }
    pose proof (mesh_nth n g p _ Hp Hx) as H. rewrite <- peer_other, field_pos_peer in H by lia.
    rewrite (nth_error_nth _ _ _ H). rewrite peer_other. reflexivity.
  Qed.

  Lemma others_peer : forall p q, 1 <= p <= n -> (In q (map (other p) (seq 1 (n - 1))) <-> peer_role p q).
  Proof.
    intros p q Hp. rewrite in_map_iff. split.
    - intros (i & <- & Hi). apply in_seq in Hi. rewrite <- peer_other. split; [apply peer_neq|apply peer_range; lia].
    - intros [H1 H2]. assert (Hin : In q (p :: map (other p) (seq 1 (n - 1)))).
      { apply (Permutation_in q (Permutation_sym (others_perm n p Hp))). apply in_seq. lia. }
      destruct Hin as [E|Hin]; [congruence|]. apply in_map_iff in Hin. exact Hin.
  Qed.

  Lemma log_app : forall (lg : list event) e x, In x lg -> In x (lg ++ [e]).
  Proof. intros. apply in_or_app. left; assumption. Qed.

  (** The chooser of a round is the first: nobody else can be ready to choose in it. *)
  Lemma chooser_last : forall hist L thr p ss hs b, 1 <= p <= n -> inv L thr -> rinv hist L thr ->
    t_prog (thr p) = PRun ss SBroadcast hs -> choice_of p ss = Some b -> t_round (thr p) = length hist.
  Proof.
    intros hist L thr p ss hs b Hp I R Ep Ec.
    pose proof (r_thr _ _ _ _ _ R p Hp) as [Hle HR]. rewrite Ep in HR. destruct HR as [Ehs Hno].
    destruct (le_lt_eq_dec _ _ Hle) as [Hlt|]; [|assumption]. exfalso.
    destruct (nth_error hist (t_round (thr p))) as [[[c b'] l]|] eqn:En.
    2: { apply nth_error_None in En. lia. }
    destruct (r_past _ _ _ _ _ R _ _ _ _ En) as (Hc & _ & _).
    assert (Hne : c <> p) by (intros ->; exact (Hno _ _ eq_refl)).
    pose proof (i_prog _ _ _ _ _ I p Hp) as P. rewrite Ep in P. cbn in P. destruct P as (P1 & P2 & P3).
    assert (Hpc : peer_role p c) by (split; assumption).
    assert (Hcp : peer_role c p) by (split; [congruence|exact Hp]).
    assert (Hk : field_pos p c < length ss).
    { rewrite <- (Forall2_len _ _ _ _ _ P3), P1. pose proof (nth_error_len _ _ _ _ (mesh_nth n (t_round (thr p)) p c Hp Hpc)) as H.
      unfold MeshRounds.mesh in H. rewrite meshb_length in H. exact H. }
    pose proof (choice_shape p ss b Ec _ Hk) as Hs.
    assert (Eh : nth_error hs (field_pos p c) = Some (hnd (t_round (thr p)) p c)) by (rewrite Ehs; apply mesh_nth; assumption).
    destruct (run_field hist L thr p ss SBroadcast hs c _ _ Hp I R Ep Hpc Hs Eh) as (_ & Hl & Ht & _).
    assert (Hsnd : is_snd (l_ty (lk L (lnk (t_round (thr p)) p c)) (p <? c)) = true) by (rewrite Ht; reflexivity).
    pose proof (snd_dual _ _ (i_wf _ _ _ _ _ I _ Hl) Hsnd) as Hr.
    rewrite <- (side_other p c) in Hr by congruence.
    destruct (lo_ty _ _ _ _ _ (r_link _ _ _ _ _ R _ Hl) _ c b' l p En Hc Hcp (lnk_sym n _ _ _)) as [HT|HT];
      rewrite HT in Hr; discriminate.
  Qed.

  Lemma rinv_case : forall hist L thr p i th' L', 1 <= p <= n -> inv L thr -> rinv hist L thr ->
    tcase p (thr p) L i th' L' -> rinv (record p i (thr p) hist) L' (set_thr thr p th').
  Proof.
    intros hist L thr p i th' L' Hp I R C.
    pose proof (r_thr _ _ _ _ _ R p Hp) as RT. pose proof RT as [Hle HR].
    pose proof (i_wf _ _ _ _ _ I) as W.
    assert (Me : forall th, set_thr thr p th p = th) by (intros th; unfold set_thr; rewrite Nat.eqb_refl; reflexivity).
    destruct C as [x rest out L1 Et Ed|Et Hnf
      |v x ss r hs t k h L1 Et Ep Hx Es Eh El|v x ss r hs t k h lost L1 Et Ep Hx Es Eh El Est
      |v x ss r hs t k h lost L1 Et Ep Hx Es Eh El Est
      |v x ss r hs t k h L1 Et Ep Hx Es Eh El|b l m x ss r hs h L1 Et Ep Hx Es Eh El Hl
      |x ss r hs P0 k h L1 Et Ep Hx Es Eh El
      |b l ss hs pl L1 Et Ep Ec Hl Ea
      |b l x h m pend own L1 Et Ep El|b l x h m pend own lost L1 Et Ep El Est
      |b l x h m pend own lost L1 Et Ep El Est
      |b l own Et Ep|ss hs Et Ep Ee
      |a r hs h L1 Et Ep Ea El|a r hs h Et Ep Ea El
      |a r hs h L1 Et Ep Ea Er El|a r hs h Et Ep Ea Er El|a r hs h L1 Et Ep Ea Er El
      |a r hs Et Ep Ea Er]; try (rewrite Ep in HR).
    - (* drop *)
      replace (record p ITau (thr p) hist) with hist by reflexivity.
      assert (Hlv : live L x).
      { apply (live_link L thr p x Hp I). unfold all_of. rewrite Et. apply in_or_app. right; left; reflexivity. }
      destruct x as [[l s] f]. destruct Hlv as [Hl _].
      destruct (lok_drop n hist (logs_of thr) l s f L out L1 W Hl Ed (r_link _ _ _ _ _ R l Hl)) as (k' & -> & Hk).
      apply rinv_set; auto.
      + eapply lok_mono; [|exact Hk]. intros q. apply logs_set. auto.
      + eapply rthr_mono; [|split; [exact Hle|exact HR]]. intros q. apply logs_set. auto.
    - (* crash *)
      replace (record p ICrash (thr p) hist) with hist by reflexivity.
      apply rinv_same; auto. split; [exact Hle|exact Logic.I].
    - (* send *)
      replace (record p (IVal v) (thr p) hist) with hist by reflexivity.
      destruct (run_field hist L thr p ss _ hs x _ h Hp I R Ep Hx Es Eh) as (-> & Hl & Ht & Hno).
      destruct (send_shape _ _ _ _ _ _ _ _ El) as (_ & ->).
      apply rinv_set; auto; cbn [t_log t_round].
      + apply log_app.
      + eapply lok_mono; [intros q; apply logs_set; cbn; apply log_app|].
        apply lok_send; [apply W, Hl|rewrite Ht; reflexivity|apply R, Hl| |reflexivity].
        intros g c0 b l q H1 H2 H3 H4 H5. exfalso. exact (Hno g c0 b l q H1 H2 H3 H4 H5).
      + split; [exact Hle|exact HR].
    - (* send lost *)
      replace (record p (IVal v) (thr p) hist) with hist by reflexivity.
      destruct (run_field hist L thr p ss _ hs x _ h Hp I R Ep Hx Es Eh) as (-> & Hl & Ht & Hno).
      destruct (lost_shape _ _ _ _ _ _ _ _ _ El) as (_ & _ & ->).
      apply rinv_set; auto; cbn [t_log t_round].
      + apply log_app.
      + eapply lok_mono; [intros q; apply logs_set; cbn; apply log_app|].
        apply lok_lost; [apply W, Hl|rewrite Ht; reflexivity|apply R, Hl|].
        intros g c0 b l q H1 H2 H3 H4 H5. exfalso. exact (Hno g c0 b l q H1 H2 H3 H4 H5).
      + split; [exact Hle|exact HR].
    - (* send error *)
      replace (record p (IVal v) (thr p) hist) with hist by reflexivity.
      destruct (run_field hist L thr p ss _ hs x _ h Hp I R Ep Hx Es Eh) as (-> & Hl & Ht & Hno).
      destruct (lost_shape _ _ _ _ _ _ _ _ _ El) as (_ & _ & ->).
      apply rinv_set; auto; cbn [fin t_log t_round].
      + eapply lok_mono; [intros q; apply logs_set; auto|].
        apply lok_lost; [apply W, Hl|rewrite Ht; reflexivity|apply R, Hl|].
        intros g c0 b l q H1 H2 H3 H4 H5. exfalso. exact (Hno g c0 b l q H1 H2 H3 H4 H5).
      + split; [exact Hle|exact Logic.I].
    - (* recv *)
      replace (record p ITau (thr p) hist) with hist by reflexivity.
      destruct (run_field hist L thr p ss _ hs x _ h Hp I R Ep Hx Es Eh) as (-> & Hl & Ht & Hno).
      destruct (got_shape _ _ _ _ _ _ _ El) as (t' & Hpend & ->).
      apply rinv_set; auto; cbn [t_log t_round].
      + apply log_app.
      + eapply lok_mono; [intros q; apply logs_set; cbn; apply log_app|].
        eapply lok_popped; [apply W, Hl|exact Hpend|apply R, Hl].
      + split; [exact Hle|exact HR].
    - (* offer *)
      replace (record p ITau (thr p) hist) with hist by reflexivity.
      destruct (run_field hist L thr p ss _ hs x _ h Hp I R Ep Hx Es Eh) as (-> & Hl' & Ht & Hno).
      destruct (got_shape _ _ _ _ _ _ _ El) as (t' & Hpend & ->).
      pose proof Hpend as Hpend'. apply pending_some in Hpend'. destruct Hpend' as [Hto Hq].
      pose proof (lo_q _ _ _ _ _ (r_link _ _ _ _ _ R _ Hl') (VLabel b l p) m t') as HQ. rewrite Hq in HQ.
      destruct (HQ (or_introl eq_refl)) as (g & c & Hg & Hc & Hcp & Em & Es' & ->). rewrite Hto in Es'.
      destruct (peer_sym n c p Hc Hcp) as [_ Hpc].
      assert (E : t_round (thr p) = g /\ p = p /\ x = c).
      { apply (hnd_inj n); auto. rewrite Em. apply lnk_sym. }
      destruct E as (E & _ & ->). subst g.
      apply rinv_set; auto; cbn [t_log t_round].
      + apply log_app.
      + lia.
      + eapply lok_mono; [intros q; apply logs_set; cbn; apply log_app|].
        eapply lok_popped; [apply W, Hl'|exact Hpend|apply R, Hl'].
      + assert (Hlt : t_round (thr p) < length hist) by (apply nth_error_Some; congruence).
        split; [exact Hlt|]. cbn [t_prog t_round]. split; [reflexivity|]. intros b0 l0 H0.
        destruct (r_past _ _ _ _ _ R _ _ _ _ H0) as (_ & _ & H). cbn in H. lia.
    - (* recv error *)
      replace (record p ITau (thr p) hist) with hist by reflexivity.
      destruct (run_field hist L thr p ss _ hs x _ h Hp I R Ep Hx Es Eh) as (-> & Hl & Ht & Hno).
      destruct (goterr_shape _ _ _ _ El) as (_ & _ & ->).
      apply rinv_set; auto; cbn [fin t_log t_round].
      + eapply lok_mono; [intros q; apply logs_set; auto|].
        eapply lok_same; [..|apply R, Hl]; auto.
      + split; [exact Hle|exact Logic.I].
    - (* choose *)
      unfold record. rewrite Et, Ep, Ec. destruct HR as [-> Hno].
      pose proof (chooser_last hist L thr p ss _ b Hp I R Ep Ec) as Hg.
      destruct (new_mesh n (choose_vars n) (branch b l) L pl L1 (choose_vars_spec n) (branch_dual b l Hl) Ea)
        as (_ & Hn & Hold & Hnew & _).
      assert (Hx' : forall g x, nth_error hist g = Some x -> nth_error (hist ++ [(p, b, l)]) g = Some x).
      { intros g x H. rewrite nth_error_app1; [exact H|]. apply nth_error_Some. congruence. }
      assert (Hlast : forall g c b' l', nth_error (hist ++ [(p, b, l)]) g = Some (c, b', l') ->
                nth_error hist g = Some (c, b', l') \/ (g = length hist /\ c = p /\ b' = b /\ l' = l)).
      { intros g c b' l' H. destruct (lt_dec g (length hist)) as [Hlt|Hge].
        - rewrite nth_error_app1 in H by exact Hlt. auto.
        - rewrite nth_error_app2 in H by lia. destruct (g - length hist) as [|j] eqn:Ej; cbn in H.
          + injection H as <- <- <-. right. repeat split; lia.
          + destruct j; discriminate. }
      set (th1 := Thread _ _ _ _).
      assert (HEv : forall q, In EvClose (logs_of thr q) -> In EvClose (logs_of (set_thr thr p th1) q))
        by (intros q; apply logs_set; auto).
      constructor.
      + rewrite Hn, (r_next _ _ _ _ _ R), app_length. cbn [length]. lia.
      + intros m Hm. destruct (lt_dec m (lnext L)) as [Hlt|Hge].
        * rewrite Hold by exact Hlt. pose proof (r_link _ _ _ _ _ R m Hlt) as [Q T G]. constructor.
          -- intros v c t Hin. specialize (Q v c t Hin). destruct v as [|b' l' j]; [exact Q|].
             destruct Q as (g & p' & H1 & H2). exists g, p'. split; [apply Hx', H1|exact H2].
          -- intros g c b' l' q H1 H2 H3 H4. destruct (Hlast _ _ _ _ H1) as [H5|(-> & -> & -> & ->)].
             ++ eapply T; eauto.
             ++ left. pose proof (i_prog _ _ _ _ _ I p Hp) as P. rewrite Ep in P. cbn in P. destruct P as (P1 & P2 & P3).
                assert (Hk : field_pos p q < length ss).
                { rewrite <- (Forall2_len _ _ _ _ _ P3), P1.
                  pose proof (nth_error_len _ _ _ _ (mesh_nth n (t_round (thr p)) p q Hp H3)) as H.
                  unfold MeshRounds.mesh in H. rewrite meshb_length in H. exact H. }
                pose proof (choice_shape p ss b Ec _ Hk) as Hs.
                destruct (run_field hist L thr p ss _ _ q _ _ Hp I R Ep H3 Hs (mesh_nth n _ p q Hp H3))
                  as (_ & _ & Ht & _). rewrite Hg in Ht. subst m. rewrite Ht. do 2 f_equal.
                rewrite <- peer_other, Nat.add_1_r. destruct H3 as [H3 H3'].
                apply (proj2 (peer_field n p q Hp H3' (not_eq_sym H3))).
          -- intros g p' q s H1 H2 H3 H4. destruct (G g p' q s H1 H2 H3 H4) as [H5 H6]. auto.
        * destruct (Hnew m) as [t ->]; [lia|]. constructor.
          -- intros v c t' [].
          -- intros g c b' l' q H1 H2 H3 H4. exfalso.
             assert (Hlt : g < length (hist ++ [(p, b, l)])) by (apply nth_error_Some; congruence).
             rewrite app_length in Hlt. cbn in Hlt. pose proof (lnk_range n g c q H2 H3).
             rewrite (r_next _ _ _ _ _ R) in Hge. nia.
          -- intros g p' q s H1 H2 H3 H4. discriminate.
      + intros q Hq. destruct (Nat.eq_dec q p) as [->|Hne].
        * rewrite Me. split; [cbn; rewrite app_length; lia|]. cbn [th1 t_prog t_round].
          split; [rewrite Hg, nth_error_app2, Nat.sub_diag by lia; reflexivity|].
          rewrite (r_next _ _ _ _ _ R), <- Hg. split; [reflexivity|].
          exists (map (other p) (seq 1 (n - 1))). split; [apply map_nth_others, Hp|].
          rewrite Forall_forall. intros q Hin. apply others_peer; assumption.
        * unfold set_thr at 2. destruct (Nat.eqb_spec q p) as [|_]; [contradiction|].
          eapply rthr_mono; [exact HEv|]. destruct (r_thr _ _ _ _ _ R q Hq) as [H1 H2].
          split; [rewrite app_length; lia|].
          assert (Hnq : (forall b0 l0, nth_error hist (t_round (thr q)) <> Some (q, b0, l0)) ->
                        forall b0 l0, nth_error (hist ++ [(p, b, l)]) (t_round (thr q)) <> Some (q, b0, l0)).
          { intros Hn0 b0 l0 H0. destruct (Hlast _ _ _ _ H0) as [H3|(_ & H3 & _)]; [exact (Hn0 _ _ H3)|contradiction]. }
          destruct (t_prog (thr q)) as [ss0 r0 hs0|b0 l0 pend0 own0|a0 r0 hs0|[]|]; auto.
          -- destruct H2 as [H2 H3]. auto.
          -- destruct H2 as [H2 H3]. split; [apply Hx', H2|exact H3].
          -- destruct H2 as (H2 & H3 & H4). auto.
      + intros g c b' l' H. destruct (Hlast _ _ _ _ H) as [H1|(-> & -> & -> & ->)].
        * destruct (r_past _ _ _ _ _ R _ _ _ _ H1) as (H2 & H3 & H4). split; [exact H2|]. split; [exact H3|].
          unfold set_thr. destruct (Nat.eqb_spec c p) as [->|]; [exact H4|exact H4].
        * split; [exact Hp|]. split; [exact Hl|]. rewrite Me. cbn. lia.
    - (* choice send *)
      replace (record p ITau (thr p) hist) with hist by reflexivity.
      destruct HR as (Hg & -> & qs & Epend & Hqs). destruct qs as [|q qs]; [discriminate|].
      cbn [map] in Epend. injection Epend as -> -> -> ->. inversion Hqs as [|? ? Hq Hqs']; subst.
      assert (Hin : In (hnd (t_round (thr p)) p q) (all_of (thr p))).
      { unfold all_of. rewrite Ep. left; reflexivity. }
      destruct (live_link L thr p _ Hp I Hin) as [Hl _].
      pose proof (i_prog _ _ _ _ _ I p Hp) as P. rewrite Ep in P. cbn in P. destruct P as (_ & _ & P).
      apply Forall_inv in P. destruct P as (_ & Ht & _). unfold lty, MeshRounds.hnd in Ht.
      destruct (send_shape _ _ _ _ _ _ _ _ El) as (_ & ->).
      apply rinv_set; auto; cbn [t_log t_round].
      + apply log_app.
      + eapply lok_mono; [intros q'; apply logs_set; cbn; apply log_app|].
        apply lok_send; [apply W, Hl|rewrite Ht; reflexivity|apply R, Hl|auto|].
        exists (t_round (thr p)), p. split; [exact Hg|]. split; [exact Hp|]. split; [exact Hq|].
        split; [reflexivity|]. split; [|reflexivity]. symmetry. apply side_other. destruct Hq; congruence.
      + split; [exact Hle|]. cbn [t_prog t_round]. split; [exact Hg|]. split; [reflexivity|]. exists qs. auto.
    - (* choice send lost *)
      replace (record p ITau (thr p) hist) with hist by reflexivity.
      destruct HR as (Hg & -> & qs & Epend & Hqs). destruct qs as [|q qs]; [discriminate|].
      cbn [map] in Epend. injection Epend as -> -> -> ->. inversion Hqs as [|? ? Hq Hqs']; subst.
      assert (Hin : In (hnd (t_round (thr p)) p q) (all_of (thr p))).
      { unfold all_of. rewrite Ep. left; reflexivity. }
      destruct (live_link L thr p _ Hp I Hin) as [Hl _].
      pose proof (i_prog _ _ _ _ _ I p Hp) as P. rewrite Ep in P. cbn in P. destruct P as (_ & _ & P).
      apply Forall_inv in P. destruct P as (_ & Ht & _). unfold lty, MeshRounds.hnd in Ht.
      destruct (lost_shape _ _ _ _ _ _ _ _ _ El) as (_ & _ & ->).
      apply rinv_set; auto; cbn [t_log t_round].
      + apply log_app.
      + eapply lok_mono; [intros q'; apply logs_set; cbn; apply log_app|].
        apply lok_lost; [apply W, Hl|rewrite Ht; reflexivity|apply R, Hl|auto].
      + split; [exact Hle|]. cbn [t_prog t_round]. split; [exact Hg|]. split; [reflexivity|]. exists qs. auto.
    - (* choice send error *)
      replace (record p ITau (thr p) hist) with hist by reflexivity.
      destruct HR as (Hg & -> & qs & Epend & Hqs). destruct qs as [|q qs]; [discriminate|].
      cbn [map] in Epend. injection Epend as -> -> -> ->. inversion Hqs as [|? ? Hq Hqs']; subst.
      assert (Hin : In (hnd (t_round (thr p)) p q) (all_of (thr p))).
      { unfold all_of. rewrite Ep. left; reflexivity. }
      destruct (live_link L thr p _ Hp I Hin) as [Hl _].
      pose proof (i_prog _ _ _ _ _ I p Hp) as P. rewrite Ep in P. cbn in P. destruct P as (_ & _ & P).
      apply Forall_inv in P. destruct P as (_ & Ht & _). unfold lty, MeshRounds.hnd in Ht.
      destruct (lost_shape _ _ _ _ _ _ _ _ _ El) as (_ & _ & ->).
      apply rinv_set; auto; cbn [fin t_log t_round].
      + eapply lok_mono; [intros q'; apply logs_set; auto|].
        apply lok_lost; [apply W, Hl|rewrite Ht; reflexivity|apply R, Hl|auto].
      + split; [exact Hle|exact Logic.I].
    - (* enter *)
      replace (record p ITau (thr p) hist) with hist by reflexivity.
      destruct HR as (Hg & -> & _).
      apply rinv_same; auto; cbn [t_log t_round]; [lia|].
      assert (Hlt : t_round (thr p) < length hist) by (apply nth_error_Some; congruence).
      split; [exact Hlt|]. cbn [t_prog t_round]. split; [reflexivity|]. intros b0 l0 H0.
      destruct (r_past _ _ _ _ _ R _ _ _ _ H0) as (_ & _ & H). cbn in H. lia.
    - (* close *)
      replace (record p ITau (thr p) hist) with hist by reflexivity.
      apply rinv_same; auto; cbn [t_log t_round]; [apply log_app|].
      split; [exact Hle|]. cbn [t_prog t_round]. destruct HR as [H1 H2]. split; [exact H1|]. split; [exact H2|].
      split; [|lia]. unfold logs_of. rewrite Me. cbn. apply in_or_app. right; left; reflexivity.
    - (* tell *)
      replace (record p ITau (thr p) hist) with hist by reflexivity.
      destruct HR as (-> & H2 & H3 & H4).
      destruct (mesh_field n _ p a h Hp Ea) as (q & Hq & -> & _).
      assert (Hin : In (hnd (t_round (thr p)) p q) (all_of (thr p))).
      { unfold all_of. rewrite Ep. apply in_or_app. left. apply in_mesh; assumption. }
      destruct (live_link L thr p _ Hp I Hin) as [Hl _].
      rewrite (tell_shape _ _ _ _ _ El).
      assert (HEv : forall q0, In EvClose (logs_of thr q0) -> In EvClose (logs_of (set_thr thr p
                (Thread (PClose (a + 1) r (mesh (t_round (thr p)) p)) [] (t_round (thr p)) (t_log (thr p)))) q0))
        by (intros q0; apply logs_set; auto).
      apply rinv_set; auto; cbn [t_log t_round].
      + eapply lok_mono; [exact HEv|]. destruct (r_link _ _ _ _ _ R _ Hl) as [Q T G].
        constructor; [exact Q|exact T|]. intros g p' q' s' H5 H6 H7 H8. cbn [l_sig] in H8.
        destruct (bool_cases (p <? q) (p' <? q')) as [E|E].
        * rewrite E, upd_same in H8. injection H8 as <-. split; [reflexivity|].
          destruct (hnd_inj n _ _ _ _ _ _ Hp Hq H5 H6 H7 (eq_sym E)) as (_ & <- & _). exact H3.
        * rewrite E, upd_neg, <- E in H8. eapply G; eauto.
      + split; [exact Hle|]. cbn [t_prog t_round]. split; [reflexivity|]. split; [exact H2|]. split; [apply HEv, H3|].
        intros q0 H5 H6. apply HEv, H4; assumption.
    - (* tell error *)
      replace (record p ITau (thr p) hist) with hist by reflexivity.
      apply rinv_same; auto. split; [exact Hle|exact Logic.I].
    - (* hear *)
      replace (record p ITau (thr p) hist) with hist by reflexivity.
      destruct HR as (-> & H2 & H3 & H4).
      destruct (mesh_field n _ p r h Hp Er) as (q & Hq & -> & Erq).
      assert (Hin : In (hnd (t_round (thr p)) p q) (all_of (thr p))).
      { unfold all_of. rewrite Ep. apply in_or_app. left. apply in_mesh; assumption. }
      destruct (live_link L thr p _ Hp I Hin) as [Hl _].
      destruct (hear_shape _ _ _ _ _ El) as [Hs ->].
      destruct (peer_sym n p q Hp Hq) as [Hq' Hpq].
      assert (HEv : forall q0, In EvClose (logs_of thr q0) -> In EvClose (logs_of (set_thr thr p
                (Thread (PClose a (r + 1) (mesh (t_round (thr p)) p)) [] (t_round (thr p)) (t_log (thr p)))) q0))
        by (intros q0; apply logs_set; auto).
      apply rinv_set; auto; cbn [t_log t_round].
      + eapply lok_mono; [exact HEv|]. eapply lok_same; [..|apply R, Hl]; auto.
        intros s'. cbn [l_sig]. destruct (bool_cases (negb (p <? q)) s') as [E|E]; [left; rewrite E; apply upd_same|].
        right. rewrite E, negb_involutive. apply upd_neg'.
      + split; [exact Hle|]. cbn [t_prog t_round]. split; [reflexivity|]. split; [exact H2|]. split; [apply HEv, H3|].
        intros q0 H5 H6. destruct (Nat.eq_dec (field_pos p q0) r) as [E|Hne].
        * apply HEv. assert (E2 : q0 = q).
          { pose proof (mesh_nth n (t_round (thr p)) p q0 Hp H5) as H7. rewrite E, Er in H7.
            injection H7 as H7 H8. destruct (hnd_inj n _ _ _ _ _ _ Hp Hq Hp H5 H7 H8) as (_ & _ & ->). reflexivity. }
          subst q0. rewrite <- (side_other p q) in Hs by (destruct Hq; congruence).
          apply (lo_sig _ _ _ _ _ (r_link _ _ _ _ _ R _ Hl) (t_round (thr p)) q p Stop Hq' Hpq (lnk_sym n _ _ _) Hs).
        * apply HEv, H4; [exact H5|lia].
    - (* hear error *)
      replace (record p ITau (thr p) hist) with hist by reflexivity.
      apply rinv_same; auto. split; [exact Hle|exact Logic.I].
    - (* cancel *)
      replace (record p ITau (thr p) hist) with hist by reflexivity.
      destruct HR as (-> & H2 & H3 & H4).
      destruct (mesh_field n _ p r h Hp Er) as (q & Hq & -> & Erq).
      assert (Hin : In (hnd (t_round (thr p)) p q) (all_of (thr p))).
      { unfold all_of. rewrite Ep. apply in_or_app. left. apply in_mesh; assumption. }
      destruct (live_link L thr p _ Hp I Hin) as [Hl _].
      destruct (hear_shape _ _ _ _ _ El) as [Hs ->]. exfalso.
      destruct (peer_sym n p q Hp Hq) as [Hq' Hpq].
      rewrite <- (side_other p q) in Hs by (destruct Hq; congruence).
      destruct (lo_sig _ _ _ _ _ (r_link _ _ _ _ _ R _ Hl) (t_round (thr p)) q p Cancel Hq' Hpq (lnk_sym n _ _ _) Hs).
      discriminate.
    - (* done *)
      replace (record p ITau (thr p) hist) with hist by reflexivity.
      destruct HR as (-> & H2 & H3 & H4).
      apply rinv_same; auto. split; [exact Hle|]. cbn.
      assert (HEv : forall q0, In EvClose (logs_of thr q0) -> In EvClose (logs_of (set_thr thr p
                (fin (thr p) ROk (mesh (t_round (thr p)) p))) q0))
        by (intros q0; apply logs_set; auto).
      split; [apply HEv, H3|]. intros q Hq. apply HEv, H4; [exact Hq|].
      apply nth_error_None in Er. pose proof (nth_error_len _ _ _ _ (mesh_nth n (t_round (thr p)) p q Hp Hq)). lia.
  Qed.
End Run.
