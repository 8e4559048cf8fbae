(** Roles that follow the projections of a global protocol are not left behind: what others do keeps a
    role able to go on, and brings the slow roles forward. *)
From Coq Require Import List Arith Bool Lia Permutation.
From Verif Require Import Types Diag DiagProofs Wiring WiringProofs Session Mesh MeshSpec Links LinksProofs Refine Sim
  MeshWire MeshInv MeshStep MeshKeep MeshSafe MeshRounds MeshRun MeshLog MeshReach Global MeshGlobal MeshSignal MeshProgress MeshBound.
Import ListNotations.

(** Whoever waits at side s of the new link waited there before. *)
Definition back (k k' : link) (s : bool) : Prop :=
  (pending k' s = None -> pending k s = None) /\
  (l_open k' (negb s) = true -> l_open k (negb s) = true) /\
  (l_sig k' (negb s) = None -> l_sig k (negb s) = None).

Lemma back_refl : forall k s, back k k s.
Proof. intros k s. repeat split; auto. Qed.

Lemma back_set : forall L l k m s, (m = l -> back (lk L m) k s) -> back (lk L m) (lk (set_link L l k) m) s.
Proof.
  intros L l k m s H. destruct (Nat.eq_dec m l) as [->|Hne]; [rewrite lk_set_same; auto|rewrite lk_set_other by exact Hne; apply back_refl].
Qed.

Lemma other_side : forall (m : nat) (s s' : bool), (m, s, true) <> (m, s', true) -> s' = negb s.
Proof. intros m [] [] H; try reflexivity; congruence. Qed.

Lemma back_send : forall L m s s' v (c : list handle) t y L', (m, s, true) <> (m, s', true) ->
  lk_send (m, s', true) v c t L = SentOk y L' -> back (lk L m) (lk L' m) s.
Proof.
  intros L m s s' v c t y L' Hne H. apply other_side in Hne. subst s'. destruct (send_shape _ _ _ _ _ _ _ _ H) as (_ & ->).
  rewrite lk_set_same. split; [|split; auto]. unfold pending. cbn [l_to l_q]. rewrite negb_involutive, Bool.eqb_reflx.
  destruct (l_q (lk L m)); discriminate.
Qed.

Section Fair.
  Variable n : nat.
  Variable labels : nat -> nat.
  Variable strict : bool.
  Variable P : protocol.
  Hypothesis wf : wf_protocol n labels P.

  Notation branch := (branch_g n P).
  Notation lthread := (@thread handle).
  Notation tcase := (tcase n branch labels strict).
  Notation tstep_l := (tstep link_ops n branch labels strict).
  Notation inv := (inv n branch labels).
  Notation rinv := (rinv n labels).
  Notation ginv := (ginv n labels P).
  Notation sinv := (sinv n).
  Notation grnd := (grnd P).
  Notation peer_role := (peer_role n).
  Notation lnk := (lnk n).
  Notation hnd := (hnd n).
  Notation mesh := (mesh n).
  Notation ready := (ready n labels strict P).
  Notation can := (can n labels strict P).
  Notation cut := (cut n).
  Notation settled_to := (settled_to n).

  (** ** What others do does not disable a role *)

  (** The ends the next step of a thread acts on. *)
  Definition acts (th : lthread) : list handle :=
    match t_trash th with x :: _ => [x] | [] => held (t_prog th) end.

  Lemma step_back : forall hist L thr z i th' L' m s, 1 <= z <= n -> inv L thr -> rinv hist L thr ->
    tcase z (thr z) L i th' L' -> live L (m, s, true) -> ~ In (m, s, true) (acts (thr z)) ->
    back (lk L m) (lk L' m) s.
  Proof.
    intros hist L thr z i th' L' m s Hz I R C Hlv Hni. destruct Hlv as [Hm Hos].
    pose proof (r_thr _ _ _ _ _ R z Hz) as [Hle HR].
    assert (Hlost : forall l s' v (c : list handle) t y lost L1, (m, s, true) <> (l, s', true) ->
              lk_send (l, s', true) v c t L = SentLost y lost L1 -> back (lk L m) (lk L1 m) s).
    { intros l s' v c t y lost L1 Hne El. destruct (lost_shape _ _ _ _ _ _ _ _ _ El) as (Ho & _ & ->). apply back_set. intros <-.
      apply other_side in Hne. subst s'. rewrite negb_involutive in Ho. congruence. }
    assert (Hsend : forall l s' v (c : list handle) t y L1, (m, s, true) <> (l, s', true) ->
              lk_send (l, s', true) v c t L = SentOk y L1 -> back (lk L m) (lk L1 m) s).
    { intros l s' v c t y L1 Hne El. destruct (Nat.eq_dec m l) as [<-|Hd]; [eapply back_send; eauto|].
      destruct (send_shape _ _ _ _ _ _ _ _ El) as (_ & ->). apply back_set. intros E; contradiction. }
    assert (Hpop : forall l s' v c t, (m, s, true) <> (l, s', true) -> pending (lk L l) s' = Some (v, c, t) ->
              back (lk L m) (lk (set_link L l (popped (lk L l) s' t)) m) s).
    { intros l s' v c t Hne Hp. apply back_set. intros <-. apply other_side in Hne. subst s'. split; [|split; auto].
      intros _. apply pending_some in Hp. destruct Hp as [Hp _]. unfold pending. rewrite Hp. destruct s; reflexivity. }
    assert (Hclosed : forall l s', (m, s, true) <> (l, s', true) -> back (lk L m) (lk (set_link L l (closed (lk L l) s')) m) s).
    { intros l s' Hne. apply back_set. intros <-. apply other_side in Hne. subst s'. split; [auto|]. split; [|auto].
      unfold closed. cbn [l_open]. rewrite upd_same. discriminate. }
    assert (Hin : forall x, t_trash (thr z) = [] -> In x (held (t_prog (thr z))) -> (m, s, true) <> x).
    { intros x Et Hx E. apply Hni. unfold acts. rewrite Et, E. exact Hx. }
    destruct C as [x rest out L1 Et Ed|Et Hnf
      |v x ss r hs t k h L1 Et Ep Hx Es Eh El|v x ss r hs t k h lost L1 Et Ep Hx Es Eh El Est
      |v x ss r hs t k h lost L1 Et Ep Hx Es Eh El Est
      |v x ss r hs t k h L1 Et Ep Hx Es Eh El|b l mm x ss r hs h L1 Et Ep Hx Es Eh El Hl
      |x ss r hs P0 k h L1 Et Ep Hx Es Eh El
      |b l ss hs pl L1 Et Ep Ec Hl Ea
      |b l x h mm pend own L1 Et Ep El|b l x h mm pend own lost L1 Et Ep El Est
      |b l x h mm pend own lost L1 Et Ep El Est
      |b l own Et Ep|ss hs Et Ep Ee
      |a r hs h L1 Et Ep Ea El|a r hs h Et Ep Ea El
      |a r hs h L1 Et Ep Ea Er El|a r hs h Et Ep Ea Er El|a r hs h L1 Et Ep Ea Er El
      |a r hs Et Ep Ea Er]; try (rewrite Ep in HR); try apply back_refl;
      try (assert (Hh : (m, s, true) <> h) by (apply Hin; [exact Et|rewrite Ep; eapply nth_error_In; eauto])).
    - (* drop *)
      assert (Hlv : live L x).
      { apply (live_link n branch labels L thr z x Hz I). unfold all_of. rewrite Et. apply in_or_app. right; left; reflexivity. }
      destruct x as [[l s'] f]. destruct Hlv as [Hl Ho].
      assert (Hne : (m, s, true) <> (l, s', f)) by (intros E; apply Hni; unfold acts; rewrite Et, E; left; reflexivity).
      unfold lk_drop in Ed. destruct f.
      + destruct (is_fin (l_ty (lk L l) s')); [|destruct (pending (lk L l) s') as [[[v c] t]|] eqn:Hpe]; injection Ed as _ <-.
        * apply back_set. intros <-. apply other_side in Hne. subst s'. split; [auto|]. split; [|auto].
          cbn [l_open]. rewrite upd_same. discriminate.
        * eapply Hpop; eauto.
        * apply Hclosed; exact Hne.
      + injection Ed as _ <-. destruct Ho as [Ho1 Ho2]. apply back_set. intros <-.
        assert (s' = negb s) as -> by (destruct s, s'; try reflexivity; congruence). split; [auto|]. split; [auto|].
        cbn [l_sig]. rewrite negb_involutive, upd_neg. auto.
    - destruct (run_field n branch labels hist L thr z ss _ hs x _ h Hz I R Ep Hx Es Eh) as (-> & _). eapply Hsend; eauto.
    - destruct (run_field n branch labels hist L thr z ss _ hs x _ h Hz I R Ep Hx Es Eh) as (-> & _). eapply Hlost; eauto.
    - destruct (run_field n branch labels hist L thr z ss _ hs x _ h Hz I R Ep Hx Es Eh) as (-> & _). eapply Hlost; eauto.
    - destruct (run_field n branch labels hist L thr z ss _ hs x _ h Hz I R Ep Hx Es Eh) as (-> & _).
      destruct (got_shape _ _ _ _ _ _ _ El) as (t' & Hpend & ->). eapply Hpop; eauto.
    - destruct (run_field n branch labels hist L thr z ss _ hs x _ h Hz I R Ep Hx Es Eh) as (-> & _).
      destruct (got_shape _ _ _ _ _ _ _ El) as (t' & Hpend & ->). eapply Hpop; eauto.
    - destruct (run_field n branch labels hist L thr z ss _ hs x _ h Hz I R Ep Hx Es Eh) as (-> & _).
      destruct (goterr_shape _ _ _ _ El) as (_ & _ & ->). apply Hclosed; exact Hh.
    - destruct (new_mesh n (choose_vars n) (branch b l) L pl L1 (choose_vars_spec n) (branch_g_dual n labels P b l Hl) Ea)
        as (_ & _ & Hold & _). rewrite Hold by exact Hm. apply back_refl.
    - assert (Hh : (m, s, true) <> h) by (apply Hin; [exact Et|rewrite Ep; left; reflexivity]).
      destruct HR as (_ & _ & qs & Epend & _). destruct qs as [|q qs]; [discriminate|]. cbn [map] in Epend. injection Epend as -> -> -> ->.
      eapply Hsend; eauto.
    - assert (Hh : (m, s, true) <> h) by (apply Hin; [exact Et|rewrite Ep; left; reflexivity]).
      destruct HR as (_ & _ & qs & Epend & _). destruct qs as [|q qs]; [discriminate|]. cbn [map] in Epend. injection Epend as -> -> -> ->.
      eapply Hlost; eauto.
    - assert (Hh : (m, s, true) <> h) by (apply Hin; [exact Et|rewrite Ep; left; reflexivity]).
      destruct HR as (_ & _ & qs & Epend & _). destruct qs as [|q qs]; [discriminate|]. cbn [map] in Epend. injection Epend as -> -> -> ->.
      eapply Hlost; eauto.
    - destruct HR as (-> & _). destruct (mesh_field n _ _ _ _ Hz Ea) as (x & Hx & -> & ->).
      pose proof (tell_shape _ _ _ _ _ El) as ->. apply back_set. intros Em. unfold MeshRounds.hnd in Hh. rewrite <- Em in Hh.
      apply other_side in Hh. rewrite Hh, <- Em. split; [auto|]. split; [auto|]. cbn [l_sig]. rewrite upd_same. discriminate.
    - destruct HR as (-> & _). destruct (mesh_field n _ _ _ _ Hz Er) as (x & Hx & -> & ->).
      destruct (hear_shape _ _ _ _ _ El) as [_ ->]. apply back_set. intros Em. unfold MeshRounds.hnd in Hh. rewrite <- Em in Hh.
      apply other_side in Hh. rewrite Hh, <- Em. split; [auto|]. split; [auto|]. cbn [l_sig]. rewrite negb_involutive, upd_neg. auto.
    - destruct HR as (-> & _). destruct (mesh_field n _ _ _ _ Hz Er) as (x & Hx & -> & ->).
      destruct (hear_shape _ _ _ _ _ El) as [_ ->]. apply back_set. intros Em. unfold MeshRounds.hnd in Hh. rewrite <- Em in Hh.
      apply other_side in Hh. rewrite Hh, <- Em. split; [auto|]. split; [auto|]. cbn [l_sig]. rewrite negb_involutive, upd_neg. auto.
  Qed.

  Lemma recv_stays : forall L L' m s f, is_rcv (l_ty (lk L m) s) = true -> back (lk L m) (lk L' m) s ->
    lk_recv (m, s, f) L <> GotWait -> lk_recv (m, s, f) L' <> GotWait.
  Proof.
    intros L L' m s f Ht (B1 & B2 & _) H H'. apply H. unfold lk_recv in *. destruct f; [|discriminate]. cbn [andb] in *. rewrite Ht.
    destruct (is_rcv (l_ty (lk L' m) s)); [|discriminate].
    destruct (pending (lk L' m) s) as [[[v c] t]|]; [discriminate|]. rewrite (B1 eq_refl).
    destruct (l_open (lk L' m) (negb s)); [|discriminate]. rewrite (B2 eq_refl). reflexivity.
  Qed.

  Lemma hear_stays : forall L L' m s f, is_fin (l_ty (lk L m) s) = true -> back (lk L m) (lk L' m) s ->
    lk_hear (m, s, f) L <> HearWait -> lk_hear (m, s, f) L' <> HearWait.
  Proof.
    intros L L' m s f Ht (_ & B2 & B3) H H'. apply H. unfold lk_hear in *. destruct f; [|discriminate]. cbn [andb] in *. rewrite Ht.
    destruct (is_fin (l_ty (lk L' m) s)); [|discriminate].
    destruct (l_sig (lk L' m) (negb s)); [discriminate|]. rewrite (B3 eq_refl).
    destruct (l_open (lk L' m) (negb s)); [|discriminate]. rewrite (B2 eq_refl). reflexivity.
  Qed.

  Lemma ready_stays : forall pick L thr L' thr' p, 1 <= p <= n -> inv L thr -> inv L' thr' ->
    t_prog (thr' p) = t_prog (thr p) ->
    (forall m s, In (m, s, true) (held (t_prog (thr p))) -> back (lk L m) (lk L' m) s) ->
    ready pick L thr p -> ready pick L' thr' p.
  Proof.
    intros pick L thr L' thr' p Hp I I' Ep' HB (i & Hi & H). exists i. split.
    { unfold polite in *. rewrite Ep'. exact Hi. }
    pose proof (i_prog _ _ _ _ _ I p Hp) as PO. pose proof (i_prog _ _ _ _ _ I' p Hp) as PO'. rewrite Ep' in PO'.
    unfold tstep, bare in *. cbn [t_trash t_prog] in *. rewrite Ep'.
    destruct (t_prog (thr p)) as [ss r hs|b l pend own|a r hs|res|hs] eqn:Ep; try contradiction.
    - destruct i as [|v|l|]; [| | |contradiction].
      + destruct r as [| |x r| | |]; try contradiction.
        * destruct (forallb is_end ss); [discriminate|contradiction].
        * destruct (callable n p x); [|contradiction].
          destruct (nth_error ss (comm_field p x - 1)) as [[|q k|q k]|] eqn:Es; try contradiction.
          -- destruct (nth_error hs (comm_field p x - 1)) as [h|] eqn:Eh.
             2:{ destruct q; [contradiction|]. destruct k; contradiction. }
             cbn in PO. destruct PO as (_ & Hf & H2). destruct (Forall2_nth _ _ _ _ _ _ _ _ H2 Eh Es) as [Ht _].
             rewrite Forall_forall in Hf. specialize (Hf h (nth_error_In _ _ Eh)). destruct (full_split h Hf) as (m & s & ->).
             cbn in Ht. assert (Hs : lk_recv (m, s, true) L <> GotWait -> lk_recv (m, s, true) L' <> GotWait).
             { apply recv_stays; [rewrite Ht; reflexivity|]. apply HB. cbn. eapply nth_error_In; eauto. }
             destruct q as [t|b j].
             ++ unfold do_recv in *. cbn [op_recv link_ops] in *. clear HB PO' H2.
                destruct (lk_recv (m, s, true) L') as [v' c' y' L1|L1| |] eqn:Er; try discriminate.
                ** destruct v'; [|discriminate]. destruct c'; [|discriminate]. destruct (t0 =? t); discriminate.
                ** exfalso. apply Hs; [|reflexivity]. intros E. rewrite E in H. contradiction.
             ++ destruct k; try contradiction. destruct (j =? p); [|contradiction].
                unfold do_offer in *. cbn [op_recv link_ops] in *.
                destruct (lk_recv (m, s, true) L') as [v' c' y' L1|L1| |] eqn:Er; try discriminate.
                ** destruct v'; [discriminate|]. match goal with |- context [if ?c then _ else _] => destruct c end; discriminate.
                ** exfalso. apply Hs; [|reflexivity]. intros E. rewrite E in H. contradiction.
      + destruct r as [| |x r| | |]; try contradiction. destruct (callable n p x); [|contradiction].
        destruct (nth_error ss (comm_field p x - 1)) as [[|q k|q k]|] eqn:Es; try contradiction.
        destruct q as [t|b j]; [|contradiction]. destruct (nth_error hs (comm_field p x - 1)) as [h|] eqn:Eh; [|contradiction].
        unfold do_send. cbn [op_send link_ops]. destruct h as [[l0 s0] f0]. unfold lk_send.
        destruct (f0 && is_snd (l_ty (lk L' l0) s0)); [|discriminate].
        destruct (l_open (lk L' l0) (negb s0)); [discriminate|]. destruct strict; discriminate.
      + destruct r as [| |x r| | |]; try contradiction. destruct (choice_of p ss) as [b|]; [|contradiction].
        destruct (l <? labels b); [|contradiction].
        destruct (make_choice link_ops n branch p b l hs L') as [[pr s1]|]; discriminate.
    - destruct i as [|v|l0|]; try (destruct pend as [|[[? ?] ?] ?]; contradiction).
      destruct pend as [|[[x h] m] pend]; [discriminate|]. unfold do_choose_send. cbn [op_send link_ops].
      destruct h as [[l0 s0] f0]. unfold lk_send. destruct (f0 && is_snd (l_ty (lk L' l0) s0)); [|discriminate].
      destruct (l_open (lk L' l0) (negb s0)); [discriminate|]. destruct strict; discriminate.
    - destruct i as [|v|l0|]; try contradiction. cbn in PO, PO'. destruct PO as (_ & Hf & PT & _). destruct PO' as (_ & _ & _ & PQ').
      unfold do_close in *. cbn [op_tell op_hear link_ops] in *. rewrite Forall_forall in Hf, PT.
      destruct (nth_error hs a) as [h|] eqn:Ea.
      + rewrite (skipn_cons _ _ _ _ Ea) in PQ'. assert (Hq : quiet L' h) by (inversion PQ'; assumption).
        destruct h as [[m s] f]. unfold quiet in Hq. unfold lk_tell. rewrite Hq.
        destruct (f && is_fin (l_ty (lk L' m) s)); [|discriminate]. destruct (l_rx (lk L' m) (negb s)); discriminate.
      + destruct (nth_error hs r) as [h|] eqn:Er; [|discriminate]. pose proof (nth_error_In _ _ Er) as Hin.
        pose proof (Hf h Hin) as Hfu. pose proof (PT h Hin) as Ht. destruct (full_split h Hfu) as (m & s & ->). cbn in Ht.
        assert (Hs : lk_hear (m, s, true) L <> HearWait -> lk_hear (m, s, true) L' <> HearWait).
        { apply hear_stays; [rewrite Ht; reflexivity|]. apply HB. cbn. exact Hin. }
        destruct (lk_hear (m, s, true) L') as [[|] L1| | |] eqn:El; try discriminate.
        exfalso. apply Hs; [|reflexivity]. intros E. rewrite E in H. contradiction.
  Qed.

  (** A role that can go on stays so until it does. *)
  Lemma ready_step : forall pick hist L thr z i th' L' p, 1 <= p <= n -> 1 <= z <= n -> inv L thr -> rinv hist L thr ->
    tcase z (thr z) L i th' L' -> z <> p \/ t_trash (thr p) <> [] ->
    ready pick L thr p -> ready pick L' (set_thr thr z th') p.
  Proof.
    intros pick hist L thr z i th' L' p Hp Hz I R C Hcase Hr.
    assert (I' : inv L' (set_thr thr z th')) by (eapply inv_case; eauto; apply branch_g_dual).
    apply (ready_stays pick L thr L' (set_thr thr z th') p Hp I I'); [| |exact Hr].
    - unfold set_thr. destruct (Nat.eqb_spec p z) as [->|]; [|reflexivity]. destruct Hcase as [H|H]; [congruence|].
      destruct C; try reflexivity; congruence.
    - intros m s Hin. eapply step_back; eauto.
      + apply (live_link n branch labels L thr p _ Hp I). unfold all_of. apply in_or_app. left; exact Hin.
      + pose proof (i_lin _ _ _ _ _ I (m, s, true)) as HL. pose proof (avail_le1 (m, s, true) L) as H1.
        pose proof (proj2 (cnt_in (m, s, true) _) Hin) as Hc.
        intros Ha. destruct Hcase as [Hne|Htr].
        * assert (Hz' : In (m, s, true) (all_of (thr z))).
          { unfold acts in Ha. unfold all_of. destruct (t_trash (thr z)) as [|x xs]; [rewrite app_nil_r; exact Ha|].
            apply in_or_app. right. destruct Ha as [<-|[]]. left; reflexivity. }
          rewrite (everyone_split n thr p _ Hp) in HL.
          pose proof (others_in n thr p z (m, s, true) Hp Hz Hne Hz') as Hge. apply cnt_in in Hge.
          unfold all_of at 1 in HL. rewrite cnt_app in HL. lia.
        * destruct (Nat.eq_dec z p) as [->|Hne].
          -- unfold acts in Ha. destruct (t_trash (thr p)) as [|x xs] eqn:Et; [congruence|]. destruct Ha as [->|[]].
             rewrite (everyone_split n thr p _ Hp) in HL. unfold all_of in HL. rewrite cnt_app, Et, cnt_cons, cnt_self in HL. lia.
          -- assert (Hz' : In (m, s, true) (all_of (thr z))).
             { unfold acts in Ha. unfold all_of. destruct (t_trash (thr z)) as [|x xs]; [rewrite app_nil_r; exact Ha|].
               apply in_or_app. right. destruct Ha as [<-|[]]. left; reflexivity. }
             rewrite (everyone_split n thr p _ Hp) in HL.
             pose proof (others_in n thr p z (m, s, true) Hp Hz Hne Hz') as Hge. apply cnt_in in Hge.
             unfold all_of at 1 in HL. rewrite cnt_app in HL. lia.
  Qed.

  (** ** What is left to do in the rounds up to g *)

  Definition low (g : nat) (L : links) : nat := sum_to (cut g) (fun m => link_weight (lk L m)).

  Definition room (hist : history) (g : nat) : nat := length (fst (grnd hist g)) + 2 * n + 4.
  Definition ahead (hist : history) (g r : nat) : nat := sum_to (g - r) (fun k => room hist (r + 1 + k)).
  Definition local (th : lthread) : nat :=
    match t_prog th with
    | PRun _ r _ => depth r + 2 * n + 2
    | PChoose _ _ pend _ => length pend + 1
    | PClose a r _ => (n - 1 - a) + (n - 1 - r) + 1
    | PFin _ | PStuck _ => 0
    end.
  Definition to_go (hist : history) (g : nat) (th : lthread) : nat :=
    if t_round th <=? g then
      match t_prog th with PFin _ | PStuck _ => 0 | _ => local th + ahead hist g (t_round th) end
    else 0.
  Definition mu (hist : history) (g : nat) (L : links) (thr : nat -> lthread) : nat :=
    low g L + 3 * sum_to n (fun i => to_go hist g (thr (S i))).

  Lemma low_set : forall g L m k, link_weight k <= link_weight (lk L m) + 2 -> low g (set_link L m k) <= low g L + 2.
  Proof.
    intros g L m k Hk. unfold low. destruct (lt_dec m (cut g)) as [Hm|Hm].
    - pose proof (sum_to_upd (cut g) (fun m0 => link_weight (lk (set_link L m k) m0)) (fun m0 => link_weight (lk L m0)) m Hm) as H.
      cbn beta in H. rewrite lk_set_same in H. assert (H' := H (fun m0 Hne => f_equal link_weight (lk_set_other L m k m0 Hne))). lia.
    - rewrite (sum_to_ext _ (fun m0 => link_weight (lk (set_link L m k) m0)) (fun m0 => link_weight (lk L m0))); [lia|].
      intros m0 Hm0. rewrite lk_set_other by lia. reflexivity.
  Qed.
  Lemma low_less : forall g L m k, m < cut g -> link_weight k + 1 <= link_weight (lk L m) -> low g (set_link L m k) + 1 <= low g L.
  Proof.
    intros g L m k Hm Hk. unfold low.
    pose proof (sum_to_upd (cut g) (fun m0 => link_weight (lk (set_link L m k) m0)) (fun m0 => link_weight (lk L m0)) m Hm) as H.
    cbn beta in H. rewrite lk_set_same in H. assert (H' := H (fun m0 Hne => f_equal link_weight (lk_set_other L m k m0 Hne))). lia.
  Qed.
  Lemma low_same : forall g L L', (forall m, m < cut g -> lk L' m = lk L m) -> low g L' = low g L.
  Proof. intros g L L' H. unfold low. apply sum_to_ext. intros m Hm. rewrite H by exact Hm. reflexivity. Qed.

  Lemma ahead_app : forall hist x g r, g <= length hist -> ahead (hist ++ [x]) g r = ahead hist g r.
  Proof.
    intros hist x g r Hg. unfold ahead. apply sum_to_ext. intros k Hk. unfold room. rewrite grnd_app by lia. reflexivity.
  Qed.
  Lemma to_go_app : forall hist x g th, g <= length hist -> to_go (hist ++ [x]) g th = to_go hist g th.
  Proof. intros hist x g th Hg. unfold to_go. rewrite ahead_app by exact Hg. reflexivity. Qed.

  Lemma sum_shift : forall k f, sum_to (S k) f = f 0 + sum_to k (fun i => f (S i)).
  Proof.
    induction k as [|k IH]; intros f; [cbn; lia|]. change (sum_to (S (S k)) f) with (sum_to (S k) f + f (S k)). rewrite IH. cbn. lia.
  Qed.
  Lemma ahead_next : forall hist g r, r < g -> ahead hist g r = room hist (S r) + ahead hist g (S r).
  Proof.
    intros hist g r Hr. unfold ahead. replace (g - r) with (S (g - S r)) by lia. rewrite sum_shift. f_equal; [f_equal; lia|].
    apply sum_to_ext. intros k _. f_equal. lia.
  Qed.

  (** A role that enters round r + 1. *)
  Lemma go_enter : forall hist g r p G hs tr log, grnd hist (S r) = G -> r <= g ->
    to_go hist g (Thread (PRun (fst (proj n G p)) (snd (proj n G p)) hs) tr (S r) log) <= ahead hist g r.
  Proof.
    intros hist g r p G hs tr log E Hr. unfold to_go, local. cbn [t_prog t_round]. destruct (Nat.leb_spec (S r) g); [|lia].
    rewrite (ahead_next hist g r) by lia. unfold room. rewrite E. cbn [proj snd].
    pose proof (depth_stack p (fst G) (snd G)). destruct (snd G); lia.
  Qed.

  Lemma go_step : forall hist L thr p i th' L' g, 1 <= p <= n -> inv L thr -> rinv hist L thr -> ginv hist thr ->
    g <= length hist -> tcase p (thr p) L i th' L' -> t_trash (thr p) = [] ->
    (t_round (thr p) <= g -> to_go hist g th' + 1 <= to_go hist g (thr p)) /\ (g < t_round (thr p) -> to_go hist g th' = 0).
  Proof.
    intros hist L thr p i th' L' g Hp I R G Hg C Htr.
    assert (EF : effect n labels hist p L (thr p) th' L') by (eapply effect_case; eauto; apply branch_g_dual).
    pose proof (r_thr _ _ _ _ _ R p Hp) as [Hle HR].
    split.
    2:{ intros Hlt. unfold to_go. destruct (Nat.leb_spec (t_round th') g); [|reflexivity]. pose proof (e_round _ _ _ _ _ _ _ _ EF). lia. }
    intros Hr. pose proof wf as [Hn2 _].
    assert (Hb : (t_round (thr p) <=? g) = true) by (apply Nat.leb_le; exact Hr).
    assert (Hpos : (forall r, t_prog (thr p) <> PFin r) -> 1 <= to_go hist g (thr p)).
    { intros Hnf. unfold to_go, local. rewrite Hb. destruct (t_prog (thr p)) as [| | |res|hs]; try lia; try contradiction. exfalso. exact (Hnf _ eq_refl). }
    assert (Hfin : forall res xs, (forall r, t_prog (thr p) <> PFin r) -> to_go hist g (fin (thr p) res xs) + 1 <= to_go hist g (thr p)).
    { intros res xs Hnf. specialize (Hpos Hnf). unfold to_go at 1. cbn [fin t_prog t_round]. rewrite Hb. lia. }
    destruct C as [x rest out L1 Et Ed|Et Hnf
      |v x ss r hs t k h L1 Et Ep Hx Es Eh El|v x ss r hs t k h lost L1 Et Ep Hx Es Eh El Est
      |v x ss r hs t k h lost L1 Et Ep Hx Es Eh El Est
      |v x ss r hs t k h L1 Et Ep Hx Es Eh El|b l m x ss r hs h L1 Et Ep Hx Es Eh El Hl
      |x ss r hs P0 k h L1 Et Ep Hx Es Eh El
      |b l ss hs pl L1 Et Ep Ec Hl Ea
      |b l x h m pend own L1 Et Ep El|b l x h m pend own lost L1 Et Ep El Est
      |b l x h m pend own lost L1 Et Ep El Est
      |b l own Et Ep|ss hs Et Ep Ee
      |a r hs h L1 Et Ep Ea El|a r hs h Et Ep Ea El
      |a r hs h L1 Et Ep Ea Er El|a r hs h Et Ep Ea Er El|a r hs h L1 Et Ep Ea Er El
      |a r hs Et Ep Ea Er]; try congruence;
      try (apply Hfin; first [exact Hnf|intros r0 E; rewrite Ep in E; discriminate]);
      try rewrite Ep in HR;
      try (unfold to_go, local; cbn [t_prog t_round depth length]; rewrite Hb, Ep; cbn [depth length]; lia).
    - (* offer *)
      assert (Hh : nth_error hist (t_round (thr p)) = Some (x, b, l)).
      { destruct (e_act _ _ _ _ _ _ _ _ EF) as [[H _]|[H|H]].
        - exfalso. specialize (H (t_round (thr p)) x). cbn [t_log] in H. rewrite evs_app in H. cbn in H.
          rewrite !Nat.eqb_refl in H. cbn in H. apply (f_equal (@length _)) in H. rewrite app_length in H. cbn in H. lia.
        - exfalso. destruct H as (x' & v & P' & k' & _ & _ & _ & _ & H & _). cbn [t_log] in H.
          apply app_inv_head in H. discriminate.
        - destruct H as (x' & v & P' & k' & c' & _ & _ & _ & _ & H & H' & _). cbn [t_log] in H.
          apply app_inv_head in H. injection H as <- <-. apply H'. }
      assert (HG : grnd hist (S (t_round (thr p))) = body P b l) by (cbn [MeshGlobal.grnd]; rewrite Hh; reflexivity).
      pose proof (go_enter hist g (t_round (thr p)) p (body P b l) m hs (t_log (thr p) ++ [EvRecv (t_round (thr p)) x (VLabel b l p)]) HG Hr) as H.
      unfold branch_g. unfold to_go at 2, local. rewrite Hb, Ep. lia.
    - (* choose *)
      unfold to_go, local. cbn [t_prog t_round]. rewrite Hb, Ep.
      assert (Hlen : length (pend_of n (lnext L) p hs) = n - 1) by (unfold pend_of; rewrite map_length, seq_length; reflexivity).
      rewrite Hlen. cbn [depth]. lia.
    - (* enter *)
      destruct HR as (Hh & _).
      assert (HG : grnd hist (S (t_round (thr p))) = body P b l) by (cbn [MeshGlobal.grnd]; rewrite Hh; reflexivity).
      pose proof (go_enter hist g (t_round (thr p)) p (body P b l) own [] (t_log (thr p)) HG Hr) as H.
      unfold branch_g. unfold to_go at 2, local. rewrite Hb, Ep. cbn [length]. lia.
    - (* tell *)
      destruct HR as (-> & _). pose proof (nth_error_len _ _ _ _ Ea) as Hlen. unfold MeshRounds.mesh in Hlen. rewrite meshb_length in Hlen.
      unfold to_go, local. cbn [t_prog t_round]. rewrite Hb, Ep. lia.
    - (* hear *)
      destruct HR as (-> & _). pose proof (nth_error_len _ _ _ _ Er) as Hlen. unfold MeshRounds.mesh in Hlen. rewrite meshb_length in Hlen.
      unfold to_go, local. cbn [t_prog t_round]. rewrite Hb, Ep. lia.
  Qed.

  Lemma low_step : forall hist L thr p i th' L' g, 1 <= p <= n -> inv L thr -> rinv hist L thr -> ginv hist thr ->
    g <= length hist -> tcase p (thr p) L i th' L' -> t_trash (thr p) = [] ->
    low g L' <= low g L + 2 /\ (g < t_round (thr p) -> low g L' = low g L).
  Proof.
    intros hist L thr p i th' L' g Hp I R G Hg C Htr. pose proof (r_thr _ _ _ _ _ R p Hp) as [Hle HR].
    assert (Hset : forall x k, peer_role p x -> link_weight k <= link_weight (lk L (lnk (t_round (thr p)) p x)) + 2 ->
              low g (set_link L (lnk (t_round (thr p)) p x) k) <= low g L + 2 /\
              (g < t_round (thr p) -> low g (set_link L (lnk (t_round (thr p)) p x) k) = low g L)).
    { intros x k Hx Hk. split; [apply low_set; exact Hk|]. intros Hlt. apply low_same. intros m Hm. apply lk_set_other.
      pose proof (lnk_range n (t_round (thr p)) p x Hp Hx). unfold MeshProgress.cut in Hm. nia. }
    assert (Hsame : low g L <= low g L + 2 /\ (g < t_round (thr p) -> low g L = low g L)) by (split; [lia|reflexivity]).
    assert (Hsend : forall x v (c : list handle) t y L1, peer_role p x ->
              lk_send (hnd (t_round (thr p)) p x) v c t L = SentOk y L1 ->
              low g L1 <= low g L + 2 /\ (g < t_round (thr p) -> low g L1 = low g L)).
    { intros x v c t y L1 Hx El. destruct (send_shape _ _ _ _ _ _ _ _ El) as (_ & ->). apply Hset; [exact Hx|].
      unfold link_weight, side_weight. cbn [l_open l_rx l_q]. rewrite app_length. cbn [length]. lia. }
    assert (Hlost : forall x v (c : list handle) t y lost L1, peer_role p x ->
              lk_send (hnd (t_round (thr p)) p x) v c t L = SentLost y lost L1 ->
              low g L1 <= low g L + 2 /\ (g < t_round (thr p) -> low g L1 = low g L)).
    { intros x v c t y lost L1 Hx El. destruct (lost_shape _ _ _ _ _ _ _ _ _ El) as (Ho & _ & ->). apply Hset; [exact Hx|].
      rewrite !(link_weight_side _ (p <? x)). unfold side_weight. cbn [l_open l_rx l_q length].
      rewrite !upd_same, !upd_neg', Ho. lia. }
    destruct C as [x rest out L1 Et Ed|Et Hnf
      |v x ss r hs t k h L1 Et Ep Hx Es Eh El|v x ss r hs t k h lost L1 Et Ep Hx Es Eh El Est
      |v x ss r hs t k h lost L1 Et Ep Hx Es Eh El Est
      |v x ss r hs t k h L1 Et Ep Hx Es Eh El|b l m x ss r hs h L1 Et Ep Hx Es Eh El Hl
      |x ss r hs P0 k h L1 Et Ep Hx Es Eh El
      |b l ss hs pl L1 Et Ep Ec Hl Ea
      |b l x h m pend own L1 Et Ep El|b l x h m pend own lost L1 Et Ep El Est
      |b l x h m pend own lost L1 Et Ep El Est
      |b l own Et Ep|ss hs Et Ep Ee
      |a r hs h L1 Et Ep Ea El|a r hs h Et Ep Ea El
      |a r hs h L1 Et Ep Ea Er El|a r hs h Et Ep Ea Er El|a r hs h L1 Et Ep Ea Er El
      |a r hs Et Ep Ea Er]; try congruence; try exact Hsame; try rewrite Ep in HR;
      try (destruct (run_field n branch labels hist L thr p ss _ hs x _ h Hp I R Ep Hx Es Eh) as (-> & _ & _)).
    - eapply Hsend; eauto.
    - eapply Hlost; eauto.
    - eapply Hlost; eauto.
    - destruct (got_shape _ _ _ _ _ _ _ El) as (t' & Hpend & ->). apply Hset; [exact Hx|]. apply pending_some in Hpend. destruct Hpend as [_ Hq].
      unfold popped, link_weight, side_weight. cbn [l_open l_rx l_q]. rewrite Hq. cbn [tl length]. lia.
    - destruct (got_shape _ _ _ _ _ _ _ El) as (t' & Hpend & ->). apply Hset; [exact Hx|]. apply pending_some in Hpend. destruct Hpend as [_ Hq].
      unfold popped, link_weight, side_weight. cbn [l_open l_rx l_q]. rewrite Hq. cbn [tl length]. lia.
    - destruct (goterr_shape _ _ _ _ El) as (_ & _ & ->). apply Hset; [exact Hx|].
      rewrite !(link_weight_side _ (p <? x)). unfold side_weight, closed. cbn [l_open l_rx l_q]. rewrite !upd_same, !upd_neg. lia.
    - destruct (new_mesh n (choose_vars n) (branch b l) L pl L1 (choose_vars_spec n) (branch_g_dual n labels P b l Hl) Ea)
        as (_ & _ & Hold & _).
      assert (E : low g L1 = low g L); [|rewrite E; exact Hsame]. apply low_same. intros m Hm. apply Hold.
      rewrite (r_next _ _ _ _ _ R). unfold MeshProgress.cut in Hm. nia.
    - destruct HR as (_ & _ & qs & Epend & Hqs). destruct qs as [|q qs]; [discriminate|]. cbn [map] in Epend. injection Epend as -> -> -> ->.
      inversion Hqs; subst. eapply Hsend; eauto.
    - destruct HR as (_ & _ & qs & Epend & Hqs). destruct qs as [|q qs]; [discriminate|]. cbn [map] in Epend. injection Epend as -> -> -> ->.
      inversion Hqs; subst. eapply Hlost; eauto.
    - destruct HR as (_ & _ & qs & Epend & Hqs). destruct qs as [|q qs]; [discriminate|]. cbn [map] in Epend. injection Epend as -> -> -> ->.
      inversion Hqs; subst. eapply Hlost; eauto.
    - destruct HR as (-> & _). destruct (mesh_field n _ _ _ _ Hp Ea) as (x & Hx & -> & ->).
      pose proof (tell_shape _ _ _ _ _ El) as ->. apply Hset; [exact Hx|]. unfold link_weight, side_weight. cbn [l_open l_rx l_q]. lia.
    - destruct HR as (-> & _). destruct (mesh_field n _ _ _ _ Hp Er) as (x & Hx & -> & ->).
      destruct (hear_shape _ _ _ _ _ El) as [_ ->]. apply Hset; [exact Hx|]. unfold link_weight, side_weight. cbn [l_open l_rx l_q]. lia.
    - destruct HR as (-> & _). destruct (mesh_field n _ _ _ _ Hp Er) as (x & Hx & -> & ->).
      destruct (hear_shape _ _ _ _ _ El) as [_ ->]. apply Hset; [exact Hx|]. unfold link_weight, side_weight. cbn [l_open l_rx l_q]. lia.
  Qed.

  (** A drop lowers the weight of its link. *)
  Lemma drop_weight : forall L thr p x rest out L', 1 <= p <= n -> inv L thr -> t_trash (thr p) = x :: rest -> lk_drop x L = (out, L') ->
    exists k, L' = set_link L (fst (fst x)) k /\ fst (fst x) < lnext L /\ link_weight k + 1 <= link_weight (lk L (fst (fst x))).
  Proof.
    intros L thr p x rest out L1 Hp I Et Ed.
    assert (Hlv : live L x).
    { apply (live_link n branch labels L thr p x Hp I). unfold all_of. rewrite Et. apply in_or_app. right; left; reflexivity. }
    destruct x as [[l s] f]. pose proof Hlv as [Hl Ho]. cbn [fst]. unfold lk_drop in Ed. destruct f.
    - destruct (is_fin (l_ty (lk L l) s)); [|destruct (pending (lk L l) s) as [[[v c] t]|] eqn:Hpe]; injection Ed as _ <-;
        (eexists; split; [reflexivity|split; [exact Hl|]]).
      + rewrite !(link_weight_side _ s). unfold side_weight. cbn [l_open l_rx l_q]. rewrite upd_same, upd_neg, Ho.
        destruct (l_rx (lk L l) s); lia.
      + apply pending_some in Hpe. destruct Hpe as [_ Hq]. unfold popped, link_weight, side_weight.
        cbn [l_open l_rx l_q]. rewrite Hq. cbn [tl length]. lia.
      + rewrite !(link_weight_side _ s). unfold side_weight, closed. cbn [l_open l_rx l_q]. rewrite !upd_same, !upd_neg, Ho. lia.
    - injection Ed as _ <-. destruct Ho as [Ho1 Ho2]. eexists. split; [reflexivity|split; [exact Hl|]].
      rewrite !(link_weight_side _ s). unfold side_weight. cbn [l_open l_rx l_q]. rewrite upd_same, upd_neg, Ho1, Ho2. lia.
  Qed.

  (** What a step has to do with the rounds up to g. *)
  Definition matters (g : nat) (th : lthread) : Prop :=
    match t_trash th with (m, _, _) :: _ => m < cut g | [] => t_round th <= g end.

  Lemma mu_step : forall hist L thr p i th' L' g, 1 <= p <= n -> inv L thr -> rinv hist L thr -> ginv hist thr ->
    g <= length hist -> tcase p (thr p) L i th' L' ->
    let mu' := mu (record p i (thr p) hist) g L' (set_thr thr p th') in
    mu' <= mu hist g L thr /\ (matters g (thr p) -> mu' < mu hist g L thr).
  Proof.
    intros hist L thr p i th' L' g Hp I R G Hg C mu'.
    assert (Hsum : sum_to n (fun i0 => to_go (record p i (thr p) hist) g (set_thr thr p th' (S i0))) + to_go hist g (thr p) =
                   sum_to n (fun i0 => to_go hist g (thr (S i0))) + to_go hist g th').
    { rewrite (sum_to_ext n (fun i0 => to_go (record p i (thr p) hist) g (set_thr thr p th' (S i0)))
                 (fun i0 => to_go hist g (set_thr thr p th' (S i0)))).
      - pose proof (sum_to_upd n (fun i0 => to_go hist g (set_thr thr p th' (S i0))) (fun i0 => to_go hist g (thr (S i0))) (p - 1) ltac:(lia)) as H.
        cbn beta in H. replace (S (p - 1)) with p in H by lia.
        assert (Es : set_thr thr p th' p = th') by (unfold set_thr; rewrite Nat.eqb_refl; reflexivity). rewrite Es in H. apply H.
        intros m Hm. unfold set_thr. destruct (Nat.eqb_spec (S m) p); [lia|reflexivity].
      - intros m _. destruct (record_case n branch labels strict L p i (thr p) th' L' hist C) as [->|(b & l & ss & hs & pl & -> & _)];
          [reflexivity|]. apply to_go_app. exact Hg. }
    unfold mu', mu. destruct (t_trash (thr p)) as [|x rest] eqn:Et.
    - destruct (go_step hist L thr p i th' L' g Hp I R G Hg C Et) as [G1 G2].
      destruct (low_step hist L thr p i th' L' g Hp I R G Hg C Et) as [L1 L2].
      unfold matters. rewrite Et. destruct (le_lt_dec (t_round (thr p)) g) as [Hr|Hr].
      + specialize (G1 Hr). lia.
      + specialize (G2 Hr). specialize (L2 Hr).
        assert (E0 : to_go hist g (thr p) = 0) by (unfold to_go; destruct (Nat.leb_spec (t_round (thr p)) g); [lia|reflexivity]).
        lia.
    - destruct C as [x' rest' out L1 Et' Ed| | | | | | | | | | | | | | | | | | |]; try congruence.
      rewrite Et in Et'. injection Et' as <- <-.
      assert (E0 : to_go hist g (Thread (t_prog (thr p)) (out ++ rest) (t_round (thr p)) (t_log (thr p))) = to_go hist g (thr p)) by reflexivity.
      rewrite E0 in Hsum. destruct (drop_weight L thr p x rest out L1 Hp I Et Ed) as (k & -> & Hl & Hw).
      destruct x as [[m s] f]. cbn [fst] in *. unfold matters. rewrite Et. destruct (lt_dec m (cut g)) as [Hm|Hm].
      + pose proof (low_less g L m k Hm Hw). lia.
      + rewrite (low_same g L (set_link L m k)); [lia|]. intros m0 Hm0. apply lk_set_other. lia.
  Qed.
End Fair.
