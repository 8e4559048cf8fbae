(** Roles that follow the projections of a global protocol never block each other, whoever crashes. *)
From Coq Require Import List Arith Bool Lia Permutation.
From Verif Require Import Types Diag DiagProofs Wiring WiringProofs Session Mesh MeshSpec Links LinksProofs Refine Sim
  MeshWire MeshInv MeshStep MeshKeep MeshSafe MeshRounds MeshRun MeshLog MeshReach Global MeshGlobal MeshSignal.
Import ListNotations.

Lemma slen_chain : forall q t t', tychain t q t' -> (exists P k, t = Rcv P k /\ q <> []) \/ q = [] /\ t = t'.
Proof.
  intros [|[[v c] nxt] q] t t' H; [right; auto|]. cbn in H. destruct H as [H _]. left.
  destruct t; try discriminate. exists p, t. split; [reflexivity|discriminate].
Qed.

Section Progress.
  Variable n : nat.
  Variable labels : nat -> nat.
  Variable strict : bool.
  Variable P : protocol.
  Hypothesis wf : wf_protocol n labels P.

  Notation branch := (branch_g n P).
  Notation lthread := (@thread handle).
  Notation inv := (inv n branch labels).
  Notation rinv := (rinv n labels).
  Notation ginv := (ginv n labels P).
  Notation sinv := (sinv n).
  Notation grnd := (grnd P).
  Notation peer_role := (peer_role n).
  Notation lnk := (lnk n).
  Notation hnd := (hnd n).
  Notation mesh := (mesh n).
  Notation tstep_l := (tstep link_ops n branch labels strict).

  (** Nobody is dropping or inside a choice. *)
  Definition settled (thr : nat -> lthread) : Prop :=
    forall p, 1 <= p <= n -> t_trash (thr p) = [] /\ forall b l pend own, t_prog (thr p) <> PChoose b l pend own.

  Definition running (th : lthread) : Prop :=
    match t_prog th with PRun _ _ _ => True | PClose _ _ _ => True | _ => False end.

  (** The links of the rounds up to g. *)
  Definition cut (g : nat) : nat := S g * npairs n.

  (** Nobody is dropping an end of the rounds up to g, or inside the choice that ends one of them. *)
  Definition settled_to (g : nat) (thr : nat -> lthread) : Prop :=
    forall p, 1 <= p <= n -> (forall m s f, In (m, s, f) (t_trash (thr p)) -> cut g <= m) /\
      forall b l pend own, t_prog (thr p) = PChoose b l pend own -> g < t_round (thr p).

  Lemma settled_less : forall g g' thr, g' <= g -> settled_to g thr -> settled_to g' thr.
  Proof.
    intros g g' thr Hg St p Hp. destruct (St p Hp) as [H1 H2]. split.
    - intros m s f Hin. specialize (H1 m s f Hin). unfold cut in *. nia.
    - intros b l pend own E. specialize (H2 b l pend own E). lia.
  Qed.
  Lemma settled_all : forall g thr, settled thr -> settled_to g thr.
  Proof.
    intros g thr St p Hp. destruct (St p Hp) as [H1 H2]. split.
    - rewrite H1. intros m s f [].
    - intros b l pend own E. exfalso. exact (H2 _ _ _ _ E).
  Qed.

  (** Whoever owns an end of round g is still working, in that round or before. *)
  Lemma holder_to : forall hist L thr, inv L thr -> rinv hist L thr -> forall g, settled_to g thr ->
    forall x y, 1 <= x <= n -> peer_role x y -> avail (hnd g x y) L = 1 -> t_round (thr x) <= g /\ running (thr x).
  Proof.
    intros hist L thr I R g. induction g as [g IH] using lt_wf_ind. intros St x y Hx Hy Ha.
    pose proof (i_lin _ _ _ _ _ I (hnd g x y)) as Hlin. rewrite Ha in Hlin.
    destruct (cnt (hnd g x y) (everyone n thr)) as [|c] eqn:Ec.
    - assert (Hi : 0 < inside (hnd g x y) L) by lia. apply sum_to_pos in Hi. destruct Hi as (m & Hm & Hc).
      assert (Hq : exists v c t, In (v, c, t) (l_q (lk L m)) /\ In (hnd g x y) c).
      { revert Hc. generalize (l_q (lk L m)) as q. induction q as [|[[v c] t] q IHq]; intros Hc; [cbn in Hc; lia|].
        rewrite cntq_cons in Hc. destruct (cnt (hnd g x y) c) eqn:E.
        - destruct (IHq ltac:(lia)) as (v' & c' & t' & H1 & H2). exists v', c', t'. split; [right; exact H1|exact H2].
        - exists v, c, t. split; [left; reflexivity|]. apply cnt_in. lia. }
      destruct Hq as (v & c & t & Hin & Hc'). pose proof (lo_q _ _ _ _ _ (r_link _ _ _ _ _ R m Hm) v c t Hin) as HQ.
      destruct v as [t0 v|b l j]; [rewrite HQ in Hc'; contradiction|].
      destruct HQ as (g0 & p0 & Hg & Hp0 & Hj & Em & Eto & ->). destruct (peer_sym n p0 j Hp0 Hj) as [Hj' Hjp].
      destruct (mesh_own n _ _ _ _ _ Hj' Hx Hy Hc') as [E ->].
      assert (Ha' : avail (hnd g0 x p0) L = 1).
      { unfold MeshRounds.hnd. rewrite (lnk_sym n), <- Em. apply full_avail. split; [exact Hm|].
        destruct (l_open (lk L m) (x <? p0)) eqn:Eo; [reflexivity|]. rewrite <- Eto in Eo.
        rewrite (wf_q _ (i_wf _ _ _ _ _ I m Hm) Eo) in Hin. contradiction. }
      destruct (IH g0 ltac:(lia) (settled_less g g0 thr ltac:(lia) St) x p0 Hx Hjp Ha') as [H1 H2]. split; [lia|exact H2].
    - assert (Hin : In (hnd g x y) (everyone n thr)) by (apply cnt_in; lia).
      unfold everyone in Hin. apply in_flat_map in Hin. destruct Hin as (p & Hp & Hin). apply in_seq in Hp.
      assert (Hp' : 1 <= p <= n) by lia. destruct (St p Hp') as [Et Hnc]. unfold all_of in Hin. apply in_app_or in Hin as [Hin|Hin];
        [|exfalso; specialize (Et _ _ _ Hin); pose proof (lnk_range n g x y Hx Hy); unfold cut in Et; lia].
      pose proof (r_thr _ _ _ _ _ R p Hp') as [_ HR].
      destruct (t_prog (thr p)) as [ss r hs|b l pend own|a r hs|res|hs] eqn:Ep; cbn [held] in Hin.
      + destruct HR as [-> _]. destruct (mesh_own n _ _ _ _ _ Hp' Hx Hy Hin) as [E ->].
        split; [lia|]. unfold running. rewrite Ep. exact Logic.I.
      + exfalso. specialize (Hnc _ _ _ _ eq_refl). destruct HR as (_ & -> & qs & -> & Hqs). apply in_app_or in Hin as [Hin|Hin].
        * apply in_flat_map in Hin. destruct Hin as ([[q h] m] & Hq & Hin). apply in_map_iff in Hq. destruct Hq as (q0 & E & Hq).
          injection E as <- <- <-. rewrite Forall_forall in Hqs. specialize (Hqs _ Hq). destruct Hin as [Hin|Hin].
          -- injection Hin as E1 E2. apply (hnd_inj n) in E1; auto. destruct E1 as [E1 _]. lia.
          -- destruct (peer_sym n p q0 Hp' Hqs) as [Hq0 _]. destruct (mesh_own n _ _ _ _ _ Hq0 Hx Hy Hin) as [E _]. lia.
        * destruct (mesh_own n _ _ _ _ _ Hp' Hx Hy Hin) as [E _]. lia.
      + destruct HR as [-> _]. destruct (mesh_own n _ _ _ _ _ Hp' Hx Hy Hin) as [E ->].
        split; [lia|]. unfold running. rewrite Ep. exact Logic.I.
      + contradiction.
      + contradiction.
  Qed.

  Lemma holder : forall hist L thr, inv L thr -> rinv hist L thr -> settled thr ->
    forall g x y, 1 <= x <= n -> peer_role x y -> avail (hnd g x y) L = 1 -> t_round (thr x) <= g /\ running (thr x).
  Proof. intros hist L thr I R St g. apply (holder_to hist L thr I R g). apply settled_all. exact St. Qed.

  (** A step of a thread other than a crash. *)
  Definition can (L : links) (thr : nat -> lthread) (p : nat) : Prop :=
    exists i, i <> ICrash /\ tstep_l p i (thr p) L <> None.

  (** No crash, and the branches that [pick] names. *)
  Definition polite (pick : nat -> nat) (p : nat) (th : lthread) (i : inp) : Prop :=
    match i with
    | ICrash => False
    | ILabel l => forall ss r hs b, t_prog th = PRun ss r hs -> choice_of p ss = Some b -> l = pick b
    | _ => True
    end.
  (** The thread once it has nothing left to drop, and whether it can go on then. *)
  Definition bare (th : lthread) : lthread := Thread (t_prog th) [] (t_round th) (t_log th).
  Definition ready (pick : nat -> nat) (L : links) (thr : nat -> lthread) (p : nat) : Prop :=
    exists i, polite pick p (thr p) i /\ tstep_l p i (bare (thr p)) L <> None.

  Lemma ready_can : forall pick L thr p, ready pick L thr p -> t_trash (thr p) = [] -> can L thr p.
  Proof.
    intros pick L thr p (i & Hi & H) Et. exists i. split; [intros ->; exact Hi|].
    unfold bare in H. rewrite <- Et in H. destruct (thr p). exact H.
  Qed.

  Lemma all_send_choice_last : forall p b k m, all_send_choice p b k
    (map (fun i => sess_of p (other p i) [] (GChoose p b)) (seq k m)) = true.
  Proof.
    intros p b k m. revert k. induction m as [|m IH]; intros k; [reflexivity|]. cbn [seq map sess_of last_sess].
    rewrite Nat.eqb_refl. cbn [all_send_choice pty_eqb]. rewrite !Nat.eqb_refl. cbn [andb].
    specialize (IH (S k)). cbn [sess_of last_sess] in IH. rewrite Nat.eqb_refl in IH. exact IH.
  Qed.

  Lemma choice_last : forall p b, choice_of p (sessions_of n p [] (GChoose p b)) = Some b.
  Proof.
    intros p b. pose proof (all_send_choice_last p b 1 (n - 1)) as H. unfold sessions_of, choice_of in *.
    destruct (n - 1) as [|m] eqn:En; [destruct wf; lia|]. cbn [seq map sess_of last_sess] in *. rewrite Nat.eqb_refl in *.
    rewrite H. reflexivity.
  Qed.

  Lemma ends_last : forall p, forallb is_end (sessions_of n p [] GEnd) = true.
  Proof. intros p. apply forallb_forall. intros s H. apply in_map_iff in H. destruct H as (i & <- & _). reflexivity. Qed.

  Lemma callable_true : forall p x, peer_role p x -> callable n p x = true.
  Proof.
    intros p x [H1 H2]. unfold callable. rewrite !andb_true_iff, negb_true_iff, Nat.eqb_neq, !Nat.leb_le. lia.
  Qed.

  Lemma typed_len : forall L q t t', qtyped n branch labels L t q -> tychain t q t' -> slen t = length q + slen t'.
  Proof.
    intros L. induction q as [|[[v c] nxt] q IH]; intros t t' H1 H2; cbn in *; [subst; reflexivity|].
    destruct H1 as (Q & -> & _ & H1). destruct H2 as [_ H2]. cbn. rewrite (IH _ _ H1 H2). reflexivity.
  Qed.

  (** Nothing is on its way to p: p is not ahead of x. *)
  Lemma not_ahead : forall L m s, wf_links L -> queues_ok n branch labels L -> m < lnext L ->
    pending (lk L m) s = None -> slen (l_ty (lk L m) s) <= slen (l_ty (lk L m) (negb s)).
  Proof.
    intros L m s W Q Hm Hp. specialize (W m Hm). specialize (Q m Hm).
    destruct (bool_cases s (l_to (lk L m))) as [E|E].
    - unfold pending in Hp. rewrite E, Bool.eqb_reflx in Hp. destruct (l_q (lk L m)) eqn:Eq; [|discriminate].
      rewrite (sync_dual _ s W Eq), slen_co. lia.
    - pose proof (typed_len L _ _ _ Q (wf_ty _ W)) as H. rewrite E, negb_involutive, slen_co in H. lia.
  Qed.

  (** Position in the round: number of messages before one's own next one. *)
  Definition at_pos (hist : history) (p : nat) (th : lthread) (k : nat) : Prop :=
    match t_prog th with
    | PRun ss r hs => exists pre suf, fst (grnd hist (t_round th)) = pre ++ suf /\ norm p suf /\
        ss = sessions_of n p suf (snd (grnd hist (t_round th))) /\ r = stack_of p suf (snd (grnd hist (t_round th))) /\
        length pre = k
    | PClose _ _ _ => k = S (length (fst (grnd hist (t_round th)))) /\ snd (grnd hist (t_round th)) = GEnd
    | _ => False
    end.

  Lemma has_pos : forall hist thr p, 1 <= p <= n -> ginv hist thr -> running (thr p) -> exists k, at_pos hist p (thr p) k.
  Proof.
    intros hist thr p Hp G H. pose proof (g_thr _ _ _ _ _ G p Hp) as HG. unfold running, gthr, at_pos in *.
    destruct (t_prog (thr p)) as [ss r hs| | | |]; try contradiction.
    - destruct HG as (pre & suf & H1 & H2 & H3 & H4). exists (length pre), pre, suf. auto.
    - eauto.
  Qed.

  (** Waiting for x. *)
  Lemma recv_open : forall L h s, is_rcv (l_ty (lk L h) s) = true -> lk_recv (h, s, true) L = GotWait ->
    pending (lk L h) s = None /\ l_open (lk L h) (negb s) = true.
  Proof.
    intros L h s Ht H. unfold lk_recv in H. rewrite Ht in H. cbn in H.
    destruct (pending (lk L h) s) as [[[v c] t]|]; [discriminate|]. destruct (l_open (lk L h) (negb s)); [auto|discriminate].
  Qed.

  Lemma unblock_to : forall pick hist L thr, (forall b, 0 < labels b -> pick b < labels b) ->
    inv L thr -> rinv hist L thr -> ginv hist thr -> sinv L thr ->
    forall g, settled_to g thr -> forall k p, 1 <= p <= n -> t_round (thr p) = g -> at_pos hist p (thr p) k ->
    exists q, 1 <= q <= n /\ t_round (thr q) <= g /\ ready pick L thr q.
  Proof.
    intros pick hist L thr Hpick I R G S g. induction g as [g IHg] using lt_wf_ind.
    intros St k. induction k as [k IHk] using lt_wf_ind. intros p Hp Hg Hk.
    pose proof (g_wf _ _ _ _ _ G g) as Wg.
    pose proof (r_thr _ _ _ _ _ R p Hp) as [Hle HR].
    (* a role that owns an end of round g *)
    assert (Hpeer : forall x y, 1 <= x <= n -> peer_role x y -> avail (hnd g x y) L = 1 ->
              (exists q, 1 <= q <= n /\ t_round (thr q) <= g /\ ready pick L thr q) \/
              t_round (thr x) = g /\ exists kx, at_pos hist x (thr x) kx /\ k <= kx).
    { intros x y Hx Hy Ha. destruct (holder_to hist L thr I R g St x y Hx Hy Ha) as [H1 H2].
      destruct (has_pos hist thr x Hx G H2) as [kx Hkx].
      destruct (le_lt_eq_dec _ _ H1) as [Hlt|Heq].
      - left. destruct (IHg _ Hlt (settled_less _ _ thr H1 St) kx x Hx eq_refl Hkx) as (q & Hq & Hle' & Hc). exists q. split; [exact Hq|]. split; [lia|exact Hc].
      - destruct (lt_dec kx k) as [Hlt|Hge]; [left; apply (IHk kx Hlt x); auto|].
        right. split; [exact Heq|]. exists kx. split; [exact Hkx|lia]. }
    unfold at_pos in Hk. destruct (t_prog (thr p)) as [ss r hs|b l pend own|a r hs|res|hs] eqn:Ep; try contradiction.
    - (* running *)
      destruct Hk as (pre & suf & E1 & E2 & E3 & E4 & E5). rewrite Hg in *. destruct HR as [-> _].
      destruct suf as [|m suf].
      + (* end of the round *)
        destruct (snd (grnd hist g)) as [|c b] eqn:Ee.
        * exists p. split; [exact Hp|]. split; [lia|]. exists ITau. split; [exact Logic.I|]. unfold tstep, bare. cbn [t_trash t_prog]. rewrite Ep, E4. cbn [stack_of last_stack].
          rewrite E3, ends_last. discriminate.
        * unfold wf_round in Wg. rewrite Ee in Wg. destruct Wg as [_ [Hc Hlab]].
          (* the chooser can choose *)
          assert (Hchoose : forall pre' hs', t_prog (thr c) = PRun (sessions_of n c [] (GChoose c b)) (stack_of c [] (GChoose c b)) hs' ->
                    fst (grnd hist g) = pre' ++ [] -> ready pick L thr c).
          { intros pre' hs' Hcp _. exists (ILabel (pick b)). split;
              [intros ss0 r0 hs0 b0 E0 E0'; rewrite Hcp in E0; injection E0 as <- _ _; rewrite choice_last in E0'; injection E0' as <-; reflexivity|].
            unfold tstep, bare. cbn [t_trash t_prog]. rewrite Hcp.
            cbn [stack_of last_stack]. rewrite Nat.eqb_refl, choice_last. destruct (Nat.ltb_spec (pick b) (labels b)); [|specialize (Hpick b Hlab); lia].
            destruct (make_choice link_ops n branch c b (pick b) hs' L) as [[pr s1]|]; discriminate. }
          destruct (Nat.eq_dec p c) as [->|Hpc].
          -- exists c. split; [exact Hc|]. split; [lia|]. eapply (Hchoose pre (mesh g c)); [|exact E1]. rewrite Ep, E3, E4. reflexivity.
          -- assert (Hx : peer_role p c) by (split; [congruence|exact Hc]). destruct (peer_sym n p c Hp Hx) as [_ Hcp].
             assert (Es : nth_error ss (field_pos p c) = Some (Rcv (PChoice b p) End)).
             { rewrite E3, sessions_nth by (auto; congruence). cbn [sess_of last_sess].
               destruct (Nat.eqb_spec p c); [contradiction|]. rewrite Nat.eqb_refl. reflexivity. }
             pose proof (mesh_nth n g p c Hp Hx) as Eh. rewrite <- Hg in Eh.
             assert (Hr : r = SRole c SEnd).
             { rewrite E4. cbn. destruct (Nat.eqb_spec p c); [contradiction|reflexivity]. }
             assert (Ep' : t_prog (thr p) = PRun ss r (mesh (t_round (thr p)) p)) by (rewrite Hg; exact Ep).
             destruct (run_field n branch labels hist L thr p ss r _ c _ _ Hp I R Ep' Hx Es Eh) as (_ & Hl & Ht & _).
             rewrite Hg in *.
             destruct (lk_recv (hnd g p c) L) as [v cc y L1|L1| |] eqn:Er.
             4: { exists p. split; [exact Hp|]. split; [lia|]. exists ITau. split; [exact Logic.I|]. unfold tstep, bare. cbn [t_trash t_prog]. rewrite Ep, Hr.
                  rewrite callable_true, comm_field_pos by (auto; destruct Hx; lia). rewrite Es, Eh, Nat.eqb_refl.
                  unfold do_offer. cbn [op_recv link_ops]. rewrite Er. discriminate. }
             1: { exists p. split; [exact Hp|]. split; [lia|]. exists ITau. split; [exact Logic.I|]. unfold tstep, bare. cbn [t_trash t_prog]. rewrite Ep, Hr.
                  rewrite callable_true, comm_field_pos by (auto; destruct Hx; lia). rewrite Es, Eh, Nat.eqb_refl.
                  unfold do_offer. cbn [op_recv link_ops]. rewrite Er. destruct v; [discriminate|].
                  destruct ((b0 =? b) && (j =? p) && (l <? labels b)); discriminate. }
             1: { exists p. split; [exact Hp|]. split; [lia|]. exists ITau. split; [exact Logic.I|]. unfold tstep, bare. cbn [t_trash t_prog]. rewrite Ep, Hr.
                  rewrite callable_true, comm_field_pos by (auto; destruct Hx; lia). rewrite Es, Eh, Nat.eqb_refl.
                  unfold do_offer. cbn [op_recv link_ops]. rewrite Er. discriminate. }
             destruct (recv_open L _ _ ltac:(rewrite Ht; reflexivity) Er) as [_ Ho].
             rewrite <- (side_other p c) in Ho by congruence.
             assert (Ha : avail (hnd g c p) L = 1).
             { unfold MeshRounds.hnd. rewrite (lnk_sym n). apply full_avail. auto. }
             destruct (Hpeer c p Hc Hcp Ha) as [H|(Hgc & kx & Hkx & Hkk)]; [exact H|].
             unfold at_pos in Hkx. rewrite Hgc in Hkx. 
             destruct (t_prog (thr c)) as [ssc rc hsc| |ac rc hsc| |] eqn:Epc; try contradiction.
             ++ destruct Hkx as (prec & sufc & F1 & F2 & F3 & F4 & F5).
                assert (sufc = []).
                { rewrite app_nil_r in E1. destruct sufc as [|m0 sufc]; [reflexivity|]. exfalso.
                  rewrite E1 in F1. apply (f_equal (@length _)) in F1. rewrite app_length in F1. cbn in F1. lia. }
                subst sufc. exists c. split; [exact Hc|]. split; [lia|]. rewrite Ee in F3, F4.
                eapply (Hchoose prec hsc); [rewrite F3, F4; reflexivity|exact F1].
             ++ destruct Hkx as [_ Hkx]. congruence.
      + (* a message *)
        cbn in E2. set (e := snd (grnd hist g)) in *.
        assert (Hm : wf_message n m).
        { destruct Wg as [Wg _]. rewrite E1 in Wg. apply Forall_app in Wg. destruct Wg as [_ Wg]. inversion Wg; assumption. }
        destruct Hm as (Hfrom & Hinto & Hft).
        assert (Hsend : forall hs', t_prog (thr (from m)) = PRun (sessions_of n (from m) (m :: suf) e) (stack_of (from m) (m :: suf) e) hs' ->
                  length hs' = n - 1 -> ready pick L thr (from m)).
        { intros hs' Hcp Hlen. exists (IVal 0). split; [exact Logic.I|]. unfold tstep, bare. cbn [t_trash t_prog]. rewrite Hcp.
          assert (Hx : peer_role (from m) (into m)) by (split; [congruence|exact Hinto]).
          cbn [stack_of]. rewrite Nat.eqb_refl, callable_true, comm_field_pos by (auto; destruct Hx; lia).
          rewrite (sessions_nth n (from m) (into m)) by (auto; congruence).
          assert (Hs : sess_of (from m) (into m) (m :: suf) e = Snd (PVal (what m)) (sess_of (from m) (into m) suf e)).
          { cbn [sess_of]. rewrite !Nat.eqb_refl. reflexivity. }
          rewrite Hs. destruct (nth_error hs' (field_pos (from m) (into m))) as [h|] eqn:Eh.
          - unfold do_send. cbn [op_send link_ops]. destruct h as [[l0 s0] f0]. unfold lk_send.
            destruct (f0 && is_snd (l_ty (lk L l0) s0)); [|discriminate].
            destruct (l_open (lk L l0) (negb s0)); [discriminate|]. destruct strict; discriminate.
          - apply nth_error_None in Eh. pose proof (field_range n _ _ Hfrom Hx). lia. }
        assert (Hlenm : forall q, 1 <= q <= n -> length (mesh g q) = n - 1) by (intros; unfold MeshRounds.mesh; apply meshb_length).
        destruct (Nat.eq_dec (from m) p) as [Ef|Ef].
        * exists p. split; [exact Hp|]. split; [lia|]. rewrite <- Ef in *. eapply Hsend; [rewrite Ep, E3, E4; reflexivity|apply Hlenm; exact Hp].
        * unfold involves in E2. destruct (Nat.eqb_spec (from m) p); [contradiction|]. cbn in E2. apply Nat.eqb_eq in E2.
          set (x := from m) in *. assert (Hx : peer_role p x) by (split; [exact Ef|exact Hfrom]).
          destruct (peer_sym n p x Hp Hx) as [_ Hxp].
          assert (Hs : sess_of p x (m :: suf) e = Rcv (PVal (what m)) (sess_of p x suf e)).
          { cbn [sess_of]. fold x. destruct (Nat.eqb_spec x p); [contradiction|]. rewrite Nat.eqb_refl, E2, Nat.eqb_refl. reflexivity. }
          assert (Es : nth_error ss (field_pos p x) = Some (Rcv (PVal (what m)) (sess_of p x suf e))).
          { rewrite E3, sessions_nth by auto. rewrite Hs. reflexivity. }
          pose proof (mesh_nth n g p x Hp Hx) as Eh. rewrite <- Hg in Eh.
          assert (Hr : exists r', r = SRole x r').
          { exists (stack_of p suf e). rewrite E4. cbn [stack_of]. fold x. destruct (Nat.eqb_spec x p); [contradiction|].
            rewrite E2, Nat.eqb_refl. reflexivity. }
          destruct Hr as [r' Hr].
          assert (Ep' : t_prog (thr p) = PRun ss r (mesh (t_round (thr p)) p)) by (rewrite Hg; exact Ep).
          destruct (run_field n branch labels hist L thr p ss r _ x _ _ Hp I R Ep' Hx Es Eh) as (_ & Hl & Ht & _).
          rewrite Hg in *.
          destruct (lk_recv (hnd g p x) L) as [v cc y L1|L1| |] eqn:Er.
          4: { exists p. split; [exact Hp|]. split; [lia|]. exists ITau. split; [exact Logic.I|]. unfold tstep, bare. cbn [t_trash t_prog]. rewrite Ep, Hr.
               rewrite callable_true, comm_field_pos by (auto; destruct Hx; lia). rewrite Es, Eh.
               unfold do_recv. cbn [op_recv link_ops]. rewrite Er. discriminate. }
          1: { exists p. split; [exact Hp|]. split; [lia|]. exists ITau. split; [exact Logic.I|]. unfold tstep, bare. cbn [t_trash t_prog]. rewrite Ep, Hr.
               rewrite callable_true, comm_field_pos by (auto; destruct Hx; lia). rewrite Es, Eh.
               unfold do_recv. cbn [op_recv link_ops]. rewrite Er. destruct v; [|discriminate]. destruct cc; [|discriminate].
               destruct (t =? what m); discriminate. }
          1: { exists p. split; [exact Hp|]. split; [lia|]. exists ITau. split; [exact Logic.I|]. unfold tstep, bare. cbn [t_trash t_prog]. rewrite Ep, Hr.
               rewrite callable_true, comm_field_pos by (auto; destruct Hx; lia). rewrite Es, Eh.
               unfold do_recv. cbn [op_recv link_ops]. rewrite Er. discriminate. }
          destruct (recv_open L _ _ ltac:(rewrite Ht; reflexivity) Er) as [Hpe Ho].
          pose proof (not_ahead L _ _ (i_wf _ _ _ _ _ I) (i_q _ _ _ _ _ I) Hl Hpe) as Hlen.
          rewrite <- (side_other p x) in Ho, Hlen by (destruct Hx; congruence).
          assert (Ha : avail (hnd g x p) L = 1).
          { unfold MeshRounds.hnd. rewrite (lnk_sym n). apply full_avail. auto. }
          destruct (Hpeer x p Hfrom Hxp Ha) as [H|(Hgx & kx & Hkx & Hkk)]; [exact H|].
          unfold at_pos in Hkx. rewrite Hgx in Hkx.
          rewrite Ht in Hlen. cbn [slen] in Hlen.
          pose proof (r_thr _ _ _ _ _ R x Hfrom) as [_ HRx]. pose proof (i_prog _ _ _ _ _ I x Hfrom) as POx.
          destruct (t_prog (thr x)) as [ssx rx hsx| |ax rx hsx| |] eqn:Epx; try contradiction.
          -- destruct Hkx as (prex & sufx & F1 & F2 & F3 & F4 & F5). fold e in F3, F4.
             destruct HRx as [Ehx _]. rewrite Hgx in Ehx.
             assert (Etyx : l_ty (lk L (lnk g p x)) (x <? p) = sess_of x p sufx e).
             { assert (Esx : nth_error ssx (field_pos x p) = Some (sess_of x p sufx e)).
               { rewrite F3. apply sessions_nth; auto. }
               assert (Ehx' : nth_error hsx (field_pos x p) = Some (hnd g x p)) by (rewrite Ehx; apply mesh_nth; auto).
               destruct (run_field n branch labels hist L thr x ssx rx hsx p _ _ Hfrom I R Epx Hxp Esx Ehx') as (_ & _ & H & _).
               rewrite Hgx, (lnk_sym n) in H. exact H. }
             rewrite Etyx in Hlen.
             (* the position of x is the position of p *)
             assert (Hsplit : exists mid, m :: suf = mid ++ sufx).
             { exists (firstn (length prex - length pre) (m :: suf)).
               assert (F6 : sufx = skipn (length prex) (fst (grnd hist g))) by (rewrite F1, skipn_app, skipn_all, Nat.sub_diag; reflexivity).
               rewrite E1 in F6. rewrite skipn_app in F6. rewrite skipn_all2 in F6 by lia. cbn [app] in F6.
               rewrite F6. symmetry. apply firstn_skipn. }
             destruct Hsplit as [mid Hmid]. destruct mid as [|m' mid].
             ++ exists x. split; [exact Hfrom|]. split; [lia|]. cbn in Hmid. subst sufx.
                eapply Hsend; [rewrite F3, F4; reflexivity|rewrite Ehx; apply Hlenm; exact Hfrom].
             ++ exfalso. cbn in Hmid. injection Hmid as _ Hmid. pose proof (sess_shorter x p mid sufx e) as Hsh.
                rewrite <- Hmid in Hsh. rewrite (sess_of_dual suf e p x) in Hlen by congruence. rewrite slen_co in Hlen. lia.
          -- exfalso. destruct HRx as [-> _]. cbn in POx. destruct POx as (_ & _ & POx & _). rewrite Forall_forall in POx.
             rewrite Hgx in POx. specialize (POx _ (in_mesh n g x p Hfrom Hxp)). unfold lty, MeshRounds.hnd in POx.
             rewrite (lnk_sym n) in POx. rewrite POx in Hlen. cbn in Hlen. lia.
    - (* closing *)
      rewrite Hg in *. destruct Hk as [-> Ee]. destruct HR as (-> & _ & _).
      pose proof (i_prog _ _ _ _ _ I p Hp) as PO. rewrite Ep in PO. cbn in PO. destruct PO as (_ & _ & PT & PQ).
      assert (Hself : forall i, i = ITau -> do_close link_ops (bare (thr p)) a r (mesh g p) L <> None -> exists q, 1 <= q <= n /\ t_round (thr q) <= g /\ ready pick L thr q).
      { intros i -> H. exists p. split; [exact Hp|]. split; [lia|]. exists ITau. split; [exact Logic.I|]. unfold tstep, bare. cbn [t_trash t_prog]. unfold bare in H. rewrite Ep in H. rewrite Ep. exact H. }
      unfold do_close in Hself. cbn [op_tell op_hear link_ops] in Hself.
      destruct (nth_error (mesh g p) a) as [h|] eqn:Ea.
      + apply (Hself ITau eq_refl). destruct (mesh_field n _ _ _ _ Hp Ea) as (x & Hx & -> & ->).
        assert (Hq : quiet L (hnd g p x)).
        { rewrite (skipn_cons _ _ _ _ Ea) in PQ. inversion PQ; assumption. }
        unfold quiet, MeshRounds.hnd in Hq. unfold MeshRounds.hnd, lk_tell. rewrite Hq.
        destruct (true && is_fin (l_ty (lk L (lnk g p x)) (p <? x))); [|discriminate].
        destruct (l_rx (lk L (lnk g p x)) (negb (p <? x))); discriminate.
      + destruct (nth_error (mesh g p) r) as [h|] eqn:Er; [|apply (Hself ITau eq_refl); discriminate].
        destruct (mesh_field n _ _ _ _ Hp Er) as (x & Hx & -> & ->). destruct (peer_sym n p x Hp Hx) as [Hx' Hxp].
        destruct (lk_hear (hnd g p x) L) as [[|] L1| | |] eqn:El; try (apply (Hself ITau eq_refl); discriminate).
        clear Hself. unfold MeshRounds.hnd, lk_hear in El.
        destruct (true && is_fin (l_ty (lk L (lnk g p x)) (p <? x))); [|discriminate].
        destruct (l_sig (lk L (lnk g p x)) (negb (p <? x))) eqn:Esig; [discriminate|].
        destruct (l_open (lk L (lnk g p x)) (negb (p <? x))) eqn:Eo; [|discriminate].
        rewrite <- (side_other p x) in Esig, Eo by (destruct Hx; congruence).
        assert (Hl : lnk g p x < lnext L).
        { destruct (live_link n branch labels L thr p (hnd g p x) Hp I) as [H _]; [|exact H].
          unfold all_of. rewrite Ep. apply in_or_app. left. apply in_mesh; assumption. }
        assert (Ha : avail (hnd g x p) L = 1).
        { unfold MeshRounds.hnd. rewrite (lnk_sym n). apply full_avail. auto. }
        destruct (Hpeer x p Hx' Hxp Ha) as [H|(Hgx & kx & Hkx & Hkk)]; [exact H|].
        unfold at_pos in Hkx. rewrite Hgx in Hkx.
        pose proof (r_thr _ _ _ _ _ R x Hx') as [_ HRx]. pose proof (i_prog _ _ _ _ _ I x Hx') as POx.
        destruct (t_prog (thr x)) as [ssx rx hsx| |ax rx hsx| |] eqn:Epx; try contradiction.
        * exfalso. destruct Hkx as (prex & sufx & F1 & _ & _ & _ & F5). rewrite F1, app_length in Hkk. lia.
        * destruct HRx as [-> _]. rewrite Hgx in *. destruct (le_lt_dec ax (field_pos x p)) as [Hax|Hax].
          -- (* x can tell *)
             exists x. split; [exact Hx'|]. split; [lia|]. exists ITau. split; [exact Logic.I|]. unfold tstep, bare. cbn [t_trash t_prog]. rewrite Epx.
             unfold do_close. cbn [op_tell op_hear link_ops].
             destruct (nth_error (mesh g x) ax) as [h|] eqn:Eax.
             ++ destruct (mesh_field n _ _ _ _ Hx' Eax) as (y & Hy & -> & ->).
                cbn in POx. destruct POx as (_ & _ & _ & PQx). rewrite (skipn_cons _ _ _ _ Eax) in PQx.
                assert (Hq : quiet L (hnd g x y)) by (inversion PQx; assumption).
                unfold quiet, MeshRounds.hnd in Hq. unfold MeshRounds.hnd, lk_tell. rewrite Hq.
                destruct (true && is_fin (l_ty (lk L (lnk g x y)) (x <? y))); [|discriminate].
                destruct (l_rx (lk L (lnk g x y)) (negb (x <? y))); discriminate.
             ++ exfalso. apply nth_error_None in Eax. unfold MeshRounds.mesh in Eax. rewrite meshb_length in Eax.
                pose proof (field_range n x p Hx' Hxp). lia.
          -- exfalso. assert (Hsig : l_sig (lk L (lnk g p x)) (x <? p) = Some Stop).
             { apply (s_kept _ _ _ S g p x Hp Hx).
               - apply (held_kept n branch labels L thr p _ Hp I). rewrite Ep. apply in_mesh; assumption.
               - exact Hgx.
               - unfold told. rewrite Epx. exact Hax.
               - intros [_ H]. unfold heard in H. rewrite Ep in H. lia. }
             congruence.
  Qed.

  Lemma unblock : forall hist L thr, inv L thr -> rinv hist L thr -> ginv hist thr -> sinv L thr -> settled thr ->
    forall g k p, 1 <= p <= n -> t_round (thr p) = g -> at_pos hist p (thr p) k ->
    exists q, 1 <= q <= n /\ can L thr q.
  Proof.
    intros hist L thr I R G S St g k p Hp Hg Hk.
    destruct (unblock_to (fun _ => 0) hist L thr ltac:(auto) I R G S g (settled_all g thr St) k p Hp Hg Hk) as (q & Hq & _ & Hr).
    exists q. split; [exact Hq|]. eapply ready_can; [exact Hr|]. apply St, Hq.
  Qed.

  Definition finished (th : lthread) : Prop := (exists r, t_prog th = PFin r) /\ t_trash th = [].

  Theorem progress_links : forall hist L thr, inv L thr -> rinv hist L thr -> ginv hist thr -> sinv L thr ->
    (forall p, 1 <= p <= n -> finished (thr p)) \/ exists p, 1 <= p <= n /\ can L thr p.
  Proof.
    intros hist L thr I R G S.
    assert (Hdec : forall (A : nat -> Prop), (forall p, A p \/ ~ A p) -> (forall p, 1 <= p <= n -> A p) \/ exists p, 1 <= p <= n /\ ~ A p).
    { intros A HA. clear wf.
      assert (H : forall m, (forall p, 1 <= p <= m -> A p) \/ exists p, 1 <= p <= m /\ ~ A p).
      { induction m as [|m [IH|(p & Hp & IH)]]; [left; intros; lia| |right; exists p; split; [lia|exact IH]].
        destruct (HA (Datatypes.S m)) as [H|H].
        - left. intros p Hp. destruct (Nat.eq_dec p (Datatypes.S m)) as [->|]; [exact H|apply IH; lia].
        - right. exists (Datatypes.S m). split; [lia|exact H]. }
      apply H. }
    (* dropping is always possible *)
    destruct (Hdec (fun p => t_trash (thr p) = [])) as [Htr|(p & Hp & Htr)].
    { intros p. destruct (t_trash (thr p)); [left; reflexivity|right; discriminate]. }
    2: { right. exists p. split; [exact Hp|]. exists ITau. split; [discriminate|]. unfold tstep.
         destruct (t_trash (thr p)) as [|x rest]; [congruence|]. cbn [op_drop link_ops]. destruct (lk_drop x L). discriminate. }
    (* so is a step inside a choice *)
    destruct (Hdec (fun p => match t_prog (thr p) with PChoose _ _ _ _ => False | _ => True end)) as [Hch|(p & Hp & Hch)].
    { intros p. destruct (t_prog (thr p)); tauto. }
    2: { right. exists p. split; [exact Hp|]. exists ITau. split; [discriminate|]. unfold tstep. rewrite (Htr p Hp).
         destruct (t_prog (thr p)) as [|b l pend own| | |]; try (exfalso; apply Hch; exact Logic.I).
         destruct pend as [|[[x h] m] pend]; [discriminate|]. unfold do_choose_send. cbn [op_send link_ops].
         destruct h as [[l0 s0] f0]. unfold lk_send. destruct (f0 && is_snd (l_ty (lk L l0) s0)); [|discriminate].
         destruct (l_open (lk L l0) (negb s0)); [discriminate|]. destruct strict; discriminate. }
    assert (St : settled thr).
    { intros p Hp. split; [auto|]. intros b l pend own E. specialize (Hch p Hp). rewrite E in Hch. exact Hch. }
    destruct (Hdec (fun p => finished (thr p))) as [Hf|(p & Hp & Hf)].
    { intros p. unfold finished. destruct (t_prog (thr p)) as [| | |r|] eqn:E; try (right; intros [[r0 H] _]; discriminate).
      destruct (t_trash (thr p)) eqn:E'; [left; eauto|right; intros [_ H]; discriminate]. }
    { left. exact Hf. }
    right. assert (Hr : running (thr p)).
    { unfold running. pose proof (i_prog _ _ _ _ _ I p Hp) as PO. specialize (Hch p Hp).
      destruct (t_prog (thr p)) as [| | |r|] eqn:E; auto. exfalso. apply Hf. split; [eauto|auto]. }
    destruct (has_pos hist thr p Hp G Hr) as [k Hk]. eapply unblock; eauto.
  Qed.
End Progress.
