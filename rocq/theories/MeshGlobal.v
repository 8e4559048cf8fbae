(** Roles that follow the projections of a global protocol: where each of them is. *)
From Coq Require Import List Arith Bool Lia Permutation.
From Verif Require Import Types Diag DiagProofs Wiring WiringProofs Session Mesh MeshSpec Links LinksProofs Refine Sim
  MeshWire MeshInv MeshStep MeshKeep MeshSafe MeshRounds MeshRun MeshLog MeshReach Global.
Import ListNotations.

(** ** Projections *)

Lemma sess_of_dual : forall ms e p q, p <> q -> sess_of p q ms e = co (sess_of q p ms e).
Proof.
  intros ms e p q Hne. induction ms as [|m ms IH]; cbn.
  - destruct e as [|c b]; [reflexivity|]. cbn.
    destruct (Nat.eqb_spec p c), (Nat.eqb_spec q c); subst; try reflexivity; contradiction.
  - destruct (Nat.eqb_spec (from m) p), (Nat.eqb_spec (into m) q), (Nat.eqb_spec (from m) q), (Nat.eqb_spec (into m) p);
      cbn; subst; try congruence; rewrite IH; reflexivity.
Qed.

Lemma sessions_nth : forall n p q ms e, 1 <= p <= n -> 1 <= q <= n -> q <> p ->
  nth_error (sessions_of n p ms e) (field_pos p q) = Some (sess_of p q ms e).
Proof.
  intros n p q ms e Hp Hq Hne. unfold sessions_of.
  destruct (peer_field n p q Hp Hq (not_eq_sym Hne)) as [Hk Hpe].
  rewrite nth_error_map, nth_error_seq' by exact Hk. cbn [option_map]. rewrite <- peer_other.
  replace (1 + field_pos p q) with (S (field_pos p q)) by lia. rewrite Hpe. reflexivity.
Qed.

Lemma sessions_length : forall n p ms e, length (sessions_of n p ms e) = n - 1.
Proof. intros. unfold sessions_of. rewrite map_length, seq_length. reflexivity. Qed.

Theorem proj_dual : forall n G, dual_mesh n (proj n G).
Proof.
  intros n G. split.
  - intros p Hp. cbn. apply sessions_length.
  - intros p q Hp Hq Hne. unfold sess, proj. cbn [fst].
    rewrite (nth_error_nth _ _ _ (sessions_nth n p q _ _ Hp Hq (not_eq_sym Hne))).
    rewrite (nth_error_nth _ _ _ (sessions_nth n q p _ _ Hq Hp Hne)). apply sess_of_dual. exact Hne.
Qed.

Definition involves (p : nat) (m : message) : bool := (from m =? p) || (into m =? p).

(** Messages of others can be skipped. *)
Lemma sess_skip : forall p q m ms e, involves p m = false -> sess_of p q (m :: ms) e = sess_of p q ms e.
Proof.
  intros p q m ms e H. apply orb_false_iff in H. destruct H as [H1 H2]. cbn. rewrite H1, H2, andb_false_r. reflexivity.
Qed.
Lemma stack_skip : forall p m ms e, involves p m = false -> stack_of p (m :: ms) e = stack_of p ms e.
Proof.
  intros p m ms e H. apply orb_false_iff in H. destruct H as [H1 H2]. cbn. rewrite H1, H2. reflexivity.
Qed.

(** Each role has its next message in front. *)
Definition norm (p : nat) (ms : list message) : Prop :=
  match ms with [] => True | m :: _ => involves p m = true end.

Lemma normalise : forall n p ms e, exists pre suf, ms = pre ++ suf /\ norm p suf /\
  sessions_of n p suf e = sessions_of n p ms e /\ stack_of p suf e = stack_of p ms e.
Proof.
  intros n p ms e. induction ms as [|m ms IH].
  - exists [], []. repeat split.
  - destruct (involves p m) eqn:E.
    + exists [], (m :: ms). split; [reflexivity|]. split; [exact E|]. split; reflexivity.
    + destruct IH as (pre & suf & -> & Hn & H1 & H2). exists (m :: pre), suf. split; [reflexivity|]. split; [exact Hn|].
      rewrite H1, H2. rewrite stack_skip by exact E. split; [|reflexivity].
      unfold sessions_of. apply map_ext. intros i. symmetry. apply sess_skip. exact E.
Qed.

Lemma list_ext : forall A (a b : list A), (forall k, nth_error a k = nth_error b k) -> a = b.
Proof.
  induction a as [|x a IH]; intros [|y b] H; [reflexivity|specialize (H 0); discriminate|specialize (H 0); discriminate|].
  pose proof (H 0) as H0. cbn in H0. injection H0 as <-. f_equal. apply IH. intros k. exact (H (S k)).
Qed.

(** Doing one's next message. *)
Lemma sessions_step : forall n p x m ms e, 1 <= p <= n -> 1 <= x <= n -> x <> p ->
  (forall q, q <> p -> q <> x -> sess_of p q (m :: ms) e = sess_of p q ms e) ->
  set_nth (field_pos p x) (sess_of p x ms e) (sessions_of n p (m :: ms) e) = sessions_of n p ms e.
Proof.
  intros n p x m ms e Hp Hx Hne Hskip. apply list_ext. intros k.
  destruct (lt_dec k (n - 1)) as [Hk|Hk].
  - assert (E : exists q, q <> p /\ 1 <= q <= n /\ k = field_pos p q).
    { exists (peer p (S k)). split; [apply peer_neq|]. split; [apply peer_range; lia|]. rewrite field_pos_peer by lia. lia. }
    destruct E as (q & H1 & H2 & ->). rewrite (sessions_nth n p q ms e Hp H2 H1).
    destruct (Nat.eq_dec q x) as [->|Hqx].
    + rewrite nth_set_same; [reflexivity|]. rewrite sessions_length. exact Hk.
    + rewrite nth_set_other; [rewrite (sessions_nth n p q _ e Hp H2 H1); f_equal; apply Hskip; assumption|].
      intros E. apply Hqx. destruct (peer_field n p q Hp H2 (not_eq_sym H1)) as [_ P1].
      destruct (peer_field n p x Hp Hx (not_eq_sym Hne)) as [_ P2]. rewrite <- P1, <- P2, E. reflexivity.
  - rewrite !(proj2 (nth_error_None _ _)); [reflexivity| |]; rewrite ?set_nth_length, sessions_length; lia.
Qed.

(** ** Lengths *)

Fixpoint slen (s : sty) : nat := match s with End => 0 | Snd _ s' | Rcv _ s' => S (slen s') end.
Lemma slen_co : forall s, slen (co s) = slen s.
Proof. induction s; cbn; congruence. Qed.

Lemma sess_shorter : forall p q pre suf e, slen (sess_of p q suf e) <= slen (sess_of p q (pre ++ suf) e).
Proof.
  induction pre as [|m pre IH]; intros suf e; [reflexivity|]. cbn [app sess_of].
  destruct ((from m =? p) && (into m =? q)); [cbn; specialize (IH suf e); lia|].
  destruct ((from m =? q) && (into m =? p)); [cbn; specialize (IH suf e); lia|apply IH].
Qed.

Lemma chain_len : forall q t t', tychain t q t' -> length q = 0 \/ is_rcv t = true.
Proof. intros [|[[v c] nxt] q] t t' H; [left; reflexivity|right; apply H]. Qed.

Lemma last_send : forall p x e t k, last_sess p x e <> Snd (PVal t) k /\ last_sess p x e <> Rcv (PVal t) k.
Proof.
  intros p x [|c b] t k; cbn; [split; discriminate|].
  destruct (p =? c); [split; discriminate|]. destruct (x =? c); split; discriminate.
Qed.

(** The next message of a role that is not at the end of its round. *)
Lemma next_message : forall n p x r m ms e, 1 <= p <= n -> 1 <= x <= n -> x <> p -> involves p m = true ->
  stack_of p (m :: ms) e = SRole x r -> r = stack_of p ms e /\
  sessions_of n p ms e = set_nth (field_pos p x) (sess_of p x ms e) (sessions_of n p (m :: ms) e) /\
  (sess_of p x (m :: ms) e = Snd (PVal (what m)) (sess_of p x ms e) \/
   sess_of p x (m :: ms) e = Rcv (PVal (what m)) (sess_of p x ms e)).
Proof.
  intros n p x r m ms e Hp Hx Hne Hi Hs. unfold involves in Hi. cbn [stack_of] in Hs.
  destruct (Nat.eqb_spec (from m) p) as [E|E].
  - injection Hs as Ex <-. split; [reflexivity|]. split.
    + symmetry. apply sessions_step; auto. intros q Hq Hqx. cbn [sess_of].
      destruct (Nat.eqb_spec (into m) q); [congruence|]. destruct (Nat.eqb_spec (from m) q); [congruence|].
      rewrite andb_false_r. reflexivity.
    + left. cbn [sess_of]. rewrite E, Ex, !Nat.eqb_refl. reflexivity.
  - cbn in Hi. rewrite Hi in Hs. apply Nat.eqb_eq in Hi. injection Hs as Ex <-. split; [reflexivity|]. split.
    + symmetry. apply sessions_step; auto. intros q Hq Hqx. cbn [sess_of].
      destruct (Nat.eqb_spec (from m) p); [contradiction|]. destruct (Nat.eqb_spec (from m) q); [congruence|]. reflexivity.
    + right. cbn [sess_of]. destruct (Nat.eqb_spec (from m) p); [contradiction|].
      rewrite Ex, Hi, !Nat.eqb_refl. reflexivity.
Qed.

Section GlobalInv.
  Variable n : nat.
  Variable labels : nat -> nat.
  Variable strict : bool.
  Variable P : protocol.
  Hypothesis wf : wf_protocol n labels P.

  Definition branch_g (b l p : nat) : mty := proj n (body P b l) p.
  Notation branch := branch_g.
  Definition T_g : nat -> mty := proj n (first_round P).

  Lemma branch_g_dual : forall b l, l < labels b -> dual_mesh n (branch b l).
  Proof. intros b l _. apply proj_dual. Qed.
  Lemma T_g_dual : dual_mesh n T_g.
  Proof. apply proj_dual. Qed.

  Notation lthread := (@thread handle).
  Notation tcase := (tcase n branch labels strict).
  Notation inv := (inv n branch labels).
  Notation rinv := (rinv n labels).
  Notation dinv := (dinv n branch labels T_g).
  Notation peer_role := (peer_role n).
  Notation lnk := (lnk n).
  Notation hnd := (hnd n).
  Notation mesh := (mesh n).

  (** The round with number g. *)
  Definition grnd (hist : history) (g : nat) : round :=
    match g with
    | 0 => first_round P
    | S g' => match nth_error hist g' with Some (_, b, l) => body P b l | None => first_round P end
    end.

  Definition gthr (hist : history) (p : nat) (th : lthread) : Prop :=
    match t_prog th with
    | PRun ss r hs => exists pre suf, fst (grnd hist (t_round th)) = pre ++ suf /\ norm p suf /\
        ss = sessions_of n p suf (snd (grnd hist (t_round th))) /\ r = stack_of p suf (snd (grnd hist (t_round th)))
    | PClose _ _ _ => snd (grnd hist (t_round th)) = GEnd
    | _ => True
    end.

  Record ginv (hist : history) (thr : nat -> lthread) : Prop := GInv {
    g_thr : forall p, 1 <= p <= n -> gthr hist p (thr p);
    g_hist : forall g c b l, nth_error hist g = Some (c, b, l) -> snd (grnd hist g) = GChoose c b;
    g_wf : forall g, wf_round n labels (grnd hist g)
  }.

  Lemma grnd_app : forall hist x g, g <= length hist -> grnd (hist ++ [x]) g = grnd hist g.
  Proof.
    intros hist x [|g] H; [reflexivity|]. cbn. rewrite nth_error_app1 by lia. reflexivity.
  Qed.

  Lemma gthr_app : forall hist x p th, t_round th <= length hist -> gthr hist p th -> gthr (hist ++ [x]) p th.
  Proof. intros hist x p th H. unfold gthr. rewrite grnd_app by exact H. auto. Qed.

  Lemma gthr_start : forall hist p g ss r hs tr log G, grnd hist g = G -> ss = fst (proj n G p) -> r = snd (proj n G p) ->
    gthr hist p (Thread (PRun ss r hs) tr g log).
  Proof.
    intros hist p g ss r hs tr log G E -> ->. unfold gthr. cbn [t_prog t_round]. rewrite E. cbn [proj fst snd].
    destruct (normalise n p (fst G) (snd G)) as (pre & suf & H1 & H2 & H3 & H4). exists pre, suf. auto.
  Qed.

  (** One message done. *)
  Lemma gthr_message : forall hist p th x ss r hs k q hs' tr log, 1 <= p <= n -> peer_role p x ->
    gthr hist p th -> t_prog th = PRun ss (SRole x r) hs ->
    nth_error ss (field_pos p x) = Some (Snd (PVal q) k) \/ nth_error ss (field_pos p x) = Some (Rcv (PVal q) k) ->
    gthr hist p (Thread (PRun (set_nth (field_pos p x) k ss) r hs') tr (t_round th) log).
  Proof.
    intros hist p th x ss r hs k q hs' tr log Hp [Hne Hx] G Ep Es. unfold gthr in G. rewrite Ep in G.
    destruct G as (pre & suf & E & Hn & -> & Hr). rewrite sessions_nth in Es by auto.
    set (e := snd (grnd hist (t_round th))) in *.
    destruct suf as [|m suf].
    - exfalso. destruct (last_send p x e q k) as [H1 H2].
      destruct Es as [Es|Es]; injection Es as Es; [exact (H1 Es)|exact (H2 Es)].
    - cbn in Hn. destruct (next_message n p x r m suf e Hp Hx Hne Hn (eq_sym Hr)) as (-> & H2 & H3).
      assert (k = sess_of p x suf e).
      { destruct Es as [Es|Es]; destruct H3 as [H3|H3]; rewrite H3 in Es; congruence. }
      subst k. rewrite <- H2.
      destruct (normalise n p suf e) as (pre' & suf' & E1 & E2 & E3 & E4).
      unfold gthr. cbn [t_prog t_round]. fold e. exists (pre ++ m :: pre'), suf'.
      split; [rewrite E, E1, <- app_assoc; reflexivity|]. auto.
  Qed.

  Lemma ginv_step : forall hist L thr p i th' L', 1 <= p <= n -> inv L thr -> rinv hist L thr ->
    ginv hist thr -> tcase p (thr p) L i th' L' -> ginv (record p i (thr p) hist) (set_thr thr p th').
  Proof.
    intros hist L thr p i th' L' Hp I R G C.
    pose proof (rinv_case n branch labels strict branch_g_dual hist L thr p i th' L' Hp I R C) as R'.
    pose proof (effect_case n branch labels strict branch_g_dual hist L thr p i th' L' Hp I R C) as EF.
    pose proof (r_thr _ _ _ _ _ R p Hp) as [Hle HR]. pose proof (g_thr _ _ G p Hp) as HG.
    destruct (record_case n branch labels strict L p i (thr p) th' L' hist C)
      as [Er|(b & l & ss & hs & pl & Er & Hl & Ei & Et & Ep & Ec & Ea)].
    - rewrite Er in *. constructor; [|apply G|apply G]. intros q Hq. unfold set_thr.
      destruct (Nat.eqb_spec q p) as [->|]; [|apply G, Hq].
      destruct C as [x rest out L1 Et Ed|Et Hnf
        |v x ss r hs t k h L1 Et Ep Hx Es Eh El|v x ss r hs t k h lost L1 Et Ep Hx Es Eh El Est
        |v x ss r hs t k h lost L1 Et Ep Hx Es Eh El Est
        |v x ss r hs t k h L1 Et Ep Hx Es Eh El|b l m x ss r hs h L1 Et Ep Hx Es Eh El Hl
        |x ss r hs P0 k h L1 Et Ep Hx Es Eh El
        |b l ss hs pl L1 Et Ep Ec Hl Ea
        |b l x h m pend own L1 Et Ep El|b l x h m pend own lost L1 Et Ep El Est
        |b l x h m pend own lost L1 Et Ep El Est
        |b l own Et Ep|ss hs Et Ep Ee
        |a r hs h L1 Et Ep Ea El|a r hs h Et Ep Ea El
        |a r hs h L1 Et Ep Ea Er0 El|a r hs h Et Ep Ea Er0 El|a r hs h L1 Et Ep Ea Er0 El
        |a r hs Et Ep Ea Er0]; try exact Logic.I.
      + exact HG.
      + eapply gthr_message; eauto.
      + eapply gthr_message; eauto.
      + eapply gthr_message; eauto.
      + (* offer *)
        destruct (e_act _ _ _ _ _ _ _ _ EF) as [[H _]|[H|H]].
        * exfalso. specialize (H (t_round (thr p)) x). cbn [t_log] in H. rewrite evs_app in H. cbn in H.
          rewrite !Nat.eqb_refl in H. cbn in H. apply (f_equal (@length _)) in H. rewrite app_length in H. cbn in H. lia.
        * exfalso. destruct H as (x' & v & P' & k' & _ & _ & _ & _ & H & _). cbn [t_log] in H.
          apply app_inv_head in H. discriminate.
        * destruct H as (x' & v & P' & k' & c' & _ & _ & _ & _ & H & H' & _). cbn [t_log] in H.
          apply app_inv_head in H. injection H as <- <-. destruct H' as [_ H'].
          eapply gthr_start with (G := body P b l); [|reflexivity|reflexivity]. cbn [grnd]. rewrite H'. reflexivity.
      + (* enter *)
        rewrite Ep in HR. destruct HR as (Hg & _). eapply gthr_start with (G := body P b l); [|reflexivity|reflexivity].
        cbn [grnd]. rewrite Hg. reflexivity.
      + (* close *)
        unfold gthr in HG |- *. rewrite Ep in HG. cbn [t_prog t_round]. destruct HG as (pre & suf & E1 & E2 & E3 & E4).
        destruct suf as [|m suf]; [|exfalso; cbn in E2, E4; unfold involves in E2;
          destruct (from m =? p); [discriminate|]; destruct (into m =? p); discriminate].
        destruct (snd (grnd hist (t_round (thr p)))) as [|c b]; [reflexivity|]. cbn in E4. destruct (p =? c); discriminate.
      + unfold gthr in *. rewrite Ep in HG. exact HG.
      + unfold gthr in *. rewrite Ep in HG. exact HG.
    - assert (Hround : t_round (thr p) = length hist).
      { eapply chooser_last; eauto. }
      assert (Hlast : snd (grnd hist (length hist)) = GChoose p b).
      { unfold gthr in HG. rewrite Ep, Hround in HG. destruct HG as (pre & suf & E1 & E2 & E3 & E4).
        destruct suf as [|m suf]; [|exfalso; cbn in E2, E4; unfold involves in E2;
          destruct (from m =? p); [discriminate|]; destruct (into m =? p); discriminate].
        destruct (snd (grnd hist (length hist))) as [|c b']; [discriminate|]. cbn in E4.
        destruct (Nat.eqb_spec p c) as [<-|]; [|discriminate]. f_equal.
        assert (Hlen : 0 < length ss) by (rewrite E3, sessions_length; destruct wf; lia).
        pose proof (choice_shape p ss b Ec 0 Hlen) as H0. rewrite E3 in H0. unfold sessions_of in H0.
        rewrite E3, sessions_length in Hlen. rewrite nth_error_map, nth_error_seq' in H0 by exact Hlen. cbn in H0.
        rewrite Nat.eqb_refl in H0. congruence. }
      rewrite Er in *. constructor.
      + intros q Hq. unfold set_thr. destruct (Nat.eqb_spec q p) as [->|].
        * destruct C; try discriminate Ei; exact Logic.I.
        * apply gthr_app; [|apply G, Hq]. apply (r_thr _ _ _ _ _ R q Hq).
      + intros g c b0 l0 Hg. destruct (lt_dec g (length hist)) as [Hlt|Hge].
        * rewrite nth_error_app1 in Hg by exact Hlt. rewrite grnd_app by lia. eapply G; exact Hg.
        * assert (g = length hist).
          { assert (g < length (hist ++ [(p, b, l)])) by (eapply nth_error_len; exact Hg). rewrite app_length in H. cbn in H. lia. }
          subst g. rewrite nth_error_app2, Nat.sub_diag in Hg by lia. cbn in Hg. injection Hg as <- <- <-.
          rewrite grnd_app by lia. exact Hlast.
      + intros [|g]; [apply wf|]. cbn [grnd]. destruct (nth_error (hist ++ [(p, b, l)]) g) as [[[c b0] l0]|] eqn:Eg; [|apply wf].
        apply wf. destruct (r_past _ _ _ _ _ R' _ _ _ _ Eg) as (_ & H & _). exact H.
  Qed.

  Lemma ginv_init : ginv [] (st_thr (init link_ops n T_g empty_links)).
  Proof.
    destruct (init_form n T_g T_g_dual) as (L & _ & _ & _ & _ & _ & Hthr). constructor.
    - intros p Hp. rewrite Hthr by exact Hp. eapply gthr_start with (G := first_round P); reflexivity.
    - intros [|g] c b l H; discriminate.
    - intros [|[|g]]; apply wf.
  Qed.
End GlobalInv.
