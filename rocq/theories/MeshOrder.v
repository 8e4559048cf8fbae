(** Roles whose types can be followed in some order never block each other, whoever crashes. *)
From Coq Require Import List Arith Bool Lia Permutation.
From Verif Require Import Types Diag DiagProofs Wiring WiringProofs Session Mesh MeshSpec Links LinksProofs Refine Sim
  MeshWire MeshInv MeshStep MeshKeep MeshSafe MeshRounds MeshRun MeshLog MeshReach Global MeshGlobal MeshSignal MeshProgress OrderSpec OrderProofs.
Import ListNotations.

Lemma slen_nonzero : forall s, is_rcv s = true -> 0 < slen s.
Proof. intros [| |]; cbn; intros; try discriminate; lia. Qed.

(** The largest of finitely many ranks. *)
Lemma bound_all : forall (rank : nat -> nat -> nat) (len : nat -> nat) m, exists M, forall p i, 1 <= p <= m -> i < len p -> rank p i < M.
Proof.
  intros rank len. assert (K : forall p k, exists M, forall i, i < k -> rank p i < M).
  { intros p k. induction k as [|k [M IH]]; [exists 0; intros; lia|]. exists (S (Nat.max M (rank p k))). intros i Hi.
    destruct (Nat.eq_dec i k) as [->|]; [lia|]. specialize (IH i ltac:(lia)). lia. }
  induction m as [|m [M IH]]; [exists 0; intros; lia|]. destruct (K (S m) (len (S m))) as [M' HM']. exists (Nat.max M M').
  intros p i Hp Hi. destruct (Nat.eq_dec p (S m)) as [->|]; [specialize (HM' i Hi)|specialize (IH p i ltac:(lia) Hi)]; lia.
Qed.

Section MOrder.
  Variable n : nat.
  Variable branch : nat -> nat -> nat -> mty.
  Variable labels : nat -> nat.
  Variable strict : bool.
  Hypothesis branch_dual : forall b l, l < labels b -> dual_mesh n (branch b l).
  Variable T : nat -> mty.
  Hypothesis T_dual : dual_mesh n T.

  Notation lthread := (@thread handle).
  Notation tcase := (tcase n branch labels strict).
  Notation inv := (inv n branch labels).
  Notation rinv := (rinv n labels).
  Notation sinv := (sinv n).
  Notation peer_role := (peer_role n).
  Notation lnk := (lnk n).
  Notation hnd := (hnd n).
  Notation mesh := (mesh n).
  Notation tstep_l := (tstep link_ops n branch labels strict).
  Notation script := (script n labels).
  Notation script_of := (script_of n labels).
  Notation ordered := (ordered n labels).
  Notation RT := (round_types branch T).

  Lemma peer_call : forall p x, negb (x =? p) && (1 <=? x) && (x <=? n) = true <-> peer_role p x.
  Proof.
    intros p x. unfold MeshStep.peer_role. rewrite !andb_true_iff, negb_true_iff, Nat.eqb_neq, !Nat.leb_le. lia.
  Qed.
  Lemma callable_peer : forall p x, peer_role p x -> callable n p x = true.
  Proof. intros p x H. unfold callable. apply peer_call. exact H. Qed.

  (** What a script begins with. *)
  Inductive begins (p : nat) (ss : list sty) : stack -> list act -> Prop :=
  | BSend x r t k rest : peer_role p x -> nth_error ss (field_pos p x) = Some (Snd (PVal t) k) ->
      script p (set_nth (field_pos p x) k ss) r = Some rest -> begins p ss (SRole x r) (ASend x :: rest)
  | BRecv x r t k rest : peer_role p x -> nth_error ss (field_pos p x) = Some (Rcv (PVal t) k) ->
      script p (set_nth (field_pos p x) k ss) r = Some rest -> begins p ss (SRole x r) (ARecv x :: rest)
  | BOffer x r b : peer_role p x -> nth_error ss (field_pos p x) = Some (Rcv (PChoice b p) End) ->
      begins p ss (SRole x r) [AOffer x b]
  | BChoose b : choice_of p ss = Some b -> 0 < labels b -> begins p ss SBroadcast [AChoose b]
  | BClose : forallb is_end ss = true -> begins p ss SEnd [AClose].

  Lemma script_begins : forall p ss r l, script p ss r = Some l -> begins p ss r l.
  Proof.
    intros p ss r l H. destruct r as [| |x r|x r|x r1 r2|x r1 r2]; cbn [OrderSpec.script] in H; cbv zeta in H; try discriminate H.
    - destruct (forallb is_end ss) eqn:E; [|discriminate H]. injection H as <-. constructor. exact E.
    - destruct (choice_of p ss) eqn:E; [|discriminate H]. destruct (0 <? labels n0) eqn:E'; [|discriminate H]. injection H as <-.
      constructor; [exact E|]. apply Nat.ltb_lt. exact E'.
    - destruct (negb (x =? p) && (1 <=? x) && (x <=? n)) eqn:Ec; [|discriminate H]. apply peer_call in Ec.
      destruct (nth_error ss (field_pos p x)) as [[|[t|b j] k|[t|b j] k]|] eqn:En; try discriminate H.
      + destruct (script p (set_nth (field_pos p x) k ss) r) eqn:E; [|discriminate H]. injection H as <-. econstructor; eauto.
      + destruct (script p (set_nth (field_pos p x) k ss) r) eqn:E; [|discriminate H]. injection H as <-. econstructor; eauto.
      + destruct k; try discriminate H. destruct (Nat.eqb_spec j p) as [->|]; [|discriminate H]. injection H as <-. constructor; auto.
  Qed.

  (** Role p has done [past] and still has to do [rest] in a round with the types R. *)
  Definition stands (R : nat -> mty) (p : nat) (ss : list sty) (r : stack) (past rest : list act) : Prop :=
    script_of R p = Some (past ++ rest) /\ script p ss r = Some rest /\
    forall x, peer_role p x -> slen (sess R p x) = slen (nth (field_pos p x) ss End) + length (filter (meets x) past).

  Lemma stands_start : forall R p, script_of R p <> None -> exists rest, stands R p (fst (R p)) (snd (R p)) [] rest.
  Proof.
    intros R p H. unfold stands, OrderSpec.script_of in *. destruct (script p (fst (R p)) (snd (R p))) as [l|]; [|congruence].
    exists l. split; [reflexivity|]. split; [reflexivity|]. intros x Hx. cbn. unfold sess. lia.
  Qed.

  Lemma stands_message : forall R p ss r x a t k past rest, 1 <= p <= n -> length ss = n - 1 -> stands R p ss (SRole x r) past rest ->
    peer_role p x -> nth_error ss (field_pos p x) = Some (Snd (PVal t) k) /\ a = ASend x \/ nth_error ss (field_pos p x) = Some (Rcv (PVal t) k) /\ a = ARecv x ->
    exists rest', rest = a :: rest' /\ stands R p (set_nth (field_pos p x) k ss) r (past ++ [a]) rest'.
  Proof.
    intros R p ss r x a t k past rest Hp Hlen (S1 & S2 & S3) Hx Ha.
    assert (K : exists rest', rest = a :: rest' /\ script p (set_nth (field_pos p x) k ss) r = Some rest').
    { pose proof (script_begins p ss _ _ S2) as B. inversion B; subst; destruct Ha as [[E ->]|[E ->]]; rewrite E in *; try discriminate;
        match goal with H : Some _ = Some _ |- _ => injection H as <- <- end; eauto. }
    destruct K as (rest' & -> & K). exists rest'. split; [reflexivity|]. split; [rewrite <- app_assoc; exact S1|]. split; [exact K|].
    intros y Hy. rewrite (S3 y Hy), filter_app, app_length. cbn [filter].
    assert (Em : meets y a = (x =? y)) by (destruct Ha as [[_ ->]|[_ ->]]; reflexivity). rewrite Em.
    pose proof (field_range n p x Hp Hx) as Hf. destruct (Nat.eqb_spec x y) as [->|Hne].
    - rewrite (nth_error_nth _ _ End (nth_set_same _ ss (field_pos p y) k ltac:(lia))). cbn.
      destruct Ha as [[E _]|[E _]]; rewrite (nth_error_nth _ _ End E); cbn; lia.
    - cbn. assert (E : nth (field_pos p y) (set_nth (field_pos p x) k ss) End = nth (field_pos p y) ss End).
      { assert (Hd : field_pos p y <> field_pos p x) by (intros E; apply Hne; symmetry; apply (field_inj n p y x Hp Hy Hx E)).
        pose proof (nth_set_other _ ss (field_pos p x) (field_pos p y) k Hd) as E.
        destruct (nth_error ss (field_pos p y)) as [s|] eqn:Es.
        - rewrite (nth_error_nth _ _ End E), (nth_error_nth _ _ End Es). reflexivity.
        - apply nth_error_None in E, Es. rewrite !nth_overflow by assumption. reflexivity. }
      rewrite E. lia.
  Qed.

  Variable ok : (nat -> mty) -> Prop.
  Hypothesis ok_first : ok T.
  Hypothesis ok_next : forall R p l b lab, ok R -> 1 <= p <= n -> script_of R p = Some l -> In (AChoose b) l -> lab < labels b -> ok (branch b lab).
  Hypothesis ok_script : forall R p, ok R -> 1 <= p <= n -> script_of R p <> None.

  Record xinv (hist : history) (thr : nat -> lthread) : Prop := XInv {
    x_run : forall p ss r hs, 1 <= p <= n -> t_prog (thr p) = PRun ss r hs ->
      exists past rest, stands (RT hist (t_round (thr p))) p ss r past rest;
    x_ok : forall g, ok (RT hist g)
  }.

  Lemma rt_app : forall hist e g, g <= length hist -> RT (hist ++ [e]) g = RT hist g.
  Proof.
    intros hist e g Hg. unfold round_types. destruct g as [|g]; [reflexivity|]. rewrite nth_error_app1 by lia. reflexivity.
  Qed.

  Lemma xinv_step : forall hist L thr p i th' L', 1 <= p <= n -> inv L thr -> rinv hist L thr ->
    xinv hist thr -> tcase p (thr p) L i th' L' -> xinv (record p i (thr p) hist) (set_thr thr p th').
  Proof.
    intros hist L thr p i th' L' Hp I R X C.
    pose proof (effect_case n branch labels strict branch_dual hist L thr p i th' L' Hp I R C) as EF.
    pose proof (r_thr _ _ _ _ _ R p Hp) as [Hle HR].
    assert (Hlens : forall ss r hs, t_prog (thr p) = PRun ss r hs -> length ss = n - 1).
    { intros ss r hs Ep. pose proof (i_prog _ _ _ _ _ I p Hp) as PO. rewrite Ep in PO. cbn in PO. destruct PO as (P1 & _ & P3).
      rewrite <- (Forall2_len _ _ _ _ _ P3). exact P1. }
    destruct (record_case n branch labels strict L p i (thr p) th' L' hist C)
      as [Er|(b & l & ss & hs & pl & Er & Hl & Ei & Et & Ep & Ec & Ea)]; rewrite Er.
    - constructor; [|apply X]. intros q ss0 r0 hs0 Hq E. unfold set_thr in *. destruct (Nat.eqb_spec q p) as [->|]; [|eapply x_run; eauto].
      destruct C as [x rest out L1 Et Ed|Et Hnf
        |v x ss r hs t k h L1 Et Ep Hx Es Eh El|v x ss r hs t k h lost L1 Et Ep Hx Es Eh El Est
        |v x ss r hs t k h lost L1 Et Ep Hx Es Eh El Est
        |v x ss r hs t k h L1 Et Ep Hx Es Eh El|b l m x ss r hs h L1 Et Ep Hx Es Eh El Hl
        |x ss r hs P0 k h L1 Et Ep Hx Es Eh El
        |b l ss hs pl L1 Et Ep Ec Hl Ea
        |b l x h m pend own L1 Et Ep El|b l x h m pend own lost L1 Et Ep El Est
        |b l x h m pend own lost L1 Et Ep El Est
        |b l own Et Ep|ss hs Et Ep Ee
        |a r hs h L1 Et Ep Ea El|a r hs h Et Ep Ea El
        |a r hs h L1 Et Ep Ea Er0 El|a r hs h Et Ep Ea Er0 El|a r hs h L1 Et Ep Ea Er0 El
        |a r hs Et Ep Ea Er0]; cbn [t_prog t_round fin] in *; try discriminate E.
      + eapply x_run; eauto.
      + injection E as <- <- <-. destruct (x_run _ _ X p _ _ _ Hp Ep) as (past & rest & H).
        destruct (stands_message _ _ _ _ _ (ASend x) t k _ _ Hp (Hlens _ _ _ Ep) H Hx (or_introl (conj Es eq_refl))) as (rest' & _ & H'). eauto.
      + injection E as <- <- <-. destruct (x_run _ _ X p _ _ _ Hp Ep) as (past & rest & H).
        destruct (stands_message _ _ _ _ _ (ASend x) t k _ _ Hp (Hlens _ _ _ Ep) H Hx (or_introl (conj Es eq_refl))) as (rest' & _ & H'). eauto.
      + injection E as <- <- <-. destruct (x_run _ _ X p _ _ _ Hp Ep) as (past & rest & H).
        destruct (stands_message _ _ _ _ _ (ARecv x) t k _ _ Hp (Hlens _ _ _ Ep) H Hx (or_intror (conj Es eq_refl))) as (rest' & _ & H'). eauto.
      + (* offer *)
        injection E as <- <- <-.
        destruct (e_act _ _ _ _ _ _ _ _ EF) as [[H _]|[H|H]].
        * exfalso. specialize (H (t_round (thr p)) x). cbn [t_log] in H. rewrite evs_app in H. cbn in H.
          rewrite !Nat.eqb_refl in H. cbn in H. apply (f_equal (@length _)) in H. rewrite app_length in H. cbn in H. lia.
        * exfalso. destruct H as (x' & v & P' & k' & _ & _ & _ & _ & H & _). cbn [t_log] in H.
          apply app_inv_head in H. discriminate.
        * destruct H as (x' & v & P' & k' & c' & _ & _ & _ & _ & H & H' & _). cbn [t_log] in H.
          apply app_inv_head in H. injection H as <- <-. destruct H' as [_ H'].
          assert (ER : RT hist (S (t_round (thr p))) = branch b l) by (cbn; rewrite H'; reflexivity).
          rewrite ER. exists [].
          apply stands_start. rewrite <- ER. apply ok_script; [apply (x_ok _ _ X)|exact Hp].
      + (* enter *)
        injection E as <- <- <-. rewrite Ep in HR. destruct HR as (Hg & _).
        assert (ER : RT hist (S (t_round (thr p))) = branch b l) by (cbn; rewrite Hg; reflexivity).
        rewrite ER. exists []. apply stands_start. rewrite <- ER. apply ok_script; [apply (x_ok _ _ X)|exact Hp].
    - assert (Hround : t_round (thr p) = length hist) by (eapply chooser_last; eauto).
      constructor.
      + intros q ss0 r0 hs0 Hq E. unfold set_thr in *. destruct (Nat.eqb_spec q p) as [->|].
        * destruct C; try discriminate Ei; discriminate E.
        * rewrite rt_app; [eapply x_run; eauto|]. apply (r_thr _ _ _ _ _ R q Hq).
      + intros g. destruct (le_lt_dec g (length hist)) as [Hg|Hg]; [rewrite rt_app by exact Hg; apply (x_ok _ _ X)|].
        destruct g as [|g]; [lia|]. cbn [round_types]. destruct (Nat.eq_dec g (length hist)) as [->|Hne].
        * rewrite nth_error_app2, Nat.sub_diag by lia. cbn.
          destruct (x_run _ _ X p _ _ _ Hp Ep) as (past & rest & S1 & S2 & _).
          pose proof (script_begins _ _ _ _ S2) as B. inversion B as [| | |b0 Hc0 Hl0 E1 E2|]; subst. rewrite Ec in Hc0. injection Hc0 as <-.
          eapply ok_next; [apply (x_ok _ _ X (t_round (thr p)))|exact Hp|exact S1|apply in_or_app; right; left; reflexivity|exact Hl].
        * assert (E : nth_error (hist ++ [(p, b, l)]) g = None) by (apply nth_error_None; rewrite app_length; cbn; lia).
          rewrite E. exact ok_first.
  Qed.

  Lemma xinv_init : xinv [] (st_thr (init link_ops n T empty_links)).
  Proof.
    destruct (init_form n T T_dual) as (L & _ & _ & _ & _ & _ & Hthr). constructor.
    - intros p ss r hs Hp E. rewrite Hthr in E |- * by exact Hp. injection E as <- <- _. exists []. apply stands_start. apply ok_script; auto.
    - intros [|[|g]]; exact ok_first.
  Qed.

  (** * Nobody waits for ever (as in MeshProgress.v, for types that need not come from a global protocol) *)
  Hypothesis ok_dual : forall R, ok R -> dual_mesh n R.
  Hypothesis ok_ordered : forall R, ok R -> ordered R.
  (** The value or label that a role has ready. *)
  Variable say pick : nat -> nat.
  Definition picks (thr : nat -> lthread) : Prop := forall p ss hs b, 1 <= p <= n -> t_prog (thr p) = PRun ss SBroadcast hs ->
    choice_of p ss = Some b -> 0 < labels b -> pick p < labels b.

  Definition settled (thr : nat -> lthread) : Prop :=
    forall p, 1 <= p <= n -> t_trash (thr p) = [] /\ forall b l pend own, t_prog (thr p) <> PChoose b l pend own.

  Definition running (th : lthread) : Prop :=
    match t_prog th with PRun _ _ _ => True | PClose _ _ _ => True | _ => False end.

  Definition cut (g : nat) : nat := S g * npairs n.

  (** Nobody is dropping an end of the rounds up to g, or inside the choice that ends one of them. *)
  Definition settled_to (g : nat) (thr : nat -> lthread) : Prop :=
    forall p, 1 <= p <= n -> (forall m s f, In (m, s, f) (t_trash (thr p)) -> cut g <= m) /\
      forall b l pend own, t_prog (thr p) = PChoose b l pend own -> g < t_round (thr p).

  Lemma settled_less : forall g g' thr, g' <= g -> settled_to g thr -> settled_to g' thr.
  Proof.
    intros g g' thr Hg St p Hp. destruct (St p Hp) as [H1 H2]. split.
    - intros m s f Hin. specialize (H1 m s f Hin). unfold cut in *. nia.
    - intros b l pend own E. specialize (H2 b l pend own E). lia.
  Qed.
  Lemma settled_all : forall g thr, settled thr -> settled_to g thr.
  Proof.
    intros g thr St p Hp. destruct (St p Hp) as [H1 H2]. split.
    - rewrite H1. intros m s f [].
    - intros b l pend own E. exfalso. exact (H2 _ _ _ _ E).
  Qed.

  (** Whoever owns an end of round g is still working, in that round or before. *)
  Lemma holder_to : forall hist L thr, inv L thr -> rinv hist L thr -> forall g, settled_to g thr ->
    forall x y, 1 <= x <= n -> peer_role x y -> avail (hnd g x y) L = 1 -> t_round (thr x) <= g /\ running (thr x).
  Proof.
    intros hist L thr I R g. induction g as [g IH] using lt_wf_ind. intros St x y Hx Hy Ha.
    pose proof (i_lin _ _ _ _ _ I (hnd g x y)) as Hlin. rewrite Ha in Hlin.
    destruct (cnt (hnd g x y) (everyone n thr)) as [|c] eqn:Ec.
    - assert (Hi : 0 < inside (hnd g x y) L) by lia. apply sum_to_pos in Hi. destruct Hi as (m & Hm & Hc).
      assert (Hq : exists v c t, In (v, c, t) (l_q (lk L m)) /\ In (hnd g x y) c).
      { revert Hc. generalize (l_q (lk L m)) as q. induction q as [|[[v c] t] q IHq]; intros Hc; [cbn in Hc; lia|].
        rewrite cntq_cons in Hc. destruct (cnt (hnd g x y) c) eqn:E.
        - destruct (IHq ltac:(lia)) as (v' & c' & t' & H1 & H2). exists v', c', t'. split; [right; exact H1|exact H2].
        - exists v, c, t. split; [left; reflexivity|]. apply cnt_in. lia. }
      destruct Hq as (v & c & t & Hin & Hc'). pose proof (lo_q _ _ _ _ _ (r_link _ _ _ _ _ R m Hm) v c t Hin) as HQ.
      destruct v as [t0 v|b l j]; [rewrite HQ in Hc'; contradiction|].
      destruct HQ as (g0 & p0 & Hg & Hp0 & Hj & Em & Eto & ->). destruct (peer_sym n p0 j Hp0 Hj) as [Hj' Hjp].
      destruct (mesh_own n _ _ _ _ _ Hj' Hx Hy Hc') as [E ->].
      assert (Ha' : avail (hnd g0 x p0) L = 1).
      { unfold MeshRounds.hnd. rewrite (lnk_sym n), <- Em. apply full_avail. split; [exact Hm|].
        destruct (l_open (lk L m) (x <? p0)) eqn:Eo; [reflexivity|]. rewrite <- Eto in Eo.
        rewrite (wf_q _ (i_wf _ _ _ _ _ I m Hm) Eo) in Hin. contradiction. }
      destruct (IH g0 ltac:(lia) (settled_less g g0 thr ltac:(lia) St) x p0 Hx Hjp Ha') as [H1 H2]. split; [lia|exact H2].
    - assert (Hin : In (hnd g x y) (everyone n thr)) by (apply cnt_in; lia).
      unfold everyone in Hin. apply in_flat_map in Hin. destruct Hin as (p & Hp & Hin). apply in_seq in Hp.
      assert (Hp' : 1 <= p <= n) by lia. destruct (St p Hp') as [Et Hnc]. unfold all_of in Hin. apply in_app_or in Hin as [Hin|Hin];
        [|exfalso; specialize (Et _ _ _ Hin); pose proof (lnk_range n g x y Hx Hy); unfold cut in Et; lia].
      pose proof (r_thr _ _ _ _ _ R p Hp') as [_ HR].
      destruct (t_prog (thr p)) as [ss r hs|b l pend own|a r hs|res|hs] eqn:Ep; cbn [held] in Hin.
      + destruct HR as [-> _]. destruct (mesh_own n _ _ _ _ _ Hp' Hx Hy Hin) as [E ->].
        split; [lia|]. unfold running. rewrite Ep. exact Logic.I.
      + exfalso. specialize (Hnc _ _ _ _ eq_refl). destruct HR as (_ & -> & qs & -> & Hqs). apply in_app_or in Hin as [Hin|Hin].
        * apply in_flat_map in Hin. destruct Hin as ([[q h] m] & Hq & Hin). apply in_map_iff in Hq. destruct Hq as (q0 & E & Hq).
          injection E as <- <- <-. rewrite Forall_forall in Hqs. specialize (Hqs _ Hq). destruct Hin as [Hin|Hin].
          -- injection Hin as E1 E2. apply (hnd_inj n) in E1; auto. destruct E1 as [E1 _]. lia.
          -- destruct (peer_sym n p q0 Hp' Hqs) as [Hq0 _]. destruct (mesh_own n _ _ _ _ _ Hq0 Hx Hy Hin) as [E _]. lia.
        * destruct (mesh_own n _ _ _ _ _ Hp' Hx Hy Hin) as [E _]. lia.
      + destruct HR as [-> _]. destruct (mesh_own n _ _ _ _ _ Hp' Hx Hy Hin) as [E ->].
        split; [lia|]. unfold running. rewrite Ep. exact Logic.I.
      + contradiction.
      + contradiction.
  Qed.

  Lemma holder : forall hist L thr, inv L thr -> rinv hist L thr -> settled thr ->
    forall g x y, 1 <= x <= n -> peer_role x y -> avail (hnd g x y) L = 1 -> t_round (thr x) <= g /\ running (thr x).
  Proof. intros hist L thr I R St g. apply (holder_to hist L thr I R g). apply settled_all. exact St. Qed.

  Lemma typed_len : forall L q t t', qtyped n branch labels L t q -> tychain t q t' -> slen t = length q + slen t'.
  Proof.
    intros L. induction q as [|[[v c] nxt] q IH]; intros t t' H1 H2; cbn in *; [subst; reflexivity|].
    destruct H1 as (Q & -> & _ & H1). destruct H2 as [_ H2]. cbn. rewrite (IH _ _ H1 H2). reflexivity.
  Qed.

  (** Nothing is on its way to p: p is not ahead of x. *)
  Lemma not_ahead : forall L m s, wf_links L -> queues_ok n branch labels L -> m < lnext L ->
    pending (lk L m) s = None -> slen (l_ty (lk L m) s) <= slen (l_ty (lk L m) (negb s)).
  Proof.
    intros L m s W Q Hm Hp. specialize (W m Hm). specialize (Q m Hm).
    destruct (bool_cases s (l_to (lk L m))) as [E|E].
    - unfold pending in Hp. rewrite E, Bool.eqb_reflx in Hp. destruct (l_q (lk L m)) eqn:Eq; [|discriminate].
      rewrite (sync_dual _ s W Eq), slen_co. lia.
    - pose proof (typed_len L _ _ _ Q (wf_ty _ W)) as H. rewrite E, negb_involutive, slen_co in H. lia.
  Qed.

  Lemma recv_open : forall L h s, is_rcv (l_ty (lk L h) s) = true -> lk_recv (h, s, true) L = GotWait ->
    pending (lk L h) s = None /\ l_open (lk L h) (negb s) = true.
  Proof.
    intros L h s Ht H. unfold lk_recv in H. rewrite Ht in H. cbn in H.
    destruct (pending (lk L h) s) as [[[v c] t]|]; [discriminate|]. destruct (l_open (lk L h) (negb s)); [auto|discriminate].
  Qed.


  Definition goes (L : links) (thr : nat -> lthread) (p : nat) : Prop :=
    exists i, (i = ITau \/ i = IVal (say p) \/ i = ILabel (pick p)) /\ tstep_l p i (thr p) L <> None.

  Lemma upto_past : forall x past rest, upto x (length past) (past ++ rest) = length (filter (meets x) past).
  Proof. intros x past rest. unfold upto. rewrite firstn_app, Nat.sub_diag, firstn_all, app_nil_r. reflexivity. Qed.

  Definition at_rank (hist : history) (rank : nat -> nat -> nat) (M p : nat) (th : lthread) (k : nat) : Prop :=
    match t_prog th with
    | PRun ss r hs => exists past rest, stands (RT hist (t_round th)) p ss r past rest /\ k = rank p (length past)
    | PClose _ _ _ => k = M
    | _ => False
    end.

  Lemma has_rank : forall hist thr rank M p, 1 <= p <= n -> xinv hist thr -> running (thr p) -> exists k, at_rank hist rank M p (thr p) k.
  Proof.
    intros hist thr rank M p Hp X H. unfold running, at_rank in *. destruct (t_prog (thr p)) as [ss r hs| | | |] eqn:Ep; try contradiction; eauto.
    destruct (x_run _ _ X p _ _ _ Hp Ep) as (past & rest & S). eauto.
  Qed.

  Lemma rest_nonempty : forall p ss r rest, script p ss r = Some rest -> exists a rest', rest = a :: rest'.
  Proof. intros p ss r rest H. apply script_begins in H. inversion H; subst; eauto. Qed.

  Lemma unblock_rank : forall hist L thr, inv L thr -> rinv hist L thr -> xinv hist thr -> sinv L thr -> settled thr -> picks thr ->
    forall g p, 1 <= p <= n -> t_round (thr p) = g -> running (thr p) -> exists q, 1 <= q <= n /\ goes L thr q.
  Proof.
    intros hist L thr I R X S St pick_ok g. induction g as [g IHg] using lt_wf_ind.
    pose proof (ok_ordered _ (x_ok _ _ X g)) as (rank & O1 & O2 & O3).
    pose proof (ok_dual _ (x_ok _ _ X g)) as DM.
    destruct (bound_all rank (fun p => length (script_at n labels (RT hist g) p)) n) as [M HM].
    assert (HM' : forall p past rest, 1 <= p <= n -> script_of (RT hist g) p = Some (past ++ rest) -> rest <> [] -> rank p (length past) < M).
    { intros p past rest Hp E Hne. apply HM; [exact Hp|]. unfold script_at. rewrite E, app_length. destruct rest; [congruence|cbn; lia]. }
    assert (Main : forall k p, 1 <= p <= n -> t_round (thr p) = g -> at_rank hist rank M p (thr p) k -> exists q, 1 <= q <= n /\ goes L thr q).
    2: { intros p Hp Hg Hr. destruct (has_rank hist thr rank M p Hp X Hr) as [k Hk]. eauto. }
    induction k as [k IHk] using lt_wf_ind. intros p Hp Hg Hk.
    pose proof (r_thr _ _ _ _ _ R p Hp) as [Hle HR].
    destruct (St p Hp) as [Htr _].
    (* a role that owns an end of round g *)
    assert (Hpeer : forall x y, 1 <= x <= n -> peer_role x y -> avail (hnd g x y) L = 1 ->
              (exists q, 1 <= q <= n /\ goes L thr q) \/
              t_round (thr x) = g /\ running (thr x) /\ forall kx, at_rank hist rank M x (thr x) kx -> k <= kx).
    { intros x y Hx Hy Ha. destruct (holder hist L thr I R St g x y Hx Hy Ha) as [H1 H2].
      destruct (le_lt_eq_dec _ _ H1) as [Hlt|Heq]; [left; apply (IHg _ Hlt x); auto|].
      destruct (has_rank hist thr rank M x Hx X H2) as [kx Hkx].
      destruct (lt_dec kx k) as [Hlt|Hge]; [left; apply (IHk kx Hlt x); auto|].
      right. split; [exact Heq|]. split; [exact H2|]. intros k' Hk'. destruct (lt_dec k' k) as [Hlt|]; [|lia].
      unfold at_rank in Hkx, Hk'. destruct (t_prog (thr x)) as [ss r hs| | | |] eqn:Ep; try contradiction; [|lia].
      destruct Hkx as (past & rest & Sx & ->). destruct Hk' as (past' & rest' & Sx' & ->).
      destruct Sx as (A1 & A2 & _), Sx' as (B1 & B2 & _). rewrite A2 in B2. injection B2 as <-. rewrite A1 in B1. injection B1 as B1.
      apply app_inv_tail in B1. subst past'. lia. }
    unfold at_rank in Hk. destruct (t_prog (thr p)) as [ss r hs|b l pend own|a r hs|res|hs] eqn:Ep; try contradiction.
    - (* running *)
      destruct Hk as (past & rest & SD & ->). rewrite Hg in *. destruct HR as [-> _].
      pose proof SD as (S1 & S2 & S3). 
      (* waiting for x *)
      assert (Hwait : forall x a rest' P k', rest = a :: rest' -> waits a = Some x -> peer_role p x ->
                nth_error ss (field_pos p x) = Some (Rcv P k') -> lk_recv (hnd g p x) L = GotWait -> exists q, 1 <= q <= n /\ goes L thr q).
      { intros x a rest' P k' -> Hw Hx Es Er. destruct (peer_sym n p x Hp Hx) as [Hx' Hxp].
        pose proof (mesh_nth n g p x Hp Hx) as Eh. rewrite <- Hg in Eh.
        assert (Ep' : t_prog (thr p) = PRun ss r (mesh (t_round (thr p)) p)) by (rewrite Hg; exact Ep).
        destruct (run_field n branch labels hist L thr p ss r _ x _ _ Hp I R Ep' Hx Es Eh) as (_ & Hl & Ht & _).
        rewrite Hg in *.
        destruct (recv_open L _ _ ltac:(rewrite Ht; reflexivity) Er) as [Hpe Ho].
        pose proof (not_ahead L _ _ (i_wf _ _ _ _ _ I) (i_q _ _ _ _ _ I) Hl Hpe) as Hlen.
        rewrite <- (side_other p x) in Ho, Hlen by (destruct Hx; congruence).
        assert (Ha : avail (hnd g x p) L = 1).
        { unfold MeshRounds.hnd. rewrite (lnk_sym n). apply full_avail. auto. }
        destruct (Hpeer x p Hx' Hxp Ha) as [H|(Hgx & Hrx & Hkx)]; [exact H|].
        rewrite Ht in Hlen. pose proof (S3 x Hx) as Hcp. rewrite (nth_error_nth _ _ End Es) in Hcp.
        pose proof (r_thr _ _ _ _ _ R x Hx') as [_ HRx]. pose proof (i_prog _ _ _ _ _ I x Hx') as POx.
        unfold running in Hrx. unfold at_rank in Hkx.
        destruct (t_prog (thr x)) as [ssx rx hsx| |ax rx hsx| |] eqn:Epx; try contradiction.
        - exfalso. destruct (x_run _ _ X x _ _ _ Hx' Epx) as (pastx & restx & SX). pose proof SX as (X1 & X2 & X3). rewrite Hgx in *.
          specialize (Hkx _ ltac:(eauto)). destruct HRx as [Ehx _].
          pose proof (field_range n x p Hx' Hxp) as Hf.
          assert (Hlx : length ssx = n - 1).
          { cbn in POx. destruct POx as (P1 & _ & P3). rewrite <- (Forall2_len _ _ _ _ _ P3). exact P1. }
          destruct (nth_error ssx (field_pos x p)) as [tx|] eqn:Esx; [|apply nth_error_None in Esx; lia].
          assert (Ehx' : nth_error hsx (field_pos x p) = Some (hnd g x p)) by (rewrite Ehx; apply mesh_nth; auto).
          destruct (run_field n branch labels hist L thr x ssx rx hsx p _ _ Hx' I R Epx Hxp Esx Ehx') as (_ & _ & Htx & _).
          rewrite Hgx, (lnk_sym n) in Htx. rewrite Htx in Hlen.
          pose proof (X3 p Hxp) as Hcx. rewrite (nth_error_nth _ _ End Esx) in Hcx.
          rewrite (proj2 DM p x Hp Hx' ltac:(destruct Hx; congruence)), slen_co in Hcp.
          destruct (O3 p _ (length past) a x _ Hp S1 ltac:(rewrite nth_error_app2, Nat.sub_diag by lia; reflexivity) Hw X1)
            as (j & a' & J1 & J2 & J3 & J4). rewrite upto_past in J3.
          destruct (le_lt_dec (length pastx) j) as [Hj|Hj].
          + destruct (le_lt_eq_dec _ _ Hj) as [Hj'|Hj']; [|subst j; lia].
            assert (rank x (length pastx) < rank x j); [|lia]. apply (O2 x _ _ _ Hx' X1). split; [exact Hj'|]. apply nth_error_Some. congruence.
          + pose proof (upto_mono p (pastx ++ restx) (Datatypes.S j) (length pastx) Hj) as Hm.
            rewrite (upto_S p j _ _ J1), J2, upto_past in Hm. lia.
        - exfalso. destruct HRx as [-> _]. cbn in POx. destruct POx as (_ & _ & POx & _). rewrite Forall_forall in POx.
          rewrite Hgx in POx. specialize (POx _ (in_mesh n g x p Hx' Hxp)). unfold lty, MeshRounds.hnd in POx.
          rewrite (lnk_sym n) in POx. rewrite POx in Hlen. cbn in Hlen. lia. }
      pose proof (script_begins _ _ _ _ S2) as B. inversion B as [x r' t k' rest' Hx Es Hk' E1 E2|x r' t k' rest' Hx Es Hk' E1 E2|x r' b Hx Es E1 E2|b Hc Hl E1 E2|He E1 E2]; subst.
      + (* send *)
        exists p. split; [exact Hp|]. exists (IVal (say p)). split; [auto|]. unfold tstep. rewrite Htr, Ep.
        rewrite callable_peer, comm_field_pos by (auto; destruct Hx; lia). rewrite Es, (mesh_nth n _ p x Hp Hx).
        unfold do_send. cbn [op_send link_ops]. unfold lk_send, MeshRounds.hnd.
        destruct (true && is_snd (l_ty (lk L (lnk (t_round (thr p)) p x)) (p <? x))); [|discriminate].
        destruct (l_open (lk L (lnk (t_round (thr p)) p x)) (negb (p <? x))); [discriminate|]. destruct strict; discriminate.
      + (* recv *)
        destruct (lk_recv (hnd (t_round (thr p)) p x) L) as [v cc y L1|L1| |] eqn:Er; [| |eapply Hwait; eauto; reflexivity|];
          (exists p; split; [exact Hp|]; exists ITau; split; [auto|]; unfold tstep; rewrite Htr, Ep;
           rewrite callable_peer, comm_field_pos by (auto; destruct Hx; lia); rewrite Es, (mesh_nth n _ p x Hp Hx);
           unfold do_recv; cbn [op_recv link_ops]; rewrite Er); try discriminate.
        destruct v; [|discriminate]. destruct cc; [|discriminate]. destruct (t0 =? t); discriminate.
      + (* offer *)
        destruct (lk_recv (hnd (t_round (thr p)) p x) L) as [v cc y L1|L1| |] eqn:Er; [| |eapply Hwait; eauto; reflexivity|];
          (exists p; split; [exact Hp|]; exists ITau; split; [auto|]; unfold tstep; rewrite Htr, Ep;
           rewrite callable_peer, comm_field_pos by (auto; destruct Hx; lia); rewrite Es, (mesh_nth n _ p x Hp Hx), Nat.eqb_refl;
           unfold do_offer; cbn [op_recv link_ops]; rewrite Er); try discriminate.
        destruct v; [discriminate|]. destruct ((b0 =? b) && (j =? p) && (l <? labels b)); discriminate.
      + (* choose *)
        exists p. split; [exact Hp|]. exists (ILabel (pick p)). split; [auto|]. unfold tstep. rewrite Htr, Ep, Hc.
        destruct (Nat.ltb_spec (pick p) (labels b)); [|specialize (pick_ok p _ _ _ Hp Ep Hc Hl); lia].
        destruct (make_choice link_ops n branch p b (pick p) (mesh (t_round (thr p)) p) L) as [[pr s1]|]; discriminate.
      + (* close *)
        exists p. split; [exact Hp|]. exists ITau. split; [auto|]. unfold tstep. rewrite Htr, Ep, He. discriminate.
    - (* closing *)
      rewrite Hg in *. subst k. destruct HR as (-> & _ & _).
      pose proof (i_prog _ _ _ _ _ I p Hp) as PO. rewrite Ep in PO. cbn in PO. destruct PO as (_ & _ & PT & PQ).
      assert (Hself : forall i, i = ITau -> do_close link_ops (thr p) a r (mesh g p) L <> None -> exists q, 1 <= q <= n /\ goes L thr q).
      { intros i -> H. exists p. split; [exact Hp|]. exists ITau. split; [auto|]. unfold tstep. rewrite Htr, Ep. exact H. }
      unfold do_close in Hself. cbn [op_tell op_hear link_ops] in Hself.
      destruct (nth_error (mesh g p) a) as [h|] eqn:Ea.
      + apply (Hself ITau eq_refl). destruct (mesh_field n _ _ _ _ Hp Ea) as (x & Hx & -> & ->).
        assert (Hq : quiet L (hnd g p x)).
        { rewrite (skipn_cons _ _ _ _ Ea) in PQ. inversion PQ; assumption. }
        unfold quiet, MeshRounds.hnd in Hq. unfold MeshRounds.hnd, lk_tell. rewrite Hq.
        destruct (true && is_fin (l_ty (lk L (lnk g p x)) (p <? x))); [|discriminate].
        destruct (l_rx (lk L (lnk g p x)) (negb (p <? x))); discriminate.
      + destruct (nth_error (mesh g p) r) as [h|] eqn:Er; [|apply (Hself ITau eq_refl); discriminate].
        destruct (mesh_field n _ _ _ _ Hp Er) as (x & Hx & -> & ->). destruct (peer_sym n p x Hp Hx) as [Hx' Hxp].
        destruct (lk_hear (hnd g p x) L) as [[|] L1| | |] eqn:El; try (apply (Hself ITau eq_refl); discriminate).
        clear Hself. unfold MeshRounds.hnd, lk_hear in El.
        destruct (true && is_fin (l_ty (lk L (lnk g p x)) (p <? x))); [|discriminate].
        destruct (l_sig (lk L (lnk g p x)) (negb (p <? x))) eqn:Esig; [discriminate|].
        destruct (l_open (lk L (lnk g p x)) (negb (p <? x))) eqn:Eo; [|discriminate].
        rewrite <- (side_other p x) in Esig, Eo by (destruct Hx; congruence).
        assert (Hl : lnk g p x < lnext L).
        { destruct (live_link n branch labels L thr p (hnd g p x) Hp I) as [H _]; [|exact H].
          unfold all_of. rewrite Ep. apply in_or_app. left. apply in_mesh; assumption. }
        assert (Ha : avail (hnd g x p) L = 1).
        { unfold MeshRounds.hnd. rewrite (lnk_sym n). apply full_avail. auto. }
        destruct (Hpeer x p Hx' Hxp Ha) as [H|(Hgx & Hrx & Hkx)]; [exact H|].
        unfold at_rank in Hkx. unfold running in Hrx. destruct (St x Hx') as [Htrx _].
        pose proof (r_thr _ _ _ _ _ R x Hx') as [_ HRx]. pose proof (i_prog _ _ _ _ _ I x Hx') as POx.
        destruct (t_prog (thr x)) as [ssx rx hsx| |ax rx hsx| |] eqn:Epx; try contradiction.
        * exfalso. destruct (x_run _ _ X x _ _ _ Hx' Epx) as (pastx & restx & SX). pose proof SX as (X1 & X2 & X3). rewrite Hgx in *.
          specialize (Hkx _ ltac:(eauto)). destruct (rest_nonempty _ _ _ _ X2) as (a0 & rest0 & ->).
          specialize (HM' x _ _ Hx' X1 ltac:(discriminate)). lia.
        * destruct HRx as [-> _]. rewrite Hgx in *. destruct (le_lt_dec ax (field_pos x p)) as [Hax|Hax].
          -- (* x can tell *)
             exists x. split; [exact Hx'|]. exists ITau. split; [auto|]. unfold tstep. rewrite Htrx, Epx.
             unfold do_close. cbn [op_tell op_hear link_ops].
             destruct (nth_error (mesh g x) ax) as [h|] eqn:Eax.
             ++ destruct (mesh_field n _ _ _ _ Hx' Eax) as (y & Hy & -> & ->).
                cbn in POx. destruct POx as (_ & _ & _ & PQx). rewrite (skipn_cons _ _ _ _ Eax) in PQx.
                assert (Hq : quiet L (hnd g x y)) by (inversion PQx; assumption).
                unfold quiet, MeshRounds.hnd in Hq. unfold MeshRounds.hnd, lk_tell. rewrite Hq.
                destruct (true && is_fin (l_ty (lk L (lnk g x y)) (x <? y))); [|discriminate].
                destruct (l_rx (lk L (lnk g x y)) (negb (x <? y))); discriminate.
             ++ exfalso. apply nth_error_None in Eax. unfold MeshRounds.mesh in Eax. rewrite meshb_length in Eax.
                pose proof (field_range n x p Hx' Hxp). lia.
          -- exfalso. assert (Hsig : l_sig (lk L (lnk g p x)) (x <? p) = Some Stop).
             { apply (s_kept _ _ _ S g p x Hp Hx).
               - apply (held_kept n branch labels L thr p _ Hp I). rewrite Ep. apply in_mesh; assumption.
               - exact Hgx.
               - unfold told. rewrite Epx. exact Hax.
               - intros [_ H]. unfold heard in H. rewrite Ep in H. lia. }
             congruence.
  Qed.

  Definition finished (th : lthread) : Prop := (exists r, t_prog th = PFin r) /\ t_trash th = [].

  Theorem order_progress_links : forall hist L thr, inv L thr -> rinv hist L thr -> xinv hist thr -> sinv L thr -> picks thr ->
    (forall p, 1 <= p <= n -> finished (thr p)) \/ exists p, 1 <= p <= n /\ goes L thr p.
  Proof.
    intros hist L thr I R X S PK.
    assert (Hdec : forall (A : nat -> Prop), (forall p, A p \/ ~ A p) -> (forall p, 1 <= p <= n -> A p) \/ exists p, 1 <= p <= n /\ ~ A p).
    { intros A HA.
      assert (H : forall m, (forall p, 1 <= p <= m -> A p) \/ exists p, 1 <= p <= m /\ ~ A p).
      { induction m as [|m [IH|(p & Hp & IH)]]; [left; intros; lia| |right; exists p; split; [lia|exact IH]].
        destruct (HA (Datatypes.S m)) as [H|H].
        - left. intros p Hp. destruct (Nat.eq_dec p (Datatypes.S m)) as [->|]; [exact H|apply IH; lia].
        - right. exists (Datatypes.S m). split; [lia|exact H]. }
      apply H. }
    destruct (Hdec (fun p => t_trash (thr p) = [])) as [Htr|(p & Hp & Htr)].
    { intros p. destruct (t_trash (thr p)); [left; reflexivity|right; discriminate]. }
    2: { right. exists p. split; [exact Hp|]. exists ITau. split; [auto|]. unfold tstep.
         destruct (t_trash (thr p)) as [|x rest]; [congruence|]. cbn [op_drop link_ops]. destruct (lk_drop x L). discriminate. }
    destruct (Hdec (fun p => match t_prog (thr p) with PChoose _ _ _ _ => False | _ => True end)) as [Hch|(p & Hp & Hch)].
    { intros p. destruct (t_prog (thr p)); tauto. }
    2: { right. exists p. split; [exact Hp|]. exists ITau. split; [auto|]. unfold tstep. rewrite (Htr p Hp).
         destruct (t_prog (thr p)) as [|b l pend own| | |]; try (exfalso; apply Hch; exact Logic.I).
         destruct pend as [|[[x h] m] pend]; [discriminate|]. unfold do_choose_send. cbn [op_send link_ops].
         destruct h as [[l0 s0] f0]. unfold lk_send. destruct (f0 && is_snd (l_ty (lk L l0) s0)); [|discriminate].
         destruct (l_open (lk L l0) (negb s0)); [discriminate|]. destruct strict; discriminate. }
    assert (St : settled thr).
    { intros p Hp. split; [auto|]. intros b l pend own E. specialize (Hch p Hp). rewrite E in Hch. exact Hch. }
    destruct (Hdec (fun p => finished (thr p))) as [Hf|(p & Hp & Hf)].
    { intros p. unfold finished. destruct (t_prog (thr p)) as [| | |r|] eqn:E; try (right; intros [[r0 H] _]; discriminate).
      destruct (t_trash (thr p)) eqn:E'; [left; eauto|right; intros [_ H]; discriminate]. }
    { left. exact Hf. }
    right. assert (Hr : running (thr p)).
    { unfold running. pose proof (i_prog _ _ _ _ _ I p Hp) as PO. specialize (Hch p Hp).
      destruct (t_prog (thr p)) as [| | |r|] eqn:E; auto. exfalso. apply Hf. split; [eauto|auto]. }
    eapply unblock_rank; eauto.
  Qed.
End MOrder.
