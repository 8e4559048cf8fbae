(** Typing invariant of the session machine on the specification store, for any pairwise dual types. *)
From Coq Require Import List Arith Bool Lia Permutation.
From Verif Require Import Types Diag DiagProofs Wiring WiringProofs Session Mesh MeshSpec Links LinksProofs Refine Sim
  MeshWire.
Import ListNotations.

(** No signal of this end is waiting. *)
Definition quiet (L : links) (x : handle) : Prop := let '(l, s, _) := x in l_sig (lk L l) s = None.

(** A step on the ends in U leaves the types of all other ends. *)
Definition frame (L L' : links) (U : list handle) : Prop :=
  forall y, full y = true -> live L y -> ~ In y U -> lty L' y = lty L y /\ (quiet L y -> quiet L' y).

Lemma frame_refl : forall L U, frame L L U.
Proof. intros L U y _ _ _. auto. Qed.

Lemma frame_weaken : forall L L' U V, frame L L' U -> (forall y, In y U -> In y V) -> frame L L' V.
Proof. intros L L' U V F H y Hf Hl Hn. apply F; auto. Qed.

Lemma sum_to_pos : forall k f, 0 < sum_to k f -> exists m, m < k /\ 0 < f m.
Proof.
  induction k as [|k IH]; intros f Hf; cbn in Hf; [lia|].
  destruct (f k) eqn:E.
  - destruct (IH f) as (m & Hm & Hp); [lia|]. exists m. split; [lia|exact Hp].
  - exists k. split; lia.
Qed.

Section Typing.
  Variable n : nat.
  Variable branch : nat -> nat -> nat -> mty.
  Variable labels : nat -> nat.

  Definition mesh_ok (L : links) (ss : list sty) (hs : list handle) : Prop :=
    length hs = n - 1 /\ Forall (fun x => full x = true) hs /\
    Forall2 (fun x t => lty L x = t /\ quiet L x) hs ss.

  Definition prog_ok (L : links) (p : nat) (pr : @prog handle) : Prop :=
    match pr with
    | PRun ss r hs => mesh_ok L ss hs
    | PChoose b l pend own =>
        l < labels b /\ mesh_ok L (fst (branch b l p)) own /\
        Forall (fun '(q, h, m) => full h = true /\ lty L h = Snd (PChoice b q) End /\ quiet L h /\
                                  mesh_ok L (fst (branch b l q)) m) pend
    | PClose a r hs =>
        length hs = n - 1 /\ Forall (fun x => full x = true) hs /\ Forall (fun x => lty L x = End) hs /\
        Forall (quiet L) (skipn a hs)
    | PFin _ => True
    | PStuck _ => False
    end.

  (** A value of a payload type, with the ends inside it. *)
  Definition vtyped (L : links) (P : pty) (v : value) (c : list handle) : Prop :=
    match P, v with
    | PVal t, VData t' _ => t' = t /\ c = []
    | PChoice b j, VLabel b' l j' => b' = b /\ j' = j /\ l < labels b /\ mesh_ok L (fst (branch b l j)) c
    | _, _ => False
    end.

  Fixpoint qtyped (L : links) (t : sty) (q : list (value * list handle * sty)) : Prop :=
    match q with
    | [] => True
    | (v, c, nxt) :: q' => exists P, t = Rcv P nxt /\ vtyped L P v c /\ qtyped L nxt q'
    end.

  Definition queues_ok (L : links) : Prop :=
    forall m, m < lnext L -> qtyped L (l_ty (lk L m) (l_to (lk L m))) (l_q (lk L m)).

  (** ** Frames *)

  Lemma mesh_ok_frame : forall L L' U ss hs, mesh_ok L ss hs -> frame L L' U ->
    (forall y, In y hs -> live L y /\ ~ In y U) -> mesh_ok L' ss hs.
  Proof.
    intros L L' U ss hs (Hl & Hf & H2) F Hy. split; [exact Hl|]. split; [exact Hf|].
    clear Hl. revert ss H2 Hf Hy. induction hs as [|x hs IH]; intros ss H2 Hf Hy; inversion H2; subst; constructor.
    - inversion Hf; subst. destruct (Hy x (or_introl eq_refl)) as [G1 G2].
      destruct (F x) as [G3 G4]; auto. destruct H1 as [G5 G6]. split; [congruence|auto].
    - apply IH; [assumption|inversion Hf; assumption|intros z Hin; apply Hy; right; exact Hin].
  Qed.

  Lemma prog_ok_frame : forall L L' U p pr, prog_ok L p pr -> frame L L' U ->
    (forall y, In y (held pr) -> live L y /\ ~ In y U) -> prog_ok L' p pr.
  Proof.
    intros L L' U p pr H F Hy. destruct pr as [ss r hs|b l pend own|a r hs|res|hs]; cbn in *; auto.
    - eapply mesh_ok_frame; eauto.
    - destruct H as (Hl & Ho & Hp). split; [exact Hl|]. split.
      + eapply mesh_ok_frame; eauto. intros y Hin. apply Hy, in_or_app. right; exact Hin.
      + clear Ho. rewrite Forall_forall in *. intros [[q h] m] Hin. specialize (Hp _ Hin). cbn in Hp.
        destruct Hp as (H1 & H2 & H3 & H4).
        assert (Hsub : forall y, In y (h :: m) -> live L y /\ ~ In y U).
        { intros y Hz. apply Hy, in_or_app. left. apply in_flat_map. exists (q, h, m). auto. }
        destruct (Hsub h (or_introl eq_refl)) as [H5 H6]. destruct (F h H1 H5 H6) as [H7 H8].
        split; [exact H1|]. split; [congruence|]. split; [auto|].
        eapply mesh_ok_frame; eauto. intros y Hz. apply Hsub. right; exact Hz.
    - destruct H as (H1 & H2 & H3 & H4). split; [exact H1|]. split; [exact H2|].
      rewrite Forall_forall in H2, H3, H4. split; rewrite Forall_forall; intros y Hin.
      + destruct (Hy y Hin). destruct (F y) as [H7 H8]; auto. rewrite H7. auto.
      + assert (Hin' : In y hs) by (rewrite <- (firstn_skipn a hs); apply in_or_app; right; exact Hin).
        destruct (Hy y Hin'). destruct (F y) as [H7 H8]; auto.
  Qed.

  Lemma vtyped_frame : forall L L' U P v c, vtyped L P v c -> frame L L' U ->
    (forall y, In y c -> live L y /\ ~ In y U) -> vtyped L' P v c.
  Proof.
    intros L L' U P v c H F Hy. destruct P, v; cbn in *; auto.
    destruct H as (H1 & H2 & H3 & H4). repeat (split; [assumption|]). eapply mesh_ok_frame; eauto.
  Qed.

  Lemma qtyped_frame : forall L L' U q t, qtyped L t q -> frame L L' U ->
    (forall y, 0 < cntq y q -> live L y /\ ~ In y U) -> qtyped L' t q.
  Proof.
    intros L L' U. induction q as [|[[v c] nxt] q IH]; intros t H F Hy; cbn [qtyped] in *; [exact I|].
    destruct H as (P & -> & H1 & H2). exists P. split; [reflexivity|]. split.
    - eapply vtyped_frame; eauto. intros y Hin. apply Hy. rewrite cntq_cons. apply cnt_in in Hin. lia.
    - apply IH; auto. intros y Hin. apply Hy. rewrite cntq_cons. lia.
  Qed.

  Lemma qtyped_app : forall L q t v c P k, qtyped L t q -> tychain t q (Rcv P k) -> vtyped L P v c ->
    qtyped L t (q ++ [(v, c, k)]).
  Proof.
    intros L. induction q as [|[[v0 c0] nxt] q IH]; intros t v c P k H Ht Hv; cbn in *.
    - subst. exists P. auto.
    - destruct H as (P0 & -> & H1 & H2). exists P0. split; [reflexivity|]. split; [exact H1|].
      destruct Ht as [_ Ht]. apply (IH nxt v c P k); assumption.
  Qed.

  Lemma vtyped_full : forall L P v c y, vtyped L P v c -> In y c -> full y = true.
  Proof.
    intros L P v c y H Hin. destruct P, v; cbn in H; try contradiction.
    - destruct H as [_ ->]. contradiction.
    - destruct H as (_ & _ & _ & _ & Hf & _). rewrite Forall_forall in Hf. auto.
  Qed.

  Lemma queues_fullq : forall L, queues_ok L -> fullq L.
  Proof.
    intros L H y Hy. unfold inside in Hy.
    assert (Hm : exists m, m < lnext L /\ 0 < cntq y (l_q (lk L m))).
    { apply sum_to_pos in Hy. exact Hy. }
    destruct Hm as (m & Hm & Hc). specialize (H m Hm). revert H Hc.
    generalize (l_ty (lk L m) (l_to (lk L m))) as t. generalize (l_q (lk L m)) as q.
    induction q as [|[[v c] nxt] q IH]; intros t H Hc; [cbn in Hc; lia|].
    cbn in H. destruct H as (P & _ & Hv & Hq). rewrite cntq_cons in Hc.
    destruct (cnt y c) eqn:E.
    - eapply IH; eauto.
    - eapply vtyped_full; [exact Hv|]. apply cnt_in. lia.
  Qed.

  Lemma queues_set : forall L l k U xs, queues_ok L -> l < lnext L -> owns L (U ++ xs) ->
    frame L (set_link L l k) U ->
    qtyped (set_link L l k) (l_ty k (l_to k)) (l_q k) -> queues_ok (set_link L l k).
  Proof.
    intros L l k U xs Q Hl O F Hk m Hm. cbn [lnext set_link] in Hm.
    destruct (Nat.eq_dec m l) as [->|Hne]; [rewrite lk_set_same; exact Hk|].
    rewrite lk_set_other by exact Hne. eapply qtyped_frame; [apply Q, Hm|exact F|].
    intros y Hy. assert (Hi : 0 < inside y L) by (pose proof (inside_le y L m Hm); lia).
    destruct (owns_queued _ _ _ O Hi) as [H1 H2]. split; [exact H1|].
    intros Hin. apply H2, in_or_app. left; exact Hin.
  Qed.

  (** Queue of the same link, unchanged. *)
  Lemma queue_same : forall L l k U xs, queues_ok L -> l < lnext L -> owns L (U ++ xs) ->
    frame L (set_link L l k) U -> qtyped (set_link L l k) (l_ty (lk L l) (l_to (lk L l))) (l_q (lk L l)).
  Proof.
    intros L l k U xs Q Hl O F. eapply qtyped_frame; [apply Q, Hl|exact F|].
    intros y Hy. assert (Hi : 0 < inside y L) by (pose proof (inside_le y L l Hl); lia).
    destruct (owns_queued _ _ _ O Hi) as [H1 H2]. split; [exact H1|].
    intros Hin. apply H2, in_or_app. left; exact Hin.
  Qed.

  (** ** Operations *)

  Lemma frame_set : forall L l k U, (forall s, ~ In (l, s, true) U -> l_open (lk L l) s = true ->
      l_ty k s = l_ty (lk L l) s /\ (l_sig (lk L l) s = None -> l_sig k s = None)) ->
    frame L (set_link L l k) U.
  Proof.
    intros L l k U H [[m s] f] Hf [Hm Ho] Hn. cbn in Hf. subst f. unfold lty, quiet.
    destruct (Nat.eq_dec m l) as [->|Hne].
    - rewrite lk_set_same. apply H; assumption.
    - rewrite lk_set_other by exact Hne. auto.
  Qed.

  Lemma send_inv : forall l s v (c : list handle) P t L (xs : list handle), wf_links L -> queues_ok L ->
    owns L ((l, s, true) :: c ++ xs) -> lty L (l, s, true) = Snd P t -> vtyped L P v c ->
    match lk_send (l, s, true) v c t L with
    | SentOk y L' => y = (l, s, true) /\ wf_links L' /\ queues_ok L' /\ lnext L' = lnext L /\ bal L L' c [] /\
        frame L L' [(l, s, true)] /\ lty L' y = t /\ (quiet L y -> quiet L' y)
    | SentLost y lost L' => y = (l, s, true) /\ wf_links L' /\ queues_ok L' /\ lnext L' = lnext L /\
        bal L L' c lost /\ frame L L' [(l, s, true)] /\ lty L' y = t /\ (quiet L y -> quiet L' y) /\
        l_open (lk L l) (negb s) = false
    | _ => False
    end.
  Proof.
    intros l s v c P t L xs W Q O Ht Hv.
    assert (Hlv : live L (l, s, true)) by (eapply owns_live; [exact O|left; reflexivity]).
    pose proof (send_ok l s v c t L W Hlv) as HK. pose proof Hlv as [Hl Ho]. pose proof (W l Hl) as Wl.
    unfold lty in Ht. unfold lk_send in *. cbn [andb] in *.
    assert (Hsnd : is_snd (l_ty (lk L l) s) = true) by (rewrite Ht; reflexivity). rewrite Hsnd in *.
    destruct (l_open (lk L l) (negb s)) eqn:Eo.
    - destruct HK as (_ & W' & Hn & B). split; [reflexivity|]. split; [exact W'|].
      set (k := Link _ _ _ _ _ _) in *.
      assert (F : frame L (set_link L l k) [(l, s, true)]).
      { apply frame_set. intros s' Hn' _. unfold k. cbn [l_ty l_sig]. by_side s s'; [|auto].
        exfalso. apply Hn'. left; reflexivity. }
      assert (O1 : owns L ([(l, s, true)] ++ (c ++ xs))) by exact O.
      split; [|split; [exact Hn|split; [exact B|split; [exact F|]]]].
      + eapply queues_set; [exact Q|exact Hl|exact O1|exact F|].
        unfold k at 2 3 4. cbn [l_ty l_to l_q]. rewrite upd_neg.
        assert (Hty : qtyped (set_link L l k) (l_ty (lk L l) (negb s)) (l_q (lk L l)) /\
                      tychain (l_ty (lk L l) (negb s)) (l_q (lk L l)) (Rcv P (co t))).
        { destruct (bool_cases s (l_to (lk L l))) as [E|E].
          - pose proof (snd_not_behind _ _ Wl Hsnd E) as Hq. rewrite Hq.
            split; [exact I|]. cbn. rewrite (sync_dual _ s Wl Hq), Ht. reflexivity.
          - pose proof (queue_same L l k _ _ Q Hl O1 F) as Hq. rewrite E in Hq. split; [exact Hq|].
            pose proof (wf_ty _ Wl) as Hw. rewrite E, negb_involutive, Ht in Hw. exact Hw. }
        destruct Hty as [H1 H2]. eapply qtyped_app; [exact H1|exact H2|].
        eapply vtyped_frame; [exact Hv|exact F|]. intros y Hy. split.
        * eapply owns_live; [exact O|right; apply in_or_app; left; exact Hy].
        * intros [<-|[]]. pose proof (owns_once _ _ (l, s, true) O) as Hc.
          rewrite cnt_cons, cnt_self, cnt_app in Hc. apply cnt_in in Hy. lia.
      + split; [unfold lty; rewrite lk_set_same; unfold k; cbn [l_ty]; apply upd_same|].
        unfold quiet. rewrite lk_set_same. auto.
    - destruct HK as (_ & W' & Hn & B). split; [reflexivity|]. split; [exact W'|].
      set (k := Link _ _ _ _ _ _) in *.
      assert (F : frame L (set_link L l k) [(l, s, true)]).
      { apply frame_set. intros s' Hn' Ho'. unfold k. cbn [l_ty l_sig]. by_side s s'; [|congruence].
        exfalso. apply Hn'. left; reflexivity. }
      assert (O1 : owns L ([(l, s, true)] ++ (c ++ xs))) by exact O.
      split; [|split; [exact Hn|split; [exact B|split; [exact F|]]]].
      + eapply queues_set; [exact Q|exact Hl|exact O1|exact F|]. exact I.
      + split; [unfold lty; rewrite lk_set_same; unfold k; cbn [l_ty]; rewrite upd_neg'; apply upd_same|].
        split; [|reflexivity]. unfold quiet. rewrite lk_set_same. auto.
  Qed.

  (** Taking the first message. *)
  Lemma popped_inv : forall l s v c t P k L xs, wf_links L -> queues_ok L ->
    owns L ((l, s, true) :: xs) -> lty L (l, s, true) = Rcv P k -> pending (lk L l) s = Some (v, c, t) ->
    let L' := set_link L l (popped (lk L l) s t) in
    t = k /\ queues_ok L' /\ frame L L' [(l, s, true)] /\ lty L' (l, s, true) = k /\
    (quiet L (l, s, true) -> quiet L' (l, s, true)) /\ vtyped L' P v c.
  Proof.
    intros l s v c t P k L xs W Q O Ht Hp L'.
    assert (Hlv : live L (l, s, true)) by (eapply owns_live; [exact O|left; reflexivity]).
    pose proof Hlv as [Hl Ho]. unfold lty in Ht.
    apply pending_some in Hp. destruct Hp as [Hto Hq].
    pose proof (Q l Hl) as HQ. rewrite Hq, Hto in HQ. cbn [qtyped] in HQ. rewrite Ht in HQ.
    destruct HQ as (P' & E & Hv & Hrest). injection E as <- <-.
    assert (F : frame L L' [(l, s, true)]).
    { apply frame_set. intros s' Hn' _. cbn [popped l_ty l_sig]. by_side s s'; [|auto].
      exfalso. apply Hn'. left; reflexivity. }
    assert (Hin : forall y, 0 < cntq y (l_q (lk L l)) -> live L y /\ ~ In y [(l, s, true)]).
    { intros y Hy. assert (Hi : 0 < inside y L) by (pose proof (inside_le y L l Hl); lia).
      destruct (owns_queued _ _ _ O Hi) as [H1 H2]. split; [exact H1|].
      intros [<-|[]]. apply H2. left; reflexivity. }
    split; [reflexivity|]. split; [|split; [exact F|split; [|split]]].
    - eapply (queues_set L l _ [(l, s, true)] xs); [exact Q|exact Hl|exact O|exact F|].
      cbn [popped l_ty l_to l_q]. rewrite Hto, upd_same.
      eapply qtyped_frame; [exact Hrest|exact F|]. intros y Hy. apply Hin. rewrite Hq, cntq_cons. lia.
    - unfold L', lty. rewrite lk_set_same. cbn [popped l_ty]. apply upd_same.
    - unfold L', quiet. rewrite lk_set_same. auto.
    - eapply vtyped_frame; [exact Hv|exact F|]. intros y Hy. apply Hin. rewrite Hq, cntq_cons.
      apply cnt_in in Hy. lia.
  Qed.

  Lemma closed_inv : forall l s L xs, queues_ok L -> l < lnext L ->
    owns L ((l, s, true) :: xs) ->
    let L' := set_link L l (closed (lk L l) s) in queues_ok L' /\ frame L L' [].
  Proof.
    intros l s L xs Q Hl O L'.
    assert (F : frame L L' []) by (apply frame_set; intros s' _ _; auto).
    split; [|exact F].
    eapply (queues_set L l _ [] ((l, s, true) :: xs)); [exact Q|exact Hl|exact O|exact F|].
    cbn [closed l_ty l_to l_q].
    eapply (queue_same L l (closed (lk L l) s) [] ((l, s, true) :: xs)); [exact Q|exact Hl|exact O|exact F].
  Qed.

  Lemma recv_inv : forall l s P k L xs, wf_links L -> queues_ok L ->
    owns L ((l, s, true) :: xs) -> lty L (l, s, true) = Rcv P k ->
    match lk_recv (l, s, true) L with
    | Got v c y L' => y = (l, s, true) /\ wf_links L' /\ queues_ok L' /\ lnext L' = lnext L /\ bal L L' [] c /\
        frame L L' [(l, s, true)] /\ lty L' y = k /\ (quiet L y -> quiet L' y) /\ vtyped L' P v c /\
        (forall z, In z c -> 0 < inside z L) /\ pending (lk L l) s = Some (v, c, k)
    | GotErr L' => wf_links L' /\ queues_ok L' /\ lnext L' = lnext L /\ bal L L' (@cons handle (l, s, true) nil) [] /\
        frame L L' [] /\ l_open (lk L l) (negb s) = false /\ pending (lk L l) s = None
    | GotWait => l_open (lk L l) (negb s) = true /\ pending (lk L l) s = None
    | GotBad => False
    end.
  Proof.
    intros l s P k L xs W Q O Ht.
    assert (Hlv : live L (l, s, true)) by (eapply owns_live; [exact O|left; reflexivity]).
    pose proof (recv_ok l s L W Hlv) as HK. pose proof Hlv as [Hl Ho].
    pose proof Ht as Ht'. unfold lty in Ht'. unfold lk_recv in *. cbn [andb] in *.
    assert (Hrcv : is_rcv (l_ty (lk L l) s) = true) by (rewrite Ht'; reflexivity). rewrite Hrcv in *.
    destruct (pending (lk L l) s) as [[[v c] t]|] eqn:Ep.
    - destruct HK as (_ & W' & Hn & B).
      destruct (popped_inv l s v c t P k L xs W Q O Ht Ep) as (-> & Q' & F & H1 & H2 & H3).
      split; [reflexivity|]. repeat (split; [assumption|]). split; [|reflexivity].
      intros z Hz. pose proof (inside_le z L l Hl) as Hle. apply pending_some in Ep. destruct Ep as [_ Hq].
      rewrite Hq, cntq_cons in Hle. apply cnt_in in Hz. lia.
    - destruct (l_open (lk L l) (negb s)) eqn:Eo; [auto|].
      destruct HK as (W' & Hn & B). destruct (closed_inv l s L xs Q Hl O) as [Q' F].
      repeat (split; [assumption|]). auto.
  Qed.

  Lemma drop_inv : forall x L out L' xs, wf_links L -> queues_ok L -> owns L (x :: xs) ->
    lk_drop x L = (out, L') ->
    wf_links L' /\ queues_ok L' /\ lnext L' = lnext L /\ bal L L' [x] out /\ frame L L' [x].
  Proof.
    intros x L out L' xs W Q O H.
    assert (Hlv : live L x) by (eapply owns_live; [exact O|left; reflexivity]).
    destruct (drop_ok x L out L' W Hlv H) as (W' & Hn & B).
    split; [exact W'|]. cut (queues_ok L' /\ frame L L' [x]); [tauto|].
    destruct x as [[l s] f]. pose proof Hlv as [Hl Ho]. pose proof (W l Hl) as Wl. unfold lk_drop in H. destruct f.
    - destruct (is_fin (l_ty (lk L l) s)) eqn:Ef.
      + injection H as <- <-.
        assert (F : frame L (set_link L l (Link (l_ty (lk L l)) (l_q (lk L l)) (l_to (lk L l))
                     (upd (l_open (lk L l)) s false) (l_rx (lk L l)) (l_sig (lk L l)))) [(l, s, true)])
          by (apply frame_set; auto).
        split; [|exact F]. eapply (queues_set L l _ [(l, s, true)] xs); [exact Q|exact Hl|exact O|exact F|].
        cbn [l_ty l_to l_q]. eapply (queue_same L l _ [(l, s, true)] xs); [exact Q|exact Hl|exact O|exact F].
      + destruct (pending (lk L l) s) as [[[v c] t]|] eqn:Ep; injection H as <- <-.
        * assert (Hr : exists P k, lty L (l, s, true) = Rcv P k).
          { pose proof (wf_ty _ Wl) as Hw. apply pending_some in Ep. destruct Ep as [Hto Hq].
            rewrite Hq, Hto in Hw. cbn in Hw. destruct Hw as [Hw _]. unfold lty.
            destruct (l_ty (lk L l) s); try discriminate. eauto. }
          destruct Hr as (P & k & Hr).
          destruct (popped_inv l s v c t P k L xs W Q O Hr Ep) as (_ & Q' & F & _). auto.
        * destruct (closed_inv l s L xs Q Hl O) as [Q' F]. split; [exact Q'|].
          eapply frame_weaken; [exact F|intros y []].
    - injection H as <- <-.
      assert (F : frame L (set_link L l (Link (l_ty (lk L l)) (l_q (lk L l)) (l_to (lk L l))
                     (l_open (lk L l)) (upd (l_rx (lk L l)) s false) (upd (l_sig (lk L l)) (negb s) None)))
                    [(l, s, false)]).
      { apply frame_set. intros s' _ _. cbn [l_ty l_sig]. split; [reflexivity|]. intros Hs. by_side s s'; auto. }
      split; [|exact F]. eapply (queues_set L l _ [(l, s, false)] xs); [exact Q|exact Hl|exact O|exact F|].
      cbn [l_ty l_to l_q]. eapply (queue_same L l _ [(l, s, false)] xs); [exact Q|exact Hl|exact O|exact F].
  Qed.

  Lemma tell_inv : forall l s g L xs, wf_links L -> queues_ok L -> owns L ((l, s, true) :: xs) ->
    lty L (l, s, true) = End -> quiet L (l, s, true) ->
    match lk_tell (l, s, true) g L with
    | TellOk L' => wf_links L' /\ queues_ok L' /\ lnext L' = lnext L /\ bal L L' [] [] /\
        frame L L' [(l, s, true)] /\ lty L' (l, s, true) = End /\ l_rx (lk L l) (negb s) = true
    | TellErr => l_rx (lk L l) (negb s) = false
    | _ => False
    end.
  Proof.
    intros l s g L xs W Q O Ht Hq.
    assert (Hlv : live L (l, s, true)) by (eapply owns_live; [exact O|left; reflexivity]).
    pose proof (tell_ok l s g L W Hlv) as HK. pose proof Hlv as [Hl Ho].
    unfold lty in Ht. unfold quiet in Hq. unfold lk_tell in *. cbn [andb] in *. rewrite Ht in *. cbn [is_fin] in *.
    destruct (l_rx (lk L l) (negb s)) eqn:Er; [|reflexivity]. rewrite Hq in *.
    destruct HK as (W' & Hn & B).
    set (k := Link _ _ _ _ _ _) in *.
    assert (F : frame L (set_link L l k) [(l, s, true)]).
    { apply frame_set. intros s' Hn' _. unfold k. cbn [l_ty l_sig]. split; [reflexivity|].
      by_side s s'; [|auto]. exfalso. apply Hn'. left; reflexivity. }
    split; [exact W'|]. split.
    - eapply (queues_set L l _ [(l, s, true)] xs); [exact Q|exact Hl|exact O|exact F|].
      unfold k at 2 3 4. cbn [l_ty l_to l_q].
      eapply (queue_same L l k [(l, s, true)] xs); [exact Q|exact Hl|exact O|exact F].
    - repeat (split; [assumption|]). split; [|reflexivity]. unfold lty. rewrite lk_set_same. exact Ht.
  Qed.

  Lemma hear_inv : forall l s L xs, wf_links L -> queues_ok L -> owns L ((l, s, true) :: xs) ->
    lty L (l, s, true) = End ->
    match lk_hear (l, s, true) L with
    | Heard g L' => wf_links L' /\ queues_ok L' /\ lnext L' = lnext L /\ bal L L' [] [] /\
        frame L L' [] /\ l_sig (lk L l) (negb s) = Some g
    | HearErr => l_open (lk L l) (negb s) = false /\ l_sig (lk L l) (negb s) = None
    | HearWait => l_open (lk L l) (negb s) = true /\ l_sig (lk L l) (negb s) = None
    | HearBad => False
    end.
  Proof.
    intros l s L xs W Q O Ht.
    assert (Hlv : live L (l, s, true)) by (eapply owns_live; [exact O|left; reflexivity]).
    pose proof (hear_ok l s L W Hlv) as HK. pose proof Hlv as [Hl Ho].
    unfold lty in Ht. unfold lk_hear in *. cbn [andb] in *. rewrite Ht in *. cbn [is_fin] in *.
    destruct (l_sig (lk L l) (negb s)) as [g|] eqn:Es.
    2: { destruct (l_open (lk L l) (negb s)) eqn:Eo; auto. }
    destruct HK as (W' & Hn & B).
    set (k := Link _ _ _ _ _ _) in *.
    assert (F : frame L (set_link L l k) []).
    { apply frame_set. intros s' _ _. unfold k. cbn [l_ty l_sig]. split; [reflexivity|].
      intros Hs. by_side s s'; auto. }
    split; [exact W'|]. split.
    - eapply (queues_set L l _ [] ((l, s, true) :: xs)); [exact Q|exact Hl|exact O|exact F|].
      unfold k at 2 3 4. cbn [l_ty l_to l_q].
      eapply (queue_same L l k [] ((l, s, true) :: xs)); [exact Q|exact Hl|exact O|exact F].
    - repeat (split; [assumption|]). reflexivity.
  Qed.
End Typing.
