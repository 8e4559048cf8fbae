(** Invariants of the specification store: types and accounting of ends. *)
From Coq Require Import List Arith Bool Lia.
From Verif Require Import Session Links.
Import ListNotations.

Lemma co_co : forall s, co (co s) = s.
Proof. induction s; cbn; congruence. Qed.

Lemma co_snd : forall s, is_rcv (co s) = is_snd s.
Proof. destruct s; reflexivity. Qed.
Lemma co_rcv : forall s, is_snd (co s) = is_rcv s.
Proof. destruct s; reflexivity. Qed.

Lemma tychain_app : forall q t t' m, tychain t q t' -> is_rcv t' = true ->
  tychain t (q ++ [m]) (snd m).
Proof.
  induction q as [|[[v c] x] q IH]; intros t t' [[v' c'] x'] H Hr; cbn in *.
  - subst. auto.
  - destruct H as [H1 H2]. split; [exact H1|]. apply (IH x t' (v', c', x')); assumption.
Qed.

Lemma snd_neq_end : forall s, is_snd s = true -> s <> End.
Proof. intros s H ->. discriminate. Qed.
Lemma rcv_neq_end : forall s, is_rcv s = true -> s <> End.
Proof. intros s H ->. discriminate. Qed.
Lemma fin_end : forall s, is_fin s = true -> s = End.
Proof. intros [| |]; (reflexivity || discriminate). Qed.
Lemma fin_not_end : forall s, is_fin s = false -> s <> End.
Proof. intros s H ->. discriminate. Qed.

(** A side that has to send is not behind. *)
Lemma snd_not_behind : forall k s, wf_link k -> is_snd (l_ty k s) = true -> l_to k = s -> l_q k = [].
Proof.
  intros k s W Hs <-. pose proof (wf_ty k W) as H. destruct (l_q k) as [|[[v c] t] q]; [reflexivity|].
  cbn in H. destruct H as [H _]. destruct (l_ty k (l_to k)); discriminate.
Qed.

Lemma fin_not_behind : forall k s, wf_link k -> l_ty k s = End -> l_to k = s -> l_q k = [].
Proof.
  intros k s W Hs <-. pose proof (wf_ty k W) as H. destruct (l_q k) as [|[[v c] t] q]; [reflexivity|].
  cbn in H. destruct H as [H _]. rewrite Hs in H. discriminate.
Qed.

(** With nothing under way the two types are dual. *)
Lemma sync_dual : forall k s, wf_link k -> l_q k = [] -> l_ty k (negb s) = co (l_ty k s).
Proof.
  intros k s W Hq. pose proof (wf_ty k W) as H. rewrite Hq in H. cbn in H.
  destruct s, (l_to k); cbn in *; rewrite H, ?co_co; reflexivity.
Qed.

Lemma pending_some : forall k s m, pending k s = Some m -> l_to k = s /\ l_q k = m :: tl (l_q k).
Proof.
  intros k s m H. unfold pending in H. destruct (Bool.eqb (l_to k) s) eqn:E; [|discriminate].
  apply Bool.eqb_prop in E. split; [exact E|]. destruct (l_q k); [discriminate|]. inversion H. reflexivity.
Qed.

Lemma pending_none : forall k s, pending k s = None -> l_to k = s -> l_q k = [].
Proof.
  intros k s H <-. unfold pending in H. rewrite Bool.eqb_reflx in H.
  destruct (l_q k); [reflexivity|discriminate].
Qed.

Lemma wf_new_link : forall t, wf_link (new_link t).
Proof.
  intros t. constructor; cbn; auto; try discriminate.
  - intros s H. contradiction.
  - rewrite co_co. reflexivity.
Qed.

Lemma side_neq : forall (l : nat) s (f f' : bool), (l, negb s, f) <> (l, s, f').
Proof. intros l [] f f' H; discriminate. Qed.
Lemma side_neq' : forall (l : nat) s (f f' : bool), (l, s, f) <> (l, negb s, f').
Proof. intros l [] f f' H; discriminate. Qed.

Lemma bool_cases : forall (s t : bool), t = s \/ t = negb s.
Proof. intros [] []; auto. Qed.

Ltac by_side s s' := destruct (bool_cases s s') as [-> | ->];
  rewrite ?upd_same, ?upd_neg, ?upd_neg' in *.

Lemma wf_sent : forall k s v c t, wf_link k -> is_snd (l_ty k s) = true -> l_open k (negb s) = true ->
  wf_link (Link (upd (l_ty k) s t) (l_q k ++ [(v, c, co t)]) (negb s) (l_open k) (l_rx k) (l_sig k)).
Proof.
  intros k s v c t W Hs Ho. constructor; cbn [l_ty l_q l_to l_open l_rx l_sig].
  - congruence.
  - apply W.
  - intros s' H. by_side s s'; [|apply W; assumption]. apply W. apply snd_neq_end, Hs.
  - intros s' H. apply W in H. by_side s s'; [|assumption]. rewrite H in Hs. discriminate.
  - rewrite negb_involutive, upd_same, upd_neg.
    change (co t) with (snd (v, c, co t)) at 2.
    destruct (bool_cases s (l_to k)) as [E|E].
    + rewrite (snd_not_behind k s W Hs E). cbn.
      rewrite (sync_dual k s W (snd_not_behind k s W Hs E)), co_snd. auto.
    + pose proof (wf_ty k W) as H. rewrite E, negb_involutive in H.
      eapply tychain_app; [exact H|]. rewrite co_snd. exact Hs.
Qed.

Lemma wf_lost : forall k s t, wf_link k -> is_snd (l_ty k s) = true -> l_open k (negb s) = false ->
  wf_link (Link (upd (upd (l_ty k) s t) (negb s) (co t)) [] (negb s)
              (upd (l_open k) (negb s) true) (upd (l_rx k) (negb s) true) (l_sig k)) /\ l_q k = [].
Proof.
  intros k s t W Hs Ho.
  assert (Hq : l_q k = []).
  { destruct (bool_cases s (l_to k)) as [E|E]; [eapply snd_not_behind; eauto|].
    apply W. rewrite E. exact Ho. }
  assert (Hd : l_ty k (negb s) = co (l_ty k s)) by (apply sync_dual; assumption).
  split; [|exact Hq]. constructor; cbn [l_ty l_q l_to l_open l_rx l_sig].
  - reflexivity.
  - intros s' H. by_side s s'; [apply W; assumption|reflexivity].
  - intros s' H. by_side s s'; [apply W; apply snd_neq_end, Hs|reflexivity].
  - intros s' H. apply W in H. exfalso. destruct (bool_cases s s') as [-> | ->].
    + rewrite H in Hs. discriminate.
    + rewrite Hd in H. destruct (l_ty k s); discriminate.
  - cbn. rewrite negb_involutive, upd_same, upd_neg', upd_same. reflexivity.
Qed.

Lemma wf_popped : forall k s v c t, wf_link k -> pending k s = Some (v, c, t) -> wf_link (popped k s t).
Proof.
  intros k s v c t W H. apply pending_some in H. destruct H as [<- Hq].
  pose proof (wf_ty k W) as Ht. rewrite Hq in Ht. cbn in Ht. destruct Ht as [Hr Ht].
  constructor; cbn [l_ty l_q l_to l_open l_rx l_sig popped].
  - intros H. apply W in H. rewrite H. reflexivity.
  - apply W.
  - intros s' H. by_side (l_to k) s'; [|apply W; assumption]. apply W, rcv_neq_end, Hr.
  - intros s' H. apply W in H. by_side (l_to k) s'; [|assumption]. rewrite H in Hr. discriminate.
  - rewrite upd_same, upd_neg. exact Ht.
Qed.

Lemma wf_closed : forall k s, wf_link k -> pending k s = None -> wf_link (closed k s).
Proof.
  intros k s W H. constructor; cbn [l_ty l_q l_to l_open l_rx l_sig closed].
  - intros Ho. destruct (bool_cases s (l_to k)) as [E|E]; [apply pending_none with s; assumption|].
    rewrite E, upd_neg, <- E in Ho. apply W, Ho.
  - intros s' H'. by_side s s'; [discriminate|apply W; assumption].
  - intros s' H'. by_side s s'; [reflexivity|apply W; assumption].
  - apply W.
  - apply W.
Qed.

Lemma wf_drop_end : forall k s, wf_link k -> l_ty k s = End ->
  wf_link (Link (l_ty k) (l_q k) (l_to k) (upd (l_open k) s false) (l_rx k) (l_sig k)).
Proof.
  intros k s W H. constructor; cbn [l_ty l_q l_to l_open l_rx l_sig].
  - intros Ho. destruct (bool_cases s (l_to k)) as [E|E]; [eapply fin_not_behind; eauto|].
    rewrite E, upd_neg, <- E in Ho. apply W, Ho.
  - intros s' H'. by_side s s'; [discriminate|apply W; assumption].
  - intros s' H'. by_side s s'; [contradiction|apply W; assumption].
  - apply W.
  - apply W.
Qed.

Lemma half_end : forall k s, wf_link k -> l_open k s = false -> l_rx k s = true -> l_ty k s = End.
Proof.
  intros k s W Ho Hr. destruct (l_ty k s) eqn:E; [reflexivity| |];
    assert (l_rx k s = l_open k s) by (apply W; rewrite E; discriminate); congruence.
Qed.

Lemma wf_half : forall k s, wf_link k -> l_open k s = false -> l_rx k s = true ->
  wf_link (Link (l_ty k) (l_q k) (l_to k) (l_open k) (upd (l_rx k) s false)
             (upd (l_sig k) (negb s) None)).
Proof.
  intros k s W Ho Hr. constructor; cbn [l_ty l_q l_to l_open l_rx l_sig].
  - apply W.
  - intros s' H'. by_side s s'; [congruence|apply W; assumption].
  - intros s' H'. by_side s s'; [|apply W; assumption]. symmetry. exact Ho.
  - intros s' H'. by_side s s'; [|congruence]. apply W. exact H'.
  - apply W.
Qed.

Lemma wf_sig_set : forall k s g, wf_link k -> (g <> None -> l_ty k s = End) ->
  wf_link (Link (l_ty k) (l_q k) (l_to k) (l_open k) (l_rx k) (upd (l_sig k) s g)).
Proof.
  intros k s g W H. constructor; cbn [l_ty l_q l_to l_open l_rx l_sig]; try apply W.
  intros s' H'. by_side s s'; [auto|apply W; exact H'].
Qed.

Lemma wf_set : forall L l k, wf_links L -> wf_link k -> wf_links (set_link L l k).
Proof.
  intros L l k W H m Hm. cbn [lk set_link lnext] in *. destruct (m =? l); [exact H|apply W, Hm].
Qed.

(** ** Every operation keeps links well formed and conserves ends *)

Ltac bal_tac :=
  let y := fresh "y" in
  intros y; rewrite avail_set by assumption;
  match goal with |- context [inside y (set_link ?L ?l ?k)] =>
    pose proof (inside_set y L l k ltac:(assumption)) end.

Lemma avail_at : forall L l s full, l < lnext L ->
  avail (l, s, full) L =
    if full then b2n (l_open (lk L l) s) else b2n (negb (l_open (lk L l) s) && l_rx (lk L l) s).
Proof.
  intros L l s full H. unfold avail. destruct (Nat.ltb_spec l (lnext L)); [reflexivity|lia].
Qed.

Lemma cntq_cons : forall x v c t q, cntq x ((v, c, t) :: q) = cnt x c + cntq x q.
Proof. reflexivity. Qed.
Lemma cntq_nil : forall x, cntq x [] = 0.
Proof. reflexivity. Qed.

Lemma set_next : forall L l k, lnext (set_link L l k) = lnext L.
Proof. reflexivity. Qed.

Lemma new_ok : forall t L a b L', lk_new t L = (a, b, L') -> wf_links L ->
  wf_links L' /\ lnext L' = S (lnext L) /\ bal L L' [] [a; b].
Proof.
  intros t L a b L' H W. unfold lk_new in H. inversion H; subst. split; [|split; [reflexivity|]].
  - intros m Hm. cbn [lk lnext] in *. destruct (Nat.eqb_spec m (lnext L)); [apply wf_new_link|].
    apply W. lia.
  - intros [[m s] full]. unfold inside. cbn [lnext lk sum_to].
    rewrite Nat.eqb_refl. cbn [new_link l_q cntq map list_sum fold_right].
    rewrite (sum_to_ext (lnext L) (fun l => cntq (m, s, full) (l_q (if l =? lnext L then new_link t else lk L l)))
               (fun l => cntq (m, s, full) (l_q (lk L l)))).
    2: { intros l Hl. destruct (Nat.eqb_spec l (lnext L)); [lia|reflexivity]. }
    unfold avail. cbn [lnext lk].
    rewrite (cnt_cons _ _ [(lnext L, false, true)]).
    destruct (Nat.eqb_spec m (lnext L)) as [->|Hne].
    + destruct (Nat.ltb_spec (lnext L) (S (lnext L))); [|lia].
      destruct (Nat.ltb_spec (lnext L) (lnext L)); [lia|].
      cbn [new_link l_open l_rx negb andb b2n].
      destruct s, full; rewrite ?cnt_nil; repeat (rewrite cnt_self || rewrite cnt_other by congruence); cbn [b2n negb andb]; lia.
    + rewrite !cnt_other by congruence.
      destruct (Nat.ltb_spec m (lnext L)), (Nat.ltb_spec m (S (lnext L))); rewrite ?cnt_nil; lia.
Qed.

Lemma send_ok : forall l s v c t L, wf_links L -> live L (l, s, true) ->
  match lk_send (l, s, true) v c t L with
  | SentOk x' L' => x' = (l, s, true) /\ wf_links L' /\ lnext L' = lnext L /\ bal L L' c []
  | SentLost x' lost L' => x' = (l, s, true) /\ wf_links L' /\ lnext L' = lnext L /\ bal L L' c lost
  | SentWait => False
  | SentBad => is_snd (l_ty (lk L l) s) = false
  end.
Proof.
  intros l s v c t L W [Hl Ho]. unfold lk_send. pose proof (W l Hl) as Wl. cbn [andb].
  destruct (is_snd (l_ty (lk L l) s)) eqn:Es; [|reflexivity].
  destruct (l_open (lk L l) (negb s)) eqn:Eo.
  - split; [reflexivity|]. split; [apply wf_set; [exact W|apply wf_sent; assumption]|]. split; [reflexivity|].
    bal_tac. destruct y as [[m s'] full]. cbn [l_open l_rx l_q] in *. rewrite cntq_app, cntq_cons, cntq_nil in H.
    rewrite cnt_nil.
    destruct (Nat.eqb_spec m l) as [->|Hne]; [rewrite avail_at by assumption|]; lia.
  - destruct (wf_lost (lk L l) s t Wl Es Eo) as [Wk Hq].
    split; [reflexivity|]. split; [apply wf_set; assumption|]. split; [reflexivity|].
    bal_tac. destruct y as [[m s'] full]. cbn [l_open l_rx l_q] in *. rewrite Hq, cntq_nil in H.
    rewrite cnt_app.
    destruct (Nat.eqb_spec m l) as [->|Hne].
    + rewrite avail_at by assumption. by_side s s'.
      * rewrite cnt_other by (apply side_neq || apply side_neq'). lia.
      * assert (Hrx : l_rx (lk L l) (negb s) = false).
        { rewrite <- Eo. apply Wl. rewrite (sync_dual _ s Wl Hq). intros E.
          destruct (l_ty (lk L l) s); discriminate. }
        rewrite Eo, Hrx. destruct full; [rewrite cnt_self|rewrite cnt_other by congruence]; cbn [b2n negb andb]; lia.
    + rewrite cnt_other by congruence. lia.
Qed.

Lemma popped_bal : forall L l s v c t, wf_links L -> l < lnext L -> pending (lk L l) s = Some (v, c, t) ->
  bal L (set_link L l (popped (lk L l) s t)) [] c.
Proof.
  intros L l s v c t W Hl H. apply pending_some in H. destruct H as [_ Hq].
  bal_tac. rewrite Hq, cntq_cons in H. destruct y as [[m s'] full].
  cbn [l_open l_rx l_q popped] in *. rewrite cnt_nil. rewrite Hq in H. cbn [tl] in H.
  destruct (Nat.eqb_spec m l) as [->|Hne]; [rewrite avail_at by assumption|]; lia.
Qed.

Lemma closed_bal : forall L l s, wf_links L -> live L (l, s, true) ->
  l_ty (lk L l) s <> End -> bal L (set_link L l (closed (lk L l) s)) [(l, s, true)] [].
Proof.
  intros L l s W [Hl Ho] He.
  bal_tac. destruct y as [[m s'] full]. cbn [l_open l_rx l_q closed] in *. rewrite cnt_nil.
  destruct (Nat.eqb_spec m l) as [->|Hne].
  - rewrite avail_at by assumption. by_side s s'.
    + rewrite Ho. destruct full; [rewrite cnt_self|rewrite cnt_other by congruence]; cbn [b2n negb andb]; lia.
    + rewrite cnt_other by (apply side_neq || apply side_neq'). lia.
  - rewrite cnt_other by congruence. lia.
Qed.

Lemma recv_ok : forall l s L, wf_links L -> live L (l, s, true) ->
  match lk_recv (l, s, true) L with
  | Got v c x' L' => x' = (l, s, true) /\ wf_links L' /\ lnext L' = lnext L /\ bal L L' [] c
  | GotErr L' => wf_links L' /\ lnext L' = lnext L /\ bal L L' [(l, s, true)] []
  | GotWait => True
  | GotBad => is_rcv (l_ty (lk L l) s) = false
  end.
Proof.
  intros l s L W Hlv. pose proof Hlv as [Hl Ho]. unfold lk_recv. pose proof (W l Hl) as Wl. cbn [andb].
  destruct (is_rcv (l_ty (lk L l) s)) eqn:Es; [|reflexivity].
  destruct (pending (lk L l) s) as [[[v c] t]|] eqn:Ep.
  - split; [reflexivity|]. split; [apply wf_set; [exact W|eapply wf_popped; eauto]|].
    split; [reflexivity|]. eapply popped_bal; eauto.
  - destruct (l_open (lk L l) (negb s)) eqn:Eo; [exact I|].
    split; [apply wf_set; [exact W|apply wf_closed; assumption]|]. split; [reflexivity|].
    apply closed_bal; [exact W|exact Hlv|]. apply rcv_neq_end, Es.
Qed.

Lemma drop_ok : forall x L out L', wf_links L -> live L x -> lk_drop x L = (out, L') ->
  wf_links L' /\ lnext L' = lnext L /\ bal L L' [x] out.
Proof.
  intros [[l s] full] L out L' W Hlv H. pose proof Hlv as [Hl Ho]. pose proof (W l Hl) as Wl.
  unfold lk_drop in H. destruct full.
  - destruct (is_fin (l_ty (lk L l) s)) eqn:Ef.
    + inversion H; subst. apply fin_end in Ef.
      split; [apply wf_set; [exact W|apply wf_drop_end; assumption]|]. split; [reflexivity|].
      assert (Hrx : l_rx (lk L l) s = true) by (apply Wl, Ho).
      bal_tac. destruct y as [[m s'] full]. cbn [l_open l_rx l_q] in *.
      destruct (Nat.eqb_spec m l) as [->|Hne].
      * rewrite avail_at by assumption. by_side s s'.
        -- rewrite Ho, Hrx. destruct full; rewrite ?cnt_self, ?cnt_other by congruence; cbn [b2n negb andb]; lia.
        -- rewrite !cnt_other by (apply side_neq || apply side_neq'). lia.
      * rewrite !cnt_other by congruence. lia.
    + apply fin_not_end in Ef. destruct (pending (lk L l) s) as [[[v c] t]|] eqn:Ep; inversion H; subst.
      * split; [apply wf_set; [exact W|eapply wf_popped; eauto]|]. split; [reflexivity|].
        pose proof (popped_bal L l s v c t W Hl Ep) as Hb. intros y. specialize (Hb y).
        rewrite cnt_nil in Hb. rewrite cnt_app. lia.
      * split; [apply wf_set; [exact W|apply wf_closed; assumption]|]. split; [reflexivity|].
        apply closed_bal; assumption.
  - destruct Ho as [Ho Hr]. inversion H; subst.
    split; [apply wf_set; [exact W|apply wf_half; assumption]|]. split; [reflexivity|].
    bal_tac. destruct y as [[m s'] full]. cbn [l_open l_rx l_q] in *. rewrite cnt_nil.
    destruct (Nat.eqb_spec m l) as [->|Hne].
    + rewrite avail_at by assumption. by_side s s'.
      * rewrite Ho, Hr. destruct full; rewrite ?cnt_self, ?cnt_other by congruence; cbn [b2n negb andb]; lia.
      * rewrite !cnt_other by (apply side_neq || apply side_neq'). lia.
    + rewrite !cnt_other by congruence. lia.
Qed.

Lemma tell_ok : forall l s g L, wf_links L -> live L (l, s, true) ->
  match lk_tell (l, s, true) g L with
  | TellOk L' => wf_links L' /\ lnext L' = lnext L /\ bal L L' [] []
  | TellBad => is_fin (l_ty (lk L l) s) = false
  | _ => True
  end.
Proof.
  intros l s g L W [Hl Ho]. unfold lk_tell. pose proof (W l Hl) as Wl. cbn [andb].
  destruct (is_fin (l_ty (lk L l) s)) eqn:Ef; [|reflexivity].
  destruct (l_rx (lk L l) (negb s)); [|exact I]. destruct (l_sig (lk L l) s); [exact I|].
  split; [apply wf_set; [exact W|apply wf_sig_set; [exact Wl|intros _; apply fin_end, Ef]]|].
  split; [reflexivity|]. bal_tac. destruct y as [[m s'] full]. cbn [l_open l_rx l_q] in *. rewrite cnt_nil.
  destruct (Nat.eqb_spec m l) as [->|Hne]; [rewrite avail_at by assumption|]; lia.
Qed.

Lemma hear_ok : forall l s L, wf_links L -> live L (l, s, true) ->
  match lk_hear (l, s, true) L with
  | Heard g L' => wf_links L' /\ lnext L' = lnext L /\ bal L L' [] []
  | HearBad => is_fin (l_ty (lk L l) s) = false
  | _ => True
  end.
Proof.
  intros l s L W [Hl Ho]. unfold lk_hear. pose proof (W l Hl) as Wl. cbn [andb].
  destruct (is_fin (l_ty (lk L l) s)) eqn:Ef; [|reflexivity].
  destruct (l_sig (lk L l) (negb s)) as [g|] eqn:Eg.
  2: { destruct (l_open (lk L l) (negb s)); exact I. }
  split; [apply wf_set; [exact W|apply wf_sig_set; [exact Wl|congruence]]|].
  split; [reflexivity|]. bal_tac. destruct y as [[m s'] full]. cbn [l_open l_rx l_q] in *. rewrite cnt_nil.
  destruct (Nat.eqb_spec m l) as [->|Hne]; [rewrite avail_at by assumption|]; lia.
Qed.
