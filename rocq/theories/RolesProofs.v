(** Proofs about Roles.v. *)
From Coq Require Import List Arith Bool Lia.
From Verif Require Import Types Roles.
Import ListNotations.

(** What other code may do to the channels: create more, fill or empty them, drop ends. A dropped
    receiver never comes back. *)
Definition later (h h' : rheap) : Prop :=
  forall c ch, nth_error h c = Some ch ->
    exists ch', nth_error h' c = Some ch' /\ (rx_alive ch = false -> rx_alive ch' = false).

(** Ways of obtaining a stack value: either half of [new], and any continuation of an obtained one;
    other threads may act in between. *)
Inductive obtained : rval -> rheap -> Prop :=
| ob_new_here : forall t h v v' h', role_new t h = (v, v', h') -> obtained v h'
| ob_new_there : forall t h v v' h', role_new t h = (v, v', h') -> obtained v' h'
| ob_cont : forall v h v' h', obtained v h -> continuation v h = Returned v' h' -> obtained v' h'
| ob_left : forall v h v' h', obtained v h -> continuation_left v h = Returned v' h' -> obtained v' h'
| ob_right : forall v h v' h', obtained v h -> continuation_right v h = Returned v' h' -> obtained v' h'
| ob_later : forall v h h', obtained v h -> later h h' -> obtained v h'.

(** Shape of obtained values: the senders of a non-final role have lost their receiver. *)
Definition dead (h : rheap) (c : nat) : Prop :=
  exists ch, nth_error h c = Some ch /\ rx_alive ch = false.
Definition sane (v : rval) (h : rheap) : Prop :=
  match v with
  | VPair t _ _ => t = SEnd \/ t = SBroadcast
  | VOne t tx => dead h tx /\
      ((exists x r, t = SRole x r) \/ (exists x r, t = SRoleDual x r))
  | VTwo t tx1 tx2 => dead h tx1 /\ dead h tx2 /\
      ((exists x r1 r2, t = SToAll x r1 r2) \/ (exists x r1 r2, t = SAllTo x r1 r2))
  end.

Lemma dead_later : forall h h' c, later h h' -> dead h c -> dead h' c.
Proof.
  intros h h' c Hl (ch & Hn & Hd). destruct (Hl c ch Hn) as (ch' & Hn' & Hd').
  exists ch'. auto.
Qed.

Lemma sane_later : forall v h h', later h h' -> sane v h -> sane v h'.
Proof.
  intros v h h' Hl. destruct v; cbn; intuition (eauto using dead_later).
Qed.

Lemma later_app : forall h l, later h (h ++ l).
Proof.
  intros h l c ch H. exists ch. split; [|auto].
  rewrite nth_error_app1; [exact H|]. apply nth_error_Some. congruence.
Qed.

Lemma later_trans : forall a b c, later a b -> later b c -> later a c.
Proof.
  intros a b c H1 H2 x ch Hx. destruct (H1 x ch Hx) as (ch' & Hx' & Hd).
  destruct (H2 x ch' Hx') as (ch'' & Hx'' & Hd'). exists ch''. auto.
Qed.

Lemma role_new_spec : forall t h v v' h', role_new t h = (v, v', h') ->
  (exists l, h' = h ++ l) /\ rty v = t /\ rty v' = sdual t /\ sane v h' /\ sane v' h'.
Proof.
  intros t h v v' h' H.
  assert (Hd : forall l i, nth_error l i = Some chan_no_rx -> dead (h ++ l) (length h + i)).
  { intros l i Hi. exists chan_no_rx. split; [|reflexivity].
    rewrite nth_error_app2 by lia. replace (length h + i - length h) with i by lia. exact Hi. }
  assert (H0 := Hd [chan_no_rx; chan_no_rx] 0 eq_refl).
  assert (H1 := Hd [chan_no_rx; chan_no_rx] 1 eq_refl).
  assert (G0 := Hd [chan_no_rx; chan_no_rx; chan_no_rx; chan_no_rx] 0 eq_refl).
  assert (G1 := Hd [chan_no_rx; chan_no_rx; chan_no_rx; chan_no_rx] 1 eq_refl).
  assert (G2 := Hd [chan_no_rx; chan_no_rx; chan_no_rx; chan_no_rx] 2 eq_refl).
  assert (G3 := Hd [chan_no_rx; chan_no_rx; chan_no_rx; chan_no_rx] 3 eq_refl).
  replace (length h + 0) with (length h) in * by lia.
  replace (length h + 1) with (S (length h)) in * by lia.
  replace (length h + 2) with (S (S (length h))) in * by lia.
  replace (length h + 3) with (S (S (S (length h)))) in * by lia.
  clear Hd.
  destruct t; cbn in H; inversion H; subst; clear H; (split; [eexists; reflexivity|]);
    cbn; repeat split; eauto; try assumption.
Qed.

Lemma role_send_dead : forall tx h, dead h tx -> role_send tx h = Some h.
Proof.
  intros tx h (ch & Hn & Hd). unfold role_send. rewrite Hn, Hd. reflexivity.
Qed.

Lemma advance_spec : forall t tx h, dead h tx ->
  exists v l, advance t tx h = Returned v (h ++ l) /\ rty v = t /\ sane v (h ++ l).
Proof.
  intros t tx h Hd. unfold advance. destruct (role_new t h) as [[v v'] h1] eqn:E.
  destruct (role_new_spec _ _ _ _ _ E) as ((l & ->) & Hty & _ & Hs & _).
  rewrite role_send_dead by (eapply dead_later; [apply later_app|exact Hd]).
  exists v, l. auto.
Qed.

Lemma obtained_sane : forall v h, obtained v h -> sane v h.
Proof.
  induction 1 as [t h v v' h' E|t h v v' h' E|v h v' h' _ IH E|v h v' h' _ IH E|v h v' h' _ IH E|v h h' _ IH Hl].
  - apply role_new_spec in E. tauto.
  - apply role_new_spec in E. tauto.
  - destruct v as [|t tx|]; cbn in E; try discriminate.
    destruct IH as [Hd Hc].
    destruct t; try discriminate;
      (edestruct advance_spec as (w & l & Ha & _ & Hs); [exact Hd|]; rewrite Ha in E;
       inversion E; subst; exact Hs).
  - destruct v as [| |t tx1 tx2]; cbn in E; try discriminate.
    destruct IH as (Hd & Hd2 & Hc).
    destruct t; try discriminate;
      (edestruct advance_spec as (w & l & Ha & _ & Hs); [exact Hd|]; rewrite Ha in E;
       inversion E; subst; exact Hs).
  - destruct v as [| |t tx1 tx2]; cbn in E; try discriminate.
    destruct IH as (Hd & Hd2 & Hc).
    destruct t; try discriminate;
      (edestruct advance_spec as (w & l & Ha & _ & Hs); [exact Hd2|]; rewrite Ha in E;
       inversion E; subst; exact Hs).
  - eapply sane_later; eauto.
Qed.

Lemma continuation_spec : forall v h x r, obtained v h ->
  rty v = SRole x r \/ rty v = SRoleDual x r ->
  exists v' l, continuation v h = Returned v' (h ++ l) /\ rty v' = r.
Proof.
  intros v h x r Ho Ht. apply obtained_sane in Ho.
  destruct v as [t tx rx|t tx|t tx1 tx2]; cbn in Ht, Ho.
  - destruct Ho as [->| ->]; destruct Ht; discriminate.
  - destruct Ho as [Hd _].
    destruct Ht as [-> | ->]; cbn;
      destruct (advance_spec r tx h Hd) as (v' & l & Ha & Hty & _); eauto.
  - destruct Ho as (_ & _ & [(? & ? & ? & ->)|(? & ? & ? & ->)]); destruct Ht; discriminate.
Qed.

Lemma continuation_branch_spec : forall v h x r1 r2, obtained v h ->
  rty v = SToAll x r1 r2 \/ rty v = SAllTo x r1 r2 ->
  (exists v' l, continuation_left v h = Returned v' (h ++ l) /\ rty v' = r1) /\
  (exists v' l, continuation_right v h = Returned v' (h ++ l) /\ rty v' = r2).
Proof.
  intros v h x r1 r2 Ho Ht. apply obtained_sane in Ho.
  destruct v as [t tx rx|t tx|t tx1 tx2]; cbn in Ht, Ho.
  - destruct Ho as [->| ->]; destruct Ht; discriminate.
  - destruct Ho as [_ [(? & ? & ->)|(? & ? & ->)]]; destruct Ht; discriminate.
  - destruct Ho as (Hd1 & Hd2 & _).
    destruct (advance_spec r1 tx1 h Hd1) as (v1 & l1 & Ha1 & Hty1 & _).
    destruct (advance_spec r2 tx2 h Hd2) as (v2 & l2 & Ha2 & Hty2 & _).
    destruct Ht as [-> | ->]; cbn; split; eauto.
Qed.
