(** Specification store: sessions as two-sided links with a first-in first-out queue, instead of
    chains of one-shot channels. This file is part of the proofs (it models nothing of the code);
    Refine.v shows that the concrete heap of Session.v implements it. *)
From Coq Require Import List Arith Bool Lia.
From Verif Require Import Session.
Import ListNotations.

(** An end of a link: link number, side, and whether it is a full end or only the receiver of a
    half-dropped [End]. *)
Definition handle : Type := (nat * bool * bool)%type.

Definition handle_eq_dec : forall x y : handle, {x = y} + {x <> y}.
Proof. intros x y. repeat decide equality. Defined.

Record link := Link {
  l_ty : bool -> sty;                              (* what each side still has to do *)
  l_q : list (value * list handle * sty);          (* messages under way, oldest first *)
  l_to : bool;                                     (* the side they go to *)
  l_open : bool -> bool;                           (* end not dropped *)
  l_rx : bool -> bool;                             (* receiver of the End not dropped *)
  l_sig : bool -> option signal                    (* signal sent by this side, not yet read *)
}.

Record links := Links { lk : nat -> link; lnext : nat }.

Definition upd {A} (f : bool -> A) (s : bool) (x : A) : bool -> A :=
  fun s' => if Bool.eqb s' s then x else f s'.

Definition set_link (L : links) (l : nat) (k : link) : links :=
  Links (fun m => if Nat.eqb m l then k else lk L m) (lnext L).

Definition new_link (t : sty) : link :=
  Link (fun s => if s then t else co t) [] true (fun _ => true) (fun _ => true) (fun _ => None).

Definition no_link : link :=
  Link (fun _ => End) [] true (fun _ => false) (fun _ => false) (fun _ => None).
Definition empty_links : links := Links (fun _ => no_link) 0.

Definition lk_new (t : sty) (L : links) : handle * handle * links :=
  let l := lnext L in
  ((l, true, true), (l, false, true),
   Links (fun m => if Nat.eqb m l then new_link t else lk L m) (S l)).

Definition is_snd (s : sty) : bool := match s with Snd _ _ => true | _ => false end.
Definition is_rcv (s : sty) : bool := match s with Rcv _ _ => true | _ => false end.
Definition is_fin (s : sty) : bool := match s with End => true | _ => false end.

Definition lk_send (x : handle) (v : value) (carried : list handle) (t : sty) (L : links)
  : sent links handle :=
  let '(l, s, full) := x in
  let k := lk L l in
  if full && is_snd (l_ty k s) then
    if l_open k (negb s) then
      SentOk x (set_link L l
        (Link (upd (l_ty k) s t) (l_q k ++ [(v, carried, co t)]) (negb s) (l_open k) (l_rx k) (l_sig k)))
    else
      SentLost x (carried ++ [(l, negb s, true)]) (set_link L l
        (Link (upd (upd (l_ty k) s t) (negb s) (co t)) [] (negb s)
              (upd (l_open k) (negb s) true) (upd (l_rx k) (negb s) true) (l_sig k)))
  else SentBad.

(** The first message on its way to side s. *)
Definition pending (k : link) (s : bool) : option (value * list handle * sty) :=
  if Bool.eqb (l_to k) s then hd_error (l_q k) else None.

Definition popped (k : link) (s : bool) (t : sty) : link :=
  Link (upd (l_ty k) s t) (tl (l_q k)) (l_to k) (l_open k) (l_rx k) (l_sig k).

Definition closed (k : link) (s : bool) : link :=
  Link (l_ty k) (l_q k) (l_to k) (upd (l_open k) s false) (upd (l_rx k) s false) (l_sig k).

Definition lk_recv (x : handle) (L : links) : got links handle :=
  let '(l, s, full) := x in
  let k := lk L l in
  if full && is_rcv (l_ty k s) then
    match pending k s with
    | Some (v, carried, t) => Got v carried x (set_link L l (popped k s t))
    | None => if l_open k (negb s) then GotWait else GotErr (set_link L l (closed k s))
    end
  else GotBad.

Definition lk_drop (x : handle) (L : links) : list handle * links :=
  let '(l, s, full) := x in
  let k := lk L l in
  if full then
    if is_fin (l_ty k s) then
      ([(l, s, false)],
       set_link L l (Link (l_ty k) (l_q k) (l_to k) (upd (l_open k) s false) (l_rx k) (l_sig k)))
    else
      match pending k s with
      | Some (_, carried, t) => (carried ++ [x], set_link L l (popped k s t))
      | None => ([], set_link L l (closed k s))
      end
  else
    ([], set_link L l (Link (l_ty k) (l_q k) (l_to k) (l_open k) (upd (l_rx k) s false)
                            (upd (l_sig k) (negb s) None))).

Definition lk_tell (x : handle) (g : signal) (L : links) : told links :=
  let '(l, s, full) := x in
  let k := lk L l in
  if full && is_fin (l_ty k s) then
    if l_rx k (negb s) then
      match l_sig k s with
      | None => TellOk (set_link L l (Link (l_ty k) (l_q k) (l_to k) (l_open k) (l_rx k)
                                           (upd (l_sig k) s (Some g))))
      | Some _ => TellWait
      end
    else TellErr
  else TellBad.

Definition lk_hear (x : handle) (L : links) : heard links :=
  let '(l, s, full) := x in
  let k := lk L l in
  if full && is_fin (l_ty k s) then
    match l_sig k (negb s) with
    | Some g => Heard g (set_link L l (Link (l_ty k) (l_q k) (l_to k) (l_open k) (l_rx k)
                                            (upd (l_sig k) (negb s) None)))
    | None => if l_open k (negb s) then HearWait else HearErr
    end
  else HearBad.

Definition link_ops : ops links handle :=
  Ops links handle lk_new lk_send lk_recv lk_drop lk_tell lk_hear.

(** ** Accounting of ends *)

(** Occurrences of an end in a list. *)
Definition cnt (x : handle) (l : list handle) : nat := count_occ handle_eq_dec l x.

(** The number of places an end should be in. *)
Definition b2n (b : bool) : nat := if b then 1 else 0.
Definition avail (x : handle) (L : links) : nat :=
  let '(l, s, full) := x in
  if l <? lnext L then
    if full then b2n (l_open (lk L l) s) else b2n (negb (l_open (lk L l) s) && l_rx (lk L l) s)
  else 0.

(** Occurrences inside messages under way. *)
Definition cntq (x : handle) (q : list (value * list handle * sty)) : nat :=
  list_sum (map (fun '(_, c, _) => cnt x c) q).
Fixpoint sum_to (n : nat) (f : nat -> nat) : nat :=
  match n with 0 => 0 | S m => sum_to m f + f m end.
Definition inside (x : handle) (L : links) : nat := sum_to (lnext L) (fun l => cntq x (l_q (lk L l))).

Lemma sum_to_ext : forall n f g, (forall m, m < n -> f m = g m) -> sum_to n f = sum_to n g.
Proof.
  induction n as [|n IH]; intros f g H; [reflexivity|]. cbn. rewrite (IH f g), (H n); auto.
Qed.

Lemma sum_to_upd : forall n f g l, l < n -> (forall m, m <> l -> f m = g m) ->
  sum_to n f + g l = sum_to n g + f l.
Proof.
  induction n as [|n IH]; intros f g l Hl H; [lia|]. cbn.
  destruct (Nat.eq_dec l n) as [->|Hne].
  - rewrite (sum_to_ext n f g); [lia|]. intros m Hm. apply H. lia.
  - specialize (IH f g l ltac:(lia) H). rewrite (H n) by lia. lia.
Qed.

Lemma cntq_app : forall x a b, cntq x (a ++ b) = cntq x a + cntq x b.
Proof. intros. unfold cntq. rewrite map_app, list_sum_app. reflexivity. Qed.

Lemma cnt_app : forall x a b, cnt x (a ++ b) = cnt x a + cnt x b.
Proof. intros. unfold cnt. apply count_occ_app. Qed.

Lemma cnt_cons : forall x y l, cnt x (y :: l) = cnt x [y] + cnt x l.
Proof. intros. change (y :: l) with ([y] ++ l). apply cnt_app. Qed.

Lemma cnt_nil : forall x, cnt x [] = 0.
Proof. reflexivity. Qed.

Lemma cnt_self : forall x, cnt x [x] = 1.
Proof. intros. unfold cnt. cbn. destruct (handle_eq_dec x x); congruence. Qed.

Lemma cnt_other : forall x y, x <> y -> cnt x [y] = 0.
Proof. intros. unfold cnt. cbn. destruct (handle_eq_dec y x); congruence. Qed.

Lemma cnt_in : forall x l, 0 < cnt x l <-> In x l.
Proof.
  intros. unfold cnt. rewrite (count_occ_In handle_eq_dec). lia.
Qed.

Lemma upd_same : forall A (f : bool -> A) s x, upd f s x s = x.
Proof. intros. unfold upd. rewrite Bool.eqb_reflx. reflexivity. Qed.
Lemma upd_neg : forall A (f : bool -> A) s x, upd f s x (negb s) = f (negb s).
Proof. intros. unfold upd. destruct s; reflexivity. Qed.
Lemma upd_neg' : forall A (f : bool -> A) s x, upd f (negb s) x s = f s.
Proof. intros. unfold upd. destruct s; reflexivity. Qed.

Lemma lk_set_same : forall L l k, lk (set_link L l k) l = k.
Proof. intros. cbn. rewrite Nat.eqb_refl. reflexivity. Qed.
Lemma lk_set_other : forall L l k m, m <> l -> lk (set_link L l k) m = lk L m.
Proof. intros. cbn. destruct (Nat.eqb_spec m l); [contradiction|reflexivity]. Qed.

Lemma inside_set : forall x L l k, l < lnext L ->
  inside x (set_link L l k) + cntq x (l_q (lk L l)) = inside x L + cntq x (l_q k).
Proof.
  intros x L l k Hl. unfold inside. cbn [lnext set_link].
  pose proof (sum_to_upd (lnext L) (fun m => cntq x (l_q (lk (set_link L l k) m)))
                (fun m => cntq x (l_q (lk L m))) l Hl) as H.
  cbn beta in H. rewrite lk_set_same in H. apply H.
  intros m Hm. rewrite lk_set_other by exact Hm. reflexivity.
Qed.

(** Conservation: ends consumed, produced, available and inside messages, for every operation.
    [bal L L' used made]: the ends in [used] have gone from the caller and those in [made] have come. *)
Definition bal (L L' : links) (used made : list handle) : Prop :=
  forall x, avail x L' + inside x L + cnt x used = avail x L + inside x L' + cnt x made.

Lemma avail_set : forall x L l k, l < lnext L ->
  avail x (set_link L l k) =
    let '(m, s, full) := x in
    if m =? l then (if full then b2n (l_open k s) else b2n (negb (l_open k s) && l_rx k s))
    else avail x L.
Proof.
  intros [[m s] full] L l k Hl. unfold avail. cbn [lnext set_link lk].
  destruct (Nat.eqb_spec m l) as [->|Hne]; [|reflexivity].
  destruct (Nat.ltb_spec l (lnext L)); [reflexivity|lia].
Qed.

(** The types at the two sides agree up to the messages under way. *)
Fixpoint tychain (t : sty) (q : list (value * list handle * sty)) (t' : sty) : Prop :=
  match q with
  | [] => t = t'
  | (_, _, nxt) :: rest => is_rcv t = true /\ tychain nxt rest t'
  end.

Record wf_link (k : link) : Prop := WF {
  wf_q : l_open k (l_to k) = false -> l_q k = [];
  wf_rx : forall s, l_open k s = true -> l_rx k s = true;
  wf_data : forall s, l_ty k s <> End -> l_rx k s = l_open k s;
  wf_sig : forall s, l_sig k s <> None -> l_ty k s = End;
  wf_ty : tychain (l_ty k (l_to k)) (l_q k) (co (l_ty k (negb (l_to k))))
}.

Definition wf_links (L : links) : Prop := forall l, l < lnext L -> wf_link (lk L l).

(** The end exists. *)
Definition live (L : links) (x : handle) : Prop :=
  let '(l, s, full) := x in
  l < lnext L /\
  if full then l_open (lk L l) s = true
  else l_open (lk L l) s = false /\ l_rx (lk L l) s = true.
