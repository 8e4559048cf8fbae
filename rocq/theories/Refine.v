(** The concrete heap of Session.v implements the specification store of Links.v: every operation
    gives corresponding results and related stores. *)
From Coq Require Import List Arith Bool Lia.
From Verif Require Import Session Links LinksProofs.
Import ListNotations.

(** The concrete end of a handle, given the concrete ends of all full handles. *)
Definition beta (e : nat -> bool -> ep) (x : handle) : ep :=
  let '(l, s, full) := x in
  if full then e l s else match e l s with EEnd _ r => ERx r | y => y end.

(** The messages under way as a chain of one-place channels, from [a] to [b]; [cs] lists the channels. *)
Fixpoint chain (h : heap) (B : handle -> ep) (a : ep) (q : list (value * list handle * sty)) (b : ep)
         (cs : list nat) : Prop :=
  match q with
  | [] => a = b /\ cs = []
  | (v, c, _) :: q' =>
      exists ch k cs', a = ERx ch /\ cs = ch :: cs' /\
        cells h ch = Cell (Some (Msg v (map B c) k)) false true /\ chain h B k q' b cs'
  end.

(** The channel(s) after the last message: [ea] is the end of side a, [eb] its counterpart. *)
Definition tail_ok (h : heap) (k : link) (a : bool) (ea eb : ep) (cs : list nat) : Prop :=
  match l_ty k a with
  | Snd _ _ => exists c, ea = ETx c /\ eb = ERx c /\ cs = [c] /\
      cells h c = Cell None (l_open k a) (l_open k (negb a))
  | Rcv _ _ => exists c, ea = ERx c /\ eb = ETx c /\ cs = [c] /\
      cells h c = Cell None (l_open k (negb a)) (l_open k a)
  | End => exists x y, ea = EEnd x y /\ eb = EEnd y x /\ cs = [x; y] /\
      cells h x = Cell (option_map Sig (l_sig k a)) (l_open k a) (l_rx k (negb a)) /\
      cells h y = Cell (option_map Sig (l_sig k (negb a))) (l_open k (negb a)) (l_rx k a)
  end.

(** Side a is ahead: all messages under way go to the other side. *)
Definition ahead (h : heap) (B : handle -> ep) (ea eb : ep) (k : link) (a : bool) (cs : list nat) : Prop :=
  exists et cs1 cs2, cs = cs1 ++ cs2 /\ NoDup cs /\
    chain h B eb (l_q k) et cs1 /\ tail_ok h k a ea et cs2.

Definition Rel (e : nat -> bool -> ep) (own : nat -> nat) (h : heap) (L : links) : Prop :=
  forall l, l < lnext L -> exists cs,
    ahead h (beta e) (e l (negb (l_to (lk L l)))) (e l (l_to (lk L l))) (lk L l)
          (negb (l_to (lk L l))) cs /\
    forall c, In c cs -> own c = l /\ c < hnext h.

Definition upd_e (e : nat -> bool -> ep) (l : nat) (s : bool) (x : ep) : nat -> bool -> ep :=
  fun m t => if (m =? l) && Bool.eqb t s then x else e m t.

Lemma upd_e_same : forall e l s x, upd_e e l s x l s = x.
Proof. intros. unfold upd_e. rewrite Nat.eqb_refl, Bool.eqb_reflx. reflexivity. Qed.
Lemma upd_e_neg : forall e l s x, upd_e e l s x l (negb s) = e l (negb s).
Proof. intros. unfold upd_e. destruct s; rewrite Nat.eqb_refl; reflexivity. Qed.
Lemma upd_e_neg' : forall e l s x, upd_e e l (negb s) x l s = e l s.
Proof. intros. unfold upd_e. destruct s; rewrite Nat.eqb_refl; reflexivity. Qed.
Lemma upd_e_other : forall e l s x m t, m <> l -> upd_e e l s x m t = e m t.
Proof. intros. unfold upd_e. destruct (Nat.eqb_spec m l); [contradiction|reflexivity]. Qed.

Lemma beta_upd : forall e l s x y, (forall f, y <> (l, s, f)) -> beta (upd_e e l s x) y = beta e y.
Proof.
  intros e l s x [[m t] f] H. unfold beta, upd_e.
  destruct (Nat.eqb_spec m l) as [->|]; cbn [andb]; [|reflexivity].
  destruct (Bool.eqb_spec t s) as [->|]; [exfalso; exact (H f eq_refl)|reflexivity].
Qed.

(** Swapping the roles of the sides when nothing is under way. *)
Lemma tail_swap : forall h k a ea eb cs, l_ty k (negb a) = co (l_ty k a) ->
  tail_ok h k a ea eb cs -> exists cs', tail_ok h k (negb a) eb ea cs' /\
    (forall c, In c cs' <-> In c cs) /\ (NoDup cs -> NoDup cs').
Proof.
  intros h k a ea eb cs Hd H. unfold tail_ok in *. rewrite Hd, negb_involutive.
  destruct (l_ty k a) as [|p t|p t]; cbn [co].
  - destruct H as (x & y & -> & -> & -> & Hx & Hy). exists [y; x]. split; [exists y, x; auto|].
    split; [intros c; cbn; tauto|]. intros N. inversion N as [|? ? N1 N2]; subst.
    constructor; [|constructor; [|constructor]]; cbn in *; intuition congruence.
  - destruct H as (c & -> & -> & -> & Hc). exists [c]. split; [exists c; auto|]. split; [tauto|auto].
  - destruct H as (c & -> & -> & -> & Hc). exists [c]. split; [exists c; auto|]. split; [tauto|auto].
Qed.

Lemma NoDup_tail : forall (a b : list nat), NoDup (a ++ b) -> NoDup b.
Proof. induction a; intros b H; [exact H|]. inversion H; auto. Qed.

Lemma NoDup_join : forall (a b : list nat), NoDup a -> NoDup b -> (forall x, In x a -> ~ In x b) ->
  NoDup (a ++ b).
Proof.
  induction a as [|x a IH]; intros b Ha Hb H; [exact Hb|]. inversion Ha; subst. cbn. constructor.
  - intros Hin. apply in_app_or in Hin. destruct Hin as [Hin|Hin]; [contradiction|].
    apply (H x); [left; reflexivity|exact Hin].
  - apply IH; auto. intros y Hy. apply H. right; exact Hy.
Qed.

(** A side that is not behind can be taken as the side ahead. *)
Lemma get_ahead : forall e own h L l s, Rel e own h L -> wf_links L -> l < lnext L ->
  (l_to (lk L l) = s -> l_q (lk L l) = []) ->
  exists cs, ahead h (beta e) (e l s) (e l (negb s)) (lk L l) s cs /\
    forall c, In c cs -> own c = l /\ c < hnext h.
Proof.
  intros e own h L l s R W Hl Hb. destruct (R l Hl) as (cs & HA & Hcs).
  destruct (bool_cases s (l_to (lk L l))) as [E|E].
  - specialize (Hb E). destruct HA as (et & cs1 & cs2 & -> & N & HC & HT).
    rewrite E in *. rewrite Hb in HC. cbn in HC. destruct HC as [<- ->].
    apply tail_swap in HT. 2: { apply sync_dual; [apply W, Hl|exact Hb]. }
    destruct HT as (cs' & HT & Hin & Hnd). rewrite negb_involutive in HT.
    exists cs'. split.
    + exists (e l (negb s)), [], cs'. rewrite Hb. repeat split; auto.
    + intros c Hc. apply Hcs. apply Hin, Hc.
  - rewrite E, negb_involutive in HA. exists cs. auto.
Qed.

(** Putting a link in the normal form of [Rel]. *)
Lemma put_ahead : forall h B (e : nat -> bool -> ep) l k s cs, wf_link k -> (l_to k = s -> l_q k = []) ->
  ahead h B (e l s) (e l (negb s)) k s cs ->
  exists cs', ahead h B (e l (negb (l_to k))) (e l (l_to k)) k (negb (l_to k)) cs' /\
    (forall c, In c cs' <-> In c cs).
Proof.
  intros h B e l k s cs W Hb HA. destruct (bool_cases s (l_to k)) as [E|E].
  - specialize (Hb E). destruct HA as (et & cs1 & cs2 & -> & N & HC & HT).
    rewrite E. rewrite Hb in HC. cbn in HC. destruct HC as [<- ->].
    apply tail_swap in HT. 2: { apply sync_dual; [exact W|exact Hb]. }
    destruct HT as (cs' & HT & Hin & Hnd). exists cs'. split; [|exact Hin].
    exists (e l s), [], cs'. rewrite Hb. repeat split; auto.
  - rewrite E, negb_involutive. exists cs. split; [exact HA|tauto].
Qed.

Lemma chain_ext : forall h h' B B' q a b cs,
  (forall c, In c cs -> cells h' c = cells h c) ->
  (forall y, 0 < cntq y q -> B' y = B y) ->
  chain h B a q b cs -> chain h' B' a q b cs.
Proof.
  intros h h' B B'. induction q as [|[[v c] t] q IH]; intros a b cs Hc Hy H; cbn [chain] in *; [exact H|].
  destruct H as (ch & k & cs' & -> & -> & Hch & H). exists ch, k, cs'. split; [reflexivity|].
  split; [reflexivity|]. split.
  - rewrite Hc by (left; reflexivity). rewrite Hch.
    replace (map B' c) with (map B c); [reflexivity|].
    apply map_ext_in. intros y Hin. symmetry. apply Hy. rewrite cntq_cons.
    apply cnt_in in Hin. lia.
  - apply IH; [intros d Hd; apply Hc; right; exact Hd|intros y Hq; apply Hy; rewrite cntq_cons; lia|exact H].
Qed.

Lemma chain_app : forall h B q a b cs v c t ch k,
  chain h B a q b cs -> b = ERx ch -> cells h ch = Cell (Some (Msg v (map B c) k)) false true ->
  chain h B a (q ++ [(v, c, t)]) k (cs ++ [ch]).
Proof.
  intros h B. induction q as [|[[v0 c0] t0] q IH]; intros a b cs v c t ch k H Hb Hc; cbn in *.
  - destruct H as [-> ->]. exists ch, k, []. auto.
  - destruct H as (ch0 & k0 & cs' & -> & -> & Hch & H). exists ch0, k0, (cs' ++ [ch]).
    repeat split; auto. eapply IH; eauto.
Qed.

Lemma tail_ext : forall h h' k k' a ea eb cs,
  (forall c, In c cs -> cells h' c = cells h c) ->
  l_ty k' a = l_ty k a -> l_open k' = l_open k -> l_rx k' = l_rx k -> l_sig k' = l_sig k ->
  tail_ok h k a ea eb cs -> tail_ok h' k' a ea eb cs.
Proof.
  intros h h' k k' a ea eb cs Hc Ht Ho Hr Hs H. unfold tail_ok in *. rewrite Ht, Ho, Hr, Hs.
  destruct (l_ty k a).
  - destruct H as (x & y & -> & -> & -> & Hx & Hy). exists x, y. repeat split; auto;
      rewrite Hc; auto; cbn; auto.
  - destruct H as (c & -> & -> & -> & Hx). exists c. repeat split; auto; rewrite Hc; auto; cbn; auto.
  - destruct H as (c & -> & -> & -> & Hx). exists c. repeat split; auto; rewrite Hc; auto; cbn; auto.
Qed.

Lemma inside_le : forall y L l, l < lnext L -> cntq y (l_q (lk L l)) <= inside y L.
Proof.
  intros y L l H. unfold inside. revert H. generalize (lnext L) as m.
  induction m as [|m IH]; intros H; [lia|]. cbn.
  destruct (Nat.eq_dec l m) as [->|]; [lia|]. specialize (IH ltac:(lia)). lia.
Qed.

(** What must hold of the ends the caller passes. *)
Definition owns (L : links) (xs : list handle) : Prop := forall y, cnt y xs + inside y L <= avail y L.

Lemma avail_live : forall y L, 0 < avail y L <-> live L y.
Proof.
  intros [[l s] f] L. unfold avail, live. destruct (Nat.ltb_spec l (lnext L)).
  - destruct f.
    + destruct (l_open (lk L l) s); cbn; split; intros; try lia; intuition congruence.
    + destruct (l_open (lk L l) s), (l_rx (lk L l) s); cbn; split; intros; try lia; intuition congruence.
  - split; [intros; lia|]. intros [? _]. lia.
Qed.

Lemma avail_le1 : forall y L, avail y L <= 1.
Proof.
  intros [[l s] f] L. unfold avail. destruct (l <? lnext L); [|lia].
  destruct f; unfold b2n; [destruct (l_open (lk L l) s)|destruct (negb (l_open (lk L l) s) && l_rx (lk L l) s)]; lia.
Qed.

Lemma owns_live : forall L xs x, owns L xs -> In x xs -> live L x.
Proof.
  intros L xs x H Hin. apply avail_live. apply cnt_in in Hin. specialize (H x). lia.
Qed.

(** Ends inside messages exist and are none of the caller's. *)
Lemma owns_queued : forall L xs y, owns L xs -> 0 < inside y L -> live L y /\ ~ In y xs.
Proof.
  intros L xs y H Hy. split; [apply avail_live; specialize (H y); lia|].
  intros Hin. apply cnt_in in Hin. specialize (H y). pose proof (avail_le1 y L). lia.
Qed.

(** The frame: a step that only touches link l. *)
Lemma Rel_update : forall e own h L e' own' h' l k',
  Rel e own h L -> l < lnext L ->
  (forall m s, m <> l -> e' m s = e m s) ->
  (forall c, c < hnext h -> own c <> l -> cells h' c = cells h c) ->
  (forall c, c < hnext h -> own' c = own c) ->
  hnext h <= hnext h' ->
  (forall y, 0 < inside y L -> beta e' y = beta e y) ->
  (exists cs, ahead h' (beta e') (e' l (negb (l_to k'))) (e' l (l_to k')) k' (negb (l_to k')) cs /\
     forall c, In c cs -> own' c = l /\ c < hnext h') ->
  Rel e' own' h' (set_link L l k').
Proof.
  intros e own h L e' own' h' l k' R Hl He Hc Ho Hn Hy Hk m Hm. cbn [lnext set_link] in Hm.
  destruct (Nat.eq_dec m l) as [->|Hne].
  - rewrite lk_set_same. exact Hk.
  - rewrite lk_set_other by exact Hne. destruct (R m Hm) as (cs & HA & Hcs).
    exists cs. split.
    2: { intros c Hin. destruct (Hcs c Hin) as [H1 H2]. rewrite Ho by exact H2. split; [exact H1|lia]. }
    destruct HA as (et & cs1 & cs2 & -> & N & HC & HT). rewrite !He by exact Hne.
    assert (Hcell : forall c, In c (cs1 ++ cs2) -> cells h' c = cells h c).
    { intros c Hin. destruct (Hcs c Hin) as [H1 H2]. apply Hc; [exact H2|congruence]. }
    exists et, cs1, cs2. split; [reflexivity|]. split; [exact N|]. split.
    + eapply chain_ext; [| |exact HC].
      * intros c Hin. apply Hcell, in_or_app. left; exact Hin.
      * intros y Hq. apply Hy. pose proof (inside_le y L m Hm). lia.
    + eapply tail_ext; [|reflexivity..|exact HT].
      intros c Hin. apply Hcell, in_or_app. right; exact Hin.
Qed.

(** ** Fresh channels *)

Lemma heap_new_spec : forall t h a b h1, heap_new t h = (a, b, h1) ->
  exists cs, (forall c, In c cs -> hnext h <= c < hnext h1) /\ NoDup cs /\ hnext h <= hnext h1 /\
    (forall c, c < hnext h -> cells h1 c = cells h c) /\
    forall k s, l_ty k s = t -> (forall s, l_open k s = true) -> (forall s, l_rx k s = true) ->
      (forall s, l_sig k s = None) -> tail_ok h1 k s a b cs.
Proof.
  intros t h a b h1 H. destruct t; cbn in H; inversion H; subst; clear H; cbn [hnext].
  - exists [hnext h; S (hnext h)]. split; [intros c [<-|[<-|[]]]; lia|].
    split; [constructor; [cbn; lia|constructor; [cbn; tauto|constructor]]|]. split; [lia|]. split.
    + intros c Hc. cbn. destruct (Nat.eqb_spec c (S (hnext h))); [lia|].
      destruct (Nat.eqb_spec c (hnext h)); [lia|reflexivity].
    + intros k s Ht Ho Hr Hs. unfold tail_ok. rewrite Ht. exists (hnext h), (S (hnext h)).
      rewrite !Ho, !Hr, !Hs. cbn. rewrite !Nat.eqb_refl.
      destruct (Nat.eqb_spec (hnext h) (S (hnext h))); [lia|]. auto.
  - exists [hnext h]. split; [intros c [<-|[]]; lia|].
    split; [constructor; [cbn; tauto|constructor]|]. split; [lia|]. split.
    + intros c Hc. cbn. destruct (Nat.eqb_spec c (hnext h)); [lia|reflexivity].
    + intros k r Ht Ho Hr Hs. unfold tail_ok. rewrite Ht. exists (hnext h).
      rewrite !Ho. cbn. rewrite !Nat.eqb_refl. auto.
  - exists [hnext h]. split; [intros c [<-|[]]; lia|].
    split; [constructor; [cbn; tauto|constructor]|]. split; [lia|]. split.
    + intros c Hc. cbn. destruct (Nat.eqb_spec c (hnext h)); [lia|reflexivity].
    + intros k r Ht Ho Hr Hs. unfold tail_ok. rewrite Ht. exists (hnext h).
      rewrite !Ho. cbn. rewrite !Nat.eqb_refl. auto.
Qed.

Definition upd_own (own : nat -> nat) (from l : nat) : nat -> nat :=
  fun c => if from <=? c then l else own c.

Lemma upd_own_old : forall own from l c, c < from -> upd_own own from l c = own c.
Proof. intros. unfold upd_own. destruct (Nat.leb_spec from c); [lia|reflexivity]. Qed.
Lemma upd_own_new : forall own from l c, from <= c -> upd_own own from l c = l.
Proof. intros. unfold upd_own. destruct (Nat.leb_spec from c); [reflexivity|lia]. Qed.

(** Old ends keep their concrete counterpart. *)
Definition agree (L : links) (e e' : nat -> bool -> ep) (x : handle) : Prop :=
  forall y, live L y -> y <> x -> beta e' y = beta e y.

Lemma sim_new : forall e own h L t xs, Rel e own h L -> wf_links L -> owns L xs ->
  forall a b h1, heap_new t h = (a, b, h1) ->
  forall x y L', lk_new t L = (x, y, L') ->
  exists e' own', Rel e' own' h1 L' /\ beta e' x = a /\ beta e' y = b /\
    forall z, live L z -> beta e' z = beta e z.
Proof.
  intros e own h L t xs R W Ow a b h1 Hh x y L' HL. unfold lk_new in HL. inversion HL; subst x y L'; clear HL.
  destruct (heap_new_spec _ _ _ _ _ Hh) as (cs & Hcs & N & Hn & Hold & Htail).
  set (l := lnext L). set (e' := upd_e (upd_e e l true a) l false b).
  assert (Hag : forall z, live L z -> beta e' z = beta e z).
  { intros [[m s] f] [Hm _]. unfold e'. rewrite !beta_upd; [reflexivity| |];
      intros f' E; inversion E; subst; unfold l in *; lia. }
  exists e', (upd_own own (hnext h) l). split; [|split; [|split]].
  - intros m Hm. cbn [lnext] in Hm. cbn [lk]. fold l. destruct (Nat.eqb_spec m l) as [->|Hne].
    + assert (HT : tail_ok h1 (new_link t) true a b cs) by (apply Htail; reflexivity).
      apply tail_swap in HT; [|reflexivity]. destruct HT as (cs' & HT & Hin & Hnd).
      exists cs'. split.
      * cbn [new_link l_to negb]. exists (e' l true), [], cs'. split; [reflexivity|].
        split; [auto|]. split; [cbn; auto|].
        unfold e'. rewrite upd_e_same. change true with (negb false).
        rewrite upd_e_neg. cbn [negb]. rewrite upd_e_same. exact HT.
      * intros c Hc. apply Hin, Hcs in Hc. split; [apply upd_own_new; lia|lia].
    + assert (Hm' : m < lnext L) by (unfold l in *; lia).
      destruct (R m Hm') as (cs0 & (et & cs1 & cs2 & -> & N0 & HC & HT) & Hcs0).
      exists (cs1 ++ cs2). split.
      2: { intros c Hc. destruct (Hcs0 c Hc). rewrite upd_own_old by assumption. split; [assumption|lia]. }
      exists et, cs1, cs2. split; [reflexivity|]. split; [exact N0|].
      assert (He' : forall s, e' m s = e m s) by (intros s; unfold e'; rewrite !upd_e_other by exact Hne; reflexivity).
      rewrite !He'. split.
      * eapply chain_ext; [| |exact HC].
        -- intros c Hc. apply Hold. apply Hcs0, in_or_app; left; exact Hc.
        -- intros y Hy. apply Hag. apply (owns_queued L xs); [exact Ow|].
           pose proof (inside_le y L m Hm'). lia.
      * eapply tail_ext; [|reflexivity..|exact HT].
        intros c Hc. apply Hold. apply Hcs0, in_or_app; right; exact Hc.
  - cbn. unfold e'. change true with (negb false). rewrite upd_e_neg. cbn [negb]. apply upd_e_same.
  - cbn. unfold e'. apply upd_e_same.
  - exact Hag.
Qed.

(** ** Shapes of ends *)

Lemma shape : forall e own h L l s, Rel e own h L -> wf_links L -> l < lnext L ->
  match l_ty (lk L l) s with
  | Snd _ _ => exists c, e l s = ETx c
  | Rcv _ _ => exists c, e l s = ERx c
  | End => exists x y, e l s = EEnd x y
  end.
Proof.
  intros e own h L l s R W Hl.
  destruct (bool_cases s (l_to (lk L l))) as [E|E].
  - destruct (l_q (lk L l)) as [|[[v c] t] q] eqn:Eq.
    + destruct (get_ahead e own h L l s R W Hl (fun _ => Eq)) as (cs & (et & c1 & c2 & _ & _ & _ & HT) & _).
      unfold tail_ok in HT. destruct (l_ty (lk L l) s).
      * destruct HT as (x & y & -> & _). eauto.
      * destruct HT as (x & -> & _). eauto.
      * destruct HT as (x & -> & _). eauto.
    + pose proof (wf_ty _ (W l Hl)) as Ht. rewrite Eq, E in Ht. cbn in Ht. destruct Ht as [Ht _].
      destruct (R l Hl) as (cs & (et & c1 & c2 & _ & _ & HC & HT) & _).
      rewrite Eq, E in HC. cbn in HC. destruct HC as (ch & k & cs' & -> & _).
      destruct (l_ty (lk L l) s); try discriminate. eauto.
  - destruct (get_ahead e own h L l s R W Hl) as (cs & (et & c1 & c2 & _ & _ & _ & HT) & _).
    { intros E'. rewrite E in E'. destruct s; discriminate. }
    unfold tail_ok in HT. destruct (l_ty (lk L l) s).
    + destruct HT as (x & y & -> & _). eauto.
    + destruct HT as (x & -> & _). eauto.
    + destruct HT as (x & -> & _). eauto.
Qed.

Lemma cells_set_same : forall h c x, cells (set_cell h c x) c = x.
Proof. intros. cbn. rewrite Nat.eqb_refl. reflexivity. Qed.
Lemma cells_set_other : forall h c x d, d <> c -> cells (set_cell h c x) d = cells h d.
Proof. intros. cbn. destruct (Nat.eqb_spec d c); [contradiction|reflexivity]. Qed.

Lemma to_neq : forall s t, t = negb s -> t <> s.
Proof. intros [] []; discriminate || (intros; discriminate). Qed.

(** An end that is not [y] on link l, side s. *)
Lemma queued_neq : forall L xs l s y, owns L ((l, s, true) :: xs) -> live L (l, s, true) ->
  0 < inside y L -> forall f, y <> (l, s, f).
Proof.
  intros L xs l s y Ow Hlv Hy f ->. destruct (owns_queued _ _ _ Ow Hy) as [H1 H2].
  destruct f; [apply H2; left; reflexivity|]. destruct Hlv as [_ Ho], H1 as [_ [H1 _]]. congruence.
Qed.

(** ** Sending *)

Lemma sim_send : forall e own h L l s v (c : list handle) t (xs : list handle), Rel e own h L -> wf_links L ->
  owns L ((l, s, true) :: c ++ xs) ->
  match lk_send (l, s, true) v c t L, heap_send (e l s) v (map (beta e) c) t h with
  | SentOk _ L', SentOk here h' =>
      exists e' own', Rel e' own' h' L' /\ here = e' l s /\ agree L e e' (l, s, true)
  | SentLost _ lost L', SentLost here lost' h' =>
      exists e' own', Rel e' own' h' L' /\ here = e' l s /\ lost' = map (beta e') lost /\
        agree L e e' (l, s, true)
  | SentWait, SentWait | SentBad, SentBad => True
  | _, _ => False
  end.
Proof.
  intros e own h L l s v c t xs R W Ow.
  assert (Hlv : live L (l, s, true)) by (eapply owns_live; [exact Ow|left; reflexivity]).
  pose proof Hlv as [Hl Ho]. pose proof (W l Hl) as Wl.
  pose proof (shape e own h L l s R W Hl) as Hshape.
  unfold lk_send. cbn [andb].
  destruct (l_ty (lk L l) s) as [|p ts|p ts] eqn:Ety; cbn [is_snd].
  1: { destruct Hshape as (x & y & ->). exact I. }
  2: { destruct Hshape as (x & ->). exact I. }
  clear Hshape.
  assert (Hsnd : is_snd (l_ty (lk L l) s) = true) by (rewrite Ety; reflexivity).
  destruct (get_ahead e own h L l s R W Hl (snd_not_behind _ _ Wl Hsnd))
    as (cs & (et & cs1 & cs2 & -> & N & HC & HT) & Hcs).
  unfold tail_ok in HT. rewrite Ety in HT. destruct HT as (ch & -> & -> & -> & Hch).
  destruct (Hcs ch) as [Hown Hlt]; [apply in_or_app; right; left; reflexivity|].
  cbn [heap_send]. destruct (heap_new t h) as [[here there] h1] eqn:Enew.
  destruct (heap_new_spec _ _ _ _ _ Enew) as (csn & Hcsn & Nn & Hn & Hold & Htail).
  rewrite (Hold ch Hlt), Hch. cbn [rx buf].
  assert (Hsig : forall s', l_sig (lk L l) s' = None).
  { intros s'. destruct (l_sig (lk L l) s') eqn:Es; [|reflexivity]. exfalso.
    assert (Hend : l_ty (lk L l) s' = End) by (apply Wl; congruence).
    destruct (bool_cases s s') as [-> | ->]; [congruence|].
    destruct (bool_cases s (l_to (lk L l))) as [E|E].
    - rewrite (sync_dual _ s Wl (snd_not_behind _ _ Wl Hsnd E)), Ety in Hend. discriminate.
    - pose proof (wf_ty _ Wl) as Hty. rewrite E, negb_involutive, Hend, Ety in Hty.
      destruct (l_q (lk L l)) as [|[[v0 c0] t0] q]; cbn in Hty; [discriminate|].
      destruct Hty; discriminate. }
  assert (Hag : forall z f y, live L z -> z <> (l, s, true) -> live L (l, f, true) -> f = s ->
                 beta (upd_e e l f y) z = beta e z).
  { intros z f y Hz Hne Hf ->. apply beta_upd. intros g ->. destruct g; [congruence|].
    destruct Hz as [_ [Hz _]]. congruence. }
  destruct (l_open (lk L l) (negb s)) eqn:Eo.
  - (* delivered *)
    set (e' := upd_e e l s here). exists e', (upd_own own (hnext h) l).
    assert (Hagree : agree L e e' (l, s, true)).
    { intros z Hz Hne. apply (Hag z s here Hz Hne Hlv eq_refl). }
    split; [|split; [unfold e'; rewrite upd_e_same; reflexivity|exact Hagree]].
    set (k' := Link _ _ _ _ _ _).
    assert (Wk : wf_link k') by (apply wf_sent; assumption).
    assert (Hopen : forall s', l_open k' s' = true) by (intros s'; cbn; destruct (bool_cases s s') as [-> | ->]; assumption).
    set (h' := set_cell h1 ch _).
    eapply Rel_update; [exact R|exact Hl| | | | | |].
    + intros m s' Hm. apply upd_e_other, Hm.
    + intros d Hd Hod. unfold h'. rewrite cells_set_other by (intros ->; contradiction). apply Hold, Hd.
    + intros d Hd. apply upd_own_old, Hd.
    + exact Hn.
    + intros y Hy. apply Hagree; [apply (owns_queued _ _ _ Ow Hy)|]. eapply queued_neq; eauto.
    + assert (Hfr : ~ In ch csn) by (intros Hin; apply Hcsn in Hin; lia).
      assert (HA : ahead h' (beta e') (e' l s) (e' l (negb s)) k' s ((cs1 ++ [ch]) ++ csn)).
      { exists there, (cs1 ++ [ch]), csn. split; [reflexivity|]. split; [|split].
        - apply NoDup_join; [exact N|exact Nn|]. intros d Hd Hd'. apply Hcs in Hd. apply Hcsn in Hd'. lia.
        - unfold k'; cbn [l_q].
          replace (e' l (negb s)) with (e l (negb s)) by (unfold e'; rewrite upd_e_neg; reflexivity).
          eapply chain_app; [|reflexivity|].
          + eapply chain_ext; [| |exact HC].
            * intros d Hd. unfold h'. rewrite cells_set_other.
              -- apply Hold. apply Hcs, in_or_app; left; exact Hd.
              -- intros ->. apply NoDup_remove_2 in N. apply N. rewrite app_nil_r. exact Hd.
            * intros y Hy. apply Hagree.
              -- apply (owns_queued _ _ _ Ow). pose proof (inside_le y L l Hl). lia.
              -- eapply queued_neq; eauto. pose proof (inside_le y L l Hl). lia.
          + unfold h'. rewrite cells_set_same.
            replace (map (beta e') c) with (map (beta e) c); [reflexivity|]. apply map_ext_in.
            intros y Hy. symmetry. apply Hagree.
            * eapply owns_live; [exact Ow|]. right. apply in_or_app; left; exact Hy.
            * intros ->. specialize (Ow (l, s, true)). rewrite cnt_cons, cnt_self, cnt_app in Ow.
              apply cnt_in in Hy. pose proof (avail_le1 (l, s, true) L). lia.
        - eapply tail_ext with (h := h1) (k := k'); [|reflexivity..|].
          + intros d Hd. unfold h'. apply cells_set_other. intros ->. contradiction.
          + unfold e'. rewrite upd_e_same. apply Htail.
            * cbn. apply upd_same.
            * exact Hopen.
            * intros s'. apply Wk, Hopen.
            * exact Hsig. }
      apply put_ahead in HA; [|exact Wk|intros E; exfalso; eapply to_neq; [|exact E]; reflexivity].
      destruct HA as (cs' & HA & Hin). exists cs'. split; [exact HA|].
      intros d Hd. apply Hin in Hd. rewrite <- app_assoc in Hd. apply in_app_or in Hd.
      destruct Hd as [Hd|Hd]; [|destruct Hd as [<-|Hd]].
      * destruct (Hcs d) as [A B]; [apply in_or_app; left; exact Hd|].
        rewrite upd_own_old by exact B. split; [exact A|cbn; lia].
      * rewrite upd_own_old by exact Hlt. split; [exact Hown|cbn; lia].
      * apply Hcsn in Hd. split; [apply upd_own_new; lia|cbn; lia].
  - (* receiver gone *)
    destruct (wf_lost (lk L l) s t Wl Hsnd Eo) as [Wk Hq].
    set (k' := Link _ _ _ _ _ _) in *.
    set (e' := upd_e (upd_e e l s here) l (negb s) there). exists e', (upd_own own (hnext h) l).
    assert (Hrx : l_rx (lk L l) (negb s) = false).
    { rewrite <- Eo. apply Wl. rewrite (sync_dual _ s Wl Hq), Ety. discriminate. }
    assert (Hagree : agree L e e' (l, s, true)).
    { intros z Hz Hne. unfold e'. rewrite beta_upd.
      - apply (Hag z s here Hz Hne Hlv eq_refl).
      - intros g ->. destruct g; destruct Hz as [_ Hz]; [congruence|]. destruct Hz. congruence. }
    assert (Hopen : forall s', l_open k' s' = true).
    { intros s'; cbn. by_side s s'; [exact Ho|reflexivity]. }
    set (h' := set_cell h1 ch _).
    split; [|split; [|split]].
    + eapply Rel_update; [exact R|exact Hl| | | | | |].
      * intros m s' Hm. unfold e'. rewrite !upd_e_other by exact Hm. reflexivity.
      * intros d Hd Hod. unfold h'. rewrite cells_set_other by (intros ->; contradiction). apply Hold, Hd.
      * intros d Hd. apply upd_own_old, Hd.
      * exact Hn.
      * intros y Hy. apply Hagree; [apply (owns_queued _ _ _ Ow Hy)|]. eapply queued_neq; eauto.
      * assert (HA : ahead h' (beta e') (e' l s) (e' l (negb s)) k' s csn).
        { exists (e' l (negb s)), [], csn. split; [reflexivity|]. split; [exact Nn|].
          split; [cbn; auto|].
          eapply tail_ext with (h := h1) (k := k'); [|reflexivity..|].
          - intros d Hd. unfold h'. apply cells_set_other. intros ->. apply Hcsn in Hd. lia.
          - unfold e'. rewrite upd_e_neg', !upd_e_same. apply Htail.
            + cbn. rewrite upd_neg'. apply upd_same.
            + exact Hopen.
            + intros s'. apply Wk, Hopen.
            + exact Hsig. }
        apply put_ahead in HA; [|exact Wk|reflexivity].
        destruct HA as (cs' & HA & Hin). exists cs'. split; [exact HA|].
        intros d Hd. apply Hin, Hcsn in Hd. split; [apply upd_own_new; lia|cbn; lia].
    + unfold e'. rewrite upd_e_neg', upd_e_same. reflexivity.
    + rewrite map_app. cbn [map]. f_equal.
      * apply map_ext_in. intros y Hy. symmetry. apply Hagree.
        -- eapply owns_live; [exact Ow|]. right. apply in_or_app; left; exact Hy.
        -- intros ->. specialize (Ow (l, s, true)). rewrite cnt_cons, cnt_self, cnt_app in Ow.
           apply cnt_in in Hy. pose proof (avail_le1 (l, s, true) L). lia.
      * cbn [beta]. unfold e'. rewrite upd_e_same. reflexivity.
    + exact Hagree.
Qed.

(** ** Receiving *)

Lemma popped_sim : forall e own h L l s v c t xs, Rel e own h L -> wf_links L ->
  owns L ((l, s, true) :: xs) -> pending (lk L l) s = Some (v, c, t) ->
  exists ch k e', e l s = ERx ch /\ cells h ch = Cell (Some (Msg v (map (beta e) c) k)) false true /\
    forall x, Rel e' own (set_cell h ch x) (set_link L l (popped (lk L l) s t)) /\
    e' l s = k /\ agree L e e' (l, s, true).
Proof.
  intros e own h L l s v c t xs R W Ow Hp.
  assert (Hlv : live L (l, s, true)) by (eapply owns_live; [exact Ow|left; reflexivity]).
  pose proof Hlv as [Hl Ho]. pose proof (W l Hl) as Wl.
  pose proof (wf_popped _ _ _ _ _ Wl Hp) as Wk.
  apply pending_some in Hp. destruct Hp as [Hto Hq].
  destruct (R l Hl) as (cs & (et & cs1 & cs2 & -> & N & HC & HT) & Hcs).
  rewrite Hto in HC. rewrite Hq in HC. cbn in HC.
  destruct HC as (ch & k & cs' & He & -> & Hch & HC). rewrite Hto in HT.
  exists ch, k, (upd_e e l s k). split; [exact He|]. split; [exact Hch|]. intros x.
  assert (Hagree : agree L e (upd_e e l s k) (l, s, true)).
  { intros z Hz Hne. apply beta_upd. intros g ->. destruct g; [congruence|].
    destruct Hz as [_ [Hz _]]. congruence. }
  split; [|split; [apply upd_e_same|exact Hagree]].
  destruct (Hcs ch) as [Hown Hlt]; [left; reflexivity|].
  eapply Rel_update; [exact R|exact Hl| | | | | |].
  - intros m s' Hm. apply upd_e_other, Hm.
  - intros d Hd Hod. apply cells_set_other. intros ->. contradiction.
  - reflexivity.
  - cbn. lia.
  - intros y Hy. apply Hagree; [apply (owns_queued _ _ _ Ow Hy)|]. eapply queued_neq; eauto.
  - assert (Hneq : forall d, In d (cs' ++ cs2) -> d <> ch).
    { intros d Hd ->. inversion N; subst. contradiction. }
    exists (cs' ++ cs2). split.
    2: { intros d Hd. cbn. apply Hcs. right. exact Hd. }
    cbn [popped l_to]. rewrite Hto. exists et, cs', cs2. split; [reflexivity|].
    split; [inversion N; assumption|]. rewrite upd_e_same, upd_e_neg. split.
    + cbn [popped l_q]. eapply chain_ext; [| |exact HC].
      * intros d Hd. apply cells_set_other, Hneq, in_or_app. left; exact Hd.
      * intros y Hy.
        assert (0 < inside y L).
        { pose proof (inside_le y L l Hl) as Hle. rewrite Hq, cntq_cons in Hle. lia. }
        apply Hagree; [apply (owns_queued _ _ _ Ow); assumption|]. eapply queued_neq; eauto.
    + eapply tail_ext with (k := lk L l); [| |reflexivity..|exact HT].
      * intros d Hd. apply cells_set_other, Hneq, in_or_app. right; exact Hd.
      * cbn [popped l_ty]. apply upd_neg.
Qed.

(** A step that changes only the channels after the messages. *)
Lemma tail_sim : forall e own h L l s et cs1 cs2 h' k' xs,
  Rel e own h L -> wf_links L -> owns L xs -> l < lnext L -> wf_link k' ->
  (l_to (lk L l) = s -> l_q (lk L l) = []) ->
  NoDup (cs1 ++ cs2) -> chain h (beta e) (e l (negb s)) (l_q (lk L l)) et cs1 ->
  (forall c, In c (cs1 ++ cs2) -> own c = l /\ c < hnext h) ->
  (forall d, ~ In d cs2 -> cells h' d = cells h d) -> hnext h' = hnext h ->
  l_q k' = l_q (lk L l) -> l_to k' = l_to (lk L l) ->
  tail_ok h' k' s (e l s) et cs2 ->
  Rel e own h' (set_link L l k').
Proof.
  intros e own h L l s et cs1 cs2 h' k' xs R W Ow Hl Wk Hb N HC Hcs Hcell Hn Hq Hto HT.
  eapply Rel_update; [exact R|exact Hl|reflexivity| |reflexivity|lia|reflexivity|].
  - intros c Hc Ho. apply Hcell. intros Hin. apply Ho. apply Hcs, in_or_app. right; exact Hin.
  - assert (HA : ahead h' (beta e) (e l s) (e l (negb s)) k' s (cs1 ++ cs2)).
    { exists et, cs1, cs2. split; [reflexivity|]. split; [exact N|]. split; [|exact HT].
      rewrite Hq. eapply chain_ext; [|reflexivity|exact HC].
      intros c Hc. apply Hcell. intros Hin.
      revert N Hc Hin. clear. induction cs1 as [|d cs1 IH]; intros N Hc Hin; [contradiction|].
      inversion N as [|? ? N1 N2]; subst. destruct Hc as [->|Hc].
      - apply N1, in_or_app. right; exact Hin.
      - apply IH; assumption. }
    apply put_ahead in HA; [|exact Wk|rewrite Hto, Hq; exact Hb].
    destruct HA as (cs' & HA & Hin). exists cs'. split; [exact HA|].
    intros c Hc. apply Hin, Hcs in Hc. rewrite Hn. exact Hc.
Qed.

Lemma set_cell_frame : forall h c x cs, In c cs ->
  forall d, ~ In d cs -> cells (set_cell h c x) d = cells h d.
Proof. intros h c x cs Hin d Hd. apply cells_set_other. intros ->. contradiction. Qed.

Lemma sim_recv : forall e own h L l s xs, Rel e own h L -> wf_links L ->
  owns L ((l, s, true) :: xs) ->
  match lk_recv (l, s, true) L, heap_recv (e l s) h with
  | Got v c _ L', Got v' c' k h' =>
      exists e', Rel e' own h' L' /\ v' = v /\ c' = map (beta e') c /\ k = e' l s /\
        agree L e e' (l, s, true)
  | GotErr L', GotErr h' => Rel e own h' L'
  | GotWait, GotWait | GotBad, GotBad => True
  | _, _ => False
  end.
Proof.
  intros e own h L l s xs R W Ow.
  assert (Hlv : live L (l, s, true)) by (eapply owns_live; [exact Ow|left; reflexivity]).
  pose proof Hlv as [Hl Ho]. pose proof (W l Hl) as Wl.
  pose proof (shape e own h L l s R W Hl) as Hshape.
  unfold lk_recv. cbn [andb].
  destruct (l_ty (lk L l) s) as [|p ts|p ts] eqn:Ety; cbn [is_rcv].
  1: { destruct Hshape as (x & y & ->). exact I. }
  1: { destruct Hshape as (x & ->). exact I. }
  clear Hshape.
  destruct (pending (lk L l) s) as [[[v c] t]|] eqn:Ep.
  - destruct (popped_sim e own h L l s v c t xs R W Ow Ep) as (ch & k & e' & He & Hch & Hrel).
    rewrite He. cbn [heap_recv]. rewrite Hch. cbn [buf]. exists e'.
    destruct (Hrel (Cell None false false)) as (R' & Hk & Hag). cbn [tx].
    split; [exact R'|]. split; [reflexivity|]. split; [|split; [symmetry; exact Hk|exact Hag]].
    apply map_ext_in. intros y Hy. symmetry.
    assert (Hin : 0 < inside y L).
    { apply pending_some in Ep. destruct Ep as [_ Hq]. pose proof (inside_le y L l Hl) as Hle.
      rewrite Hq, cntq_cons in Hle. apply cnt_in in Hy. lia. }
    apply Hag; [apply (owns_queued _ _ _ Ow Hin)|]. eapply queued_neq; eauto.
  - destruct (get_ahead e own h L l s R W Hl (pending_none _ _ Ep))
      as (cs & (et & cs1 & cs2 & -> & N & HC & HT) & Hcs).
    pose proof HT as HT0. unfold tail_ok in HT. rewrite Ety in HT. destruct HT as (ch & He & -> & -> & Hch).
    rewrite He. cbn [heap_recv]. rewrite Hch. cbn [buf tx].
    destruct (l_open (lk L l) (negb s)) eqn:Eo; [exact I|].
    eapply tail_sim with (s := s); [exact R|exact W|exact Ow|exact Hl| | exact (pending_none _ _ Ep)
      |exact N|exact HC|exact Hcs| |reflexivity|reflexivity|reflexivity|].
    + apply wf_closed; assumption.
    + intros d Hd. apply cells_set_other. intros ->. apply Hd. left; reflexivity.
    + unfold tail_ok. cbn [closed l_ty l_open]. rewrite Ety. exists ch. rewrite He.
      rewrite cells_set_same, upd_same, upd_neg, Eo. auto.
Qed.

(** ** Dropping *)

Lemma sim_drop : forall e own h L x xs, Rel e own h L -> wf_links L -> owns L (x :: xs) ->
  forall out L' out' h', lk_drop x L = (out, L') -> heap_drop (beta e x) h = (out', h') ->
  exists e', Rel e' own h' L' /\ out' = map (beta e') out /\ agree L e e' x.
Proof.
  intros e own h L [[l s] full] xs R W Ow out L' out' h' HL HH.
  assert (Hlv : live L (l, s, full)) by (eapply owns_live; [exact Ow|left; reflexivity]).
  pose proof Hlv as [Hl Ho]. pose proof (W l Hl) as Wl.
  unfold lk_drop in HL. cbn [beta] in HH.
  assert (Hag0 : agree L e e (l, s, full)) by (intros ? _ _; reflexivity).
  destruct full.
  - destruct (pending (lk L l) s) as [[[v c] t]|] eqn:Ep.
    + (* a message is lost with the receiver *)
      destruct (popped_sim e own h L l s v c t xs R W Ow Ep) as (ch & k & e' & He & Hch & Hrel).
      assert (Hrcv : is_fin (l_ty (lk L l) s) = false).
      { pose proof (wf_ty _ Wl) as Ht. apply pending_some in Ep. destruct Ep as [Hto Hq].
        rewrite Hq, Hto in Ht. cbn in Ht. destruct Ht as [Ht _].
        destruct (l_ty (lk L l) s); [discriminate|reflexivity|reflexivity]. }
      rewrite Hrcv in HL. rewrite He in HH. cbn [heap_drop] in HH. rewrite Hch in HH. cbn [buf tx] in HH.
      inversion HL; subst out L'. inversion HH; subst out' h'. clear HL HH.
      destruct (Hrel (Cell None false false)) as (R' & Hk & Hag). exists e'.
      split; [exact R'|]. split; [|exact Hag]. rewrite map_app. cbn [map beta]. rewrite Hk. f_equal.
      apply map_ext_in. intros y Hy. symmetry.
      assert (Hin : 0 < inside y L).
      { apply pending_some in Ep. destruct Ep as [_ Hq]. pose proof (inside_le y L l Hl) as Hle.
        rewrite Hq, cntq_cons in Hle. apply cnt_in in Hy. lia. }
      apply Hag; [apply (owns_queued _ _ _ Ow Hin)|]. eapply queued_neq; eauto.
    + destruct (get_ahead e own h L l s R W Hl (pending_none _ _ Ep))
        as (cs & (et & cs1 & cs2 & -> & N & HC & HT) & Hcs).
      unfold tail_ok in HT. exists e.
      destruct (l_ty (lk L l) s) as [|p ts|p ts] eqn:Ety; cbn [is_fin] in HL.
      * destruct HT as (x & y & He & -> & -> & Hx & Hy). rewrite He in HH. cbn [heap_drop] in HH.
        rewrite Hx in HH. cbn [buf rx] in HH.
        inversion HL; subst out L'. inversion HH; subst out' h'. clear HL HH.
        split; [|split; [cbn; rewrite He; reflexivity|exact Hag0]].
        assert (Hxy : x <> y).
        { apply NoDup_tail in N. inversion N as [|? ? N1 _]; subst. intros ->. apply N1. left; reflexivity. }
        eapply tail_sim with (s := s); [exact R|exact W|exact Ow|exact Hl| | exact (pending_none _ _ Ep)
          |exact N|exact HC|exact Hcs| |reflexivity|reflexivity|reflexivity|].
        -- apply wf_drop_end; assumption.
        -- intros d Hd. apply cells_set_other. intros ->. apply Hd. left; reflexivity.
        -- unfold tail_ok. cbn [l_ty l_open l_rx l_sig]. rewrite Ety. exists x, y. rewrite He.
           rewrite cells_set_same, cells_set_other by congruence. rewrite upd_same, upd_neg. auto.
      * destruct HT as (ch & He & -> & -> & Hch). rewrite He in HH. cbn [heap_drop] in HH.
        rewrite Hch in HH. cbn [buf rx] in HH.
        inversion HL; subst out L'. inversion HH; subst out' h'. clear HL HH.
        split; [|split; [reflexivity|exact Hag0]].
        eapply tail_sim with (s := s); [exact R|exact W|exact Ow|exact Hl| | exact (pending_none _ _ Ep)
          |exact N|exact HC|exact Hcs| |reflexivity|reflexivity|reflexivity|].
        -- apply wf_closed; assumption.
        -- intros d Hd. apply cells_set_other. intros ->. apply Hd. left; reflexivity.
        -- unfold tail_ok. cbn [closed l_ty l_open]. rewrite Ety. exists ch. rewrite He.
           rewrite cells_set_same, upd_same, upd_neg. auto.
      * destruct HT as (ch & He & -> & -> & Hch). rewrite He in HH. cbn [heap_drop] in HH.
        rewrite Hch in HH. cbn [buf tx] in HH.
        inversion HL; subst out L'. inversion HH; subst out' h'. clear HL HH.
        split; [|split; [reflexivity|exact Hag0]].
        eapply tail_sim with (s := s); [exact R|exact W|exact Ow|exact Hl| | exact (pending_none _ _ Ep)
          |exact N|exact HC|exact Hcs| |reflexivity|reflexivity|reflexivity|].
        -- apply wf_closed; assumption.
        -- intros d Hd. apply cells_set_other. intros ->. apply Hd. left; reflexivity.
        -- unfold tail_ok. cbn [closed l_ty l_open]. rewrite Ety. exists ch. rewrite He.
           rewrite cells_set_same, upd_same, upd_neg. auto.
  - destruct Ho as [Ho Hr]. pose proof (half_end _ _ Wl Ho Hr) as Ety.
    destruct (get_ahead e own h L l s R W Hl (fin_not_behind _ _ Wl Ety))
      as (cs & (et & cs1 & cs2 & -> & N & HC & HT) & Hcs).
    unfold tail_ok in HT. rewrite Ety in HT. destruct HT as (x & y & He & -> & -> & Hx & Hy).
    rewrite He in HH. cbn [heap_drop] in HH. rewrite Hy in HH. cbn [buf tx] in HH.
    inversion HL; subst out L'. injection HH as <- <-. clear HL. exists e.
    split; [|split; [destruct (l_sig (lk L l) (negb s)); reflexivity|exact Hag0]].
    assert (Hxy : x <> y).
    { apply NoDup_tail in N. inversion N as [|? ? N1 _]; subst. intros ->. apply N1. left; reflexivity. }
    eapply tail_sim with (s := s); [exact R|exact W|exact Ow|exact Hl| | exact (fin_not_behind _ _ Wl Ety)
      |exact N|exact HC|exact Hcs| |reflexivity|reflexivity|reflexivity|].
    + apply wf_half; assumption.
    + intros d Hd. apply cells_set_other. intros ->. apply Hd. right; left; reflexivity.
    + unfold tail_ok. cbn [l_ty l_open l_rx l_sig]. rewrite Ety. exists x, y. rewrite He.
      rewrite cells_set_same, cells_set_other by congruence. rewrite !upd_same, upd_neg, upd_neg'.
      cbn [option_map]. auto.
Qed.

(** ** Closing *)

Lemma sim_tell : forall e own h L l s g xs, Rel e own h L -> wf_links L ->
  owns L ((l, s, true) :: xs) ->
  match lk_tell (l, s, true) g L, heap_tell (e l s) g h with
  | TellOk L', TellOk h' => Rel e own h' L'
  | TellErr, TellErr | TellWait, TellWait | TellBad, TellBad => True
  | _, _ => False
  end.
Proof.
  intros e own h L l s g xs R W Ow.
  assert (Hlv : live L (l, s, true)) by (eapply owns_live; [exact Ow|left; reflexivity]).
  pose proof Hlv as [Hl Ho]. pose proof (W l Hl) as Wl.
  pose proof (shape e own h L l s R W Hl) as Hshape.
  unfold lk_tell. cbn [andb].
  destruct (l_ty (lk L l) s) as [|p ts|p ts] eqn:Ety; cbn [is_fin].
  2: { destruct Hshape as (x & ->). exact I. }
  2: { destruct Hshape as (x & ->). exact I. }
  clear Hshape.
  destruct (get_ahead e own h L l s R W Hl (fin_not_behind _ _ Wl Ety))
    as (cs & (et & cs1 & cs2 & -> & N & HC & HT) & Hcs).
  unfold tail_ok in HT. rewrite Ety in HT. destruct HT as (x & y & He & -> & -> & Hx & Hy).
  rewrite He. cbn [heap_tell]. rewrite Hx. cbn [rx buf tx].
  destruct (l_rx (lk L l) (negb s)) eqn:Er; [|exact I].
  destruct (l_sig (lk L l) s) eqn:Es; cbn [option_map]; [exact I|].
  assert (Hxy : x <> y).
  { apply NoDup_tail in N. inversion N as [|? ? N1 _]; subst. intros ->. apply N1. left; reflexivity. }
  eapply tail_sim with (s := s); [exact R|exact W|exact Ow|exact Hl| | exact (fin_not_behind _ _ Wl Ety)
    |exact N|exact HC|exact Hcs| |reflexivity|reflexivity|reflexivity|].
  - apply wf_sig_set; [exact Wl|intros _; exact Ety].
  - intros d Hd. apply cells_set_other. intros ->. apply Hd. left; reflexivity.
  - unfold tail_ok. cbn [l_ty l_open l_rx l_sig]. rewrite Ety. exists x, y. rewrite He.
    rewrite cells_set_same, cells_set_other by congruence. rewrite upd_same, upd_neg, Er.
    cbn [option_map]. auto.
Qed.

Lemma sim_hear : forall e own h L l s xs, Rel e own h L -> wf_links L ->
  owns L ((l, s, true) :: xs) ->
  match lk_hear (l, s, true) L, heap_hear (e l s) h with
  | Heard g L', Heard g' h' => g' = g /\ Rel e own h' L'
  | HearErr, HearErr | HearWait, HearWait | HearBad, HearBad => True
  | _, _ => False
  end.
Proof.
  intros e own h L l s xs R W Ow.
  assert (Hlv : live L (l, s, true)) by (eapply owns_live; [exact Ow|left; reflexivity]).
  pose proof Hlv as [Hl Ho]. pose proof (W l Hl) as Wl.
  pose proof (shape e own h L l s R W Hl) as Hshape.
  unfold lk_hear. cbn [andb].
  destruct (l_ty (lk L l) s) as [|p ts|p ts] eqn:Ety; cbn [is_fin].
  2: { destruct Hshape as (x & ->). exact I. }
  2: { destruct Hshape as (x & ->). exact I. }
  clear Hshape.
  destruct (get_ahead e own h L l s R W Hl (fin_not_behind _ _ Wl Ety))
    as (cs & (et & cs1 & cs2 & -> & N & HC & HT) & Hcs).
  unfold tail_ok in HT. rewrite Ety in HT. destruct HT as (x & y & He & -> & -> & Hx & Hy).
  rewrite He. cbn [heap_hear]. rewrite Hy. cbn [rx buf tx].
  destruct (l_sig (lk L l) (negb s)) eqn:Es; cbn [option_map].
  2: { destruct (l_open (lk L l) (negb s)); exact I. }
  split; [reflexivity|].
  assert (Hxy : x <> y).
  { apply NoDup_tail in N. inversion N as [|? ? N1 _]; subst. intros ->. apply N1. left; reflexivity. }
  eapply tail_sim with (s := s); [exact R|exact W|exact Ow|exact Hl| | exact (fin_not_behind _ _ Wl Ety)
    |exact N|exact HC|exact Hcs| |reflexivity|reflexivity|reflexivity|].
  - apply wf_sig_set; [exact Wl|congruence].
  - intros d Hd. apply cells_set_other. intros ->. apply Hd. right; left; reflexivity.
  - unfold tail_ok. cbn [l_ty l_open l_rx l_sig]. rewrite Ety. exists x, y. rewrite He.
    rewrite cells_set_same, cells_set_other by congruence. rewrite upd_same, upd_neg'.
    cbn [option_map]. auto.
Qed.
