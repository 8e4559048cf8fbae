(** Two heaps that differ by a renaming of channels and by ends already dropped in one of them. *)
From Coq Require Import List Arith Bool Lia.
From Verif Require Import Session.
Import ListNotations.

(** ** Renaming *)
Definition ren (s : nat -> nat) (e : ep) : ep :=
  match e with ETx c => ETx (s c) | ERx c => ERx (s c) | EEnd t r => EEnd (s t) (s r) end.
Definition ren_msg (s : nat -> nat) (m : msg) : msg :=
  match m with Msg v ca k => Msg v (map (ren s) ca) (ren s k) | Sig g => Sig g end.
Definition chans (e : ep) : list nat := match e with ETx c | ERx c => [c] | EEnd t r => [t; r] end.

Lemma ren_ext : forall s s' e, (forall c, In c (chans e) -> s' c = s c) -> ren s' e = ren s e.
Proof. intros s s' [c|c|t r] H; cbn in *; f_equal; apply H; auto. Qed.

Definition mem (c : nat) (l : list nat) : bool := existsb (Nat.eqb c) l.
Lemma mem_in : forall c l, mem c l = true <-> In c l.
Proof.
  intros c l. unfold mem. rewrite existsb_exists. split.
  - intros (x & Hx & E). apply Nat.eqb_eq in E. subst. exact Hx.
  - intros H. exists c. split; [exact H|apply Nat.eqb_refl].
Qed.
Lemma mem_not : forall c l, mem c l = false <-> ~ In c l.
Proof.
  intros c l. destruct (mem c l) eqn:E; split; intros H; try congruence.
  - exfalso. apply H, mem_in, E.
  - intros Hin. apply mem_in in Hin. congruence.
Qed.

(** Pairs (channel to send on, channel to receive from) of ends of the old MeshedChannels of choices. *)
Definition lates := list (nat * nat).
Definition txs (D : lates) : list nat := map fst D.
Definition rxs (D : lates) : list nat := map snd D.

(** A channel of the first heap, in the second one: renamed, and with the ends in D dropped. *)
Definition seen (s : nat -> nat) (D : lates) (c : nat) (x : cell) : cell :=
  Cell (if mem c (rxs D) then None else option_map (ren_msg s) (buf x))
       (tx x && negb (mem c (txs D))) (rx x && negb (mem c (rxs D))).

Record same (s : nat -> nat) (D : lates) (h g : heap) : Prop := Same {
  sm_next : hnext g = hnext h;
  sm_inj : forall c d, s c = s d -> c = d;
  sm_low : forall c, c < hnext h -> s c < hnext h;
  sm_high : forall c, hnext h <= c -> s c = c;
  sm_cell : forall c, cells g (s c) = seen s D c (cells h c)
}.

(** ** What ends there are *)
Definition avoids (P : lates) (e : ep) : Prop := forall c, In c (chans e) -> ~ In c (txs P) /\ ~ In c (rxs P).
Definition low (N : nat) (e : ep) : Prop := forall c, In c (chans e) -> c < N.
Definition good (P : lates) (N : nat) (e : ep) : Prop := low N e /\ avoids P e.
Definition safe (P : lates) (N : nat) (e : ep) : Prop :=
  low N e /\ match e with ETx _ => True | ERx c => ~ In c (rxs P) | EEnd _ r => ~ In r (rxs P) end.
Lemma good_safe : forall P N e, good P N e -> safe P N e.
Proof. intros P N e [H1 H2]. split; [exact H1|]. destruct e; [exact I| |]; apply H2; cbn; auto. Qed.

Definition k_ok (P : lates) (N : nat) (v : value) (k : ep) : Prop :=
  match v with VData _ _ => good P N k | VLabel _ _ _ => safe P N k end.
Record content (P : lates) (h : heap) : Prop := Content {
  ct_msg : forall c v ca k, buf (cells h c) = Some (Msg v ca k) ->
    Forall (good P (hnext h)) ca /\ k_ok P (hnext h) v k;
  ct_late : forall t r, In (t, r) P -> t < hnext h /\ r < hnext h /\ buf (cells h r) = None;
  ct_high : forall c, hnext h <= c -> cells h c = dead
}.

Lemma in_rxs : forall D r, In r (rxs D) <-> exists t, In (t, r) D.
Proof.
  intros D r. unfold rxs. rewrite in_map_iff. split.
  - intros ([t r'] & E & H). cbn in E. subst. eauto.
  - intros [t H]. exists (t, r). auto.
Qed.
Lemma in_txs : forall D t, In t (txs D) <-> exists r, In (t, r) D.
Proof.
  intros D t. unfold txs. rewrite in_map_iff. split.
  - intros ([t' r] & E & H). cbn in E. subst. eauto.
  - intros [r H]. exists (t, r). auto.
Qed.
Lemma ct_rx : forall P h r, content P h -> In r (rxs P) -> r < hnext h /\ buf (cells h r) = None.
Proof. intros P h r C H. apply in_rxs in H. destruct H as [t H]. destruct (ct_late _ _ C t r H) as (_ & A & B). auto. Qed.
Lemma ct_tx : forall P h t, content P h -> In t (txs P) -> t < hnext h.
Proof. intros P h t C H. apply in_txs in H. destruct H as [r H]. apply (ct_late _ _ C t r H). Qed.

(** More ends to protect, all new. *)
Definition newer (N : nat) (P P' : lates) : Prop :=
  incl P P' /\ forall t r, In (t, r) P' -> In (t, r) P \/ (N <= t /\ N <= r).
Lemma newer_refl : forall N P, newer N P P.
Proof. intros N P. split; [apply incl_refl|]. auto. Qed.
Lemma low_mono : forall N N' e, low N e -> N <= N' -> low N' e.
Proof. intros N N' e H L c Hc. specialize (H c Hc). lia. Qed.
Lemma newer_rx : forall N P P' c, newer N P P' -> In c (rxs P') -> c < N -> In c (rxs P).
Proof.
  intros N P P' c [_ H] Hc L. apply in_rxs in Hc. destruct Hc as [t Hc]. apply in_rxs.
  destruct (H t c Hc) as [H1|H1]; [eauto|lia].
Qed.
Lemma newer_tx : forall N P P' c, newer N P P' -> In c (txs P') -> c < N -> In c (txs P).
Proof.
  intros N P P' c [_ H] Hc L. apply in_txs in Hc. destruct Hc as [r Hc]. apply in_txs.
  destruct (H c r Hc) as [H1|H1]; [eauto|lia].
Qed.
Lemma good_mono : forall P P' N N' e, good P N e -> newer N P P' -> N <= N' -> good P' N' e.
Proof.
  intros P P' N N' e [H1 H2] W L. split; [eapply low_mono; eauto|]. intros c Hc. specialize (H1 c Hc).
  destruct (H2 c Hc) as [H3 H4]. split; intros H; [apply H3; eapply newer_tx; eauto|apply H4; eapply newer_rx; eauto].
Qed.
Lemma safe_mono : forall P P' N N' e, safe P N e -> newer N P P' -> N <= N' -> safe P' N' e.
Proof.
  intros P P' N N' e [H1 H2] W L. split; [eapply low_mono; eauto|].
  destruct e as [c|c|t r]; [exact I| |]; intros H; apply H2; (eapply newer_rx; [exact W|exact H|apply H1; cbn; auto]).
Qed.
Lemma good_avoids : forall P D N e, good P N e -> incl D P -> avoids D e.
Proof.
  intros P D N e [_ H] I c Hc. destruct (H c Hc) as [H1 H2]. split; intros Hi.
  - apply H1. apply in_txs in Hi. destruct Hi as [r Hi]. apply in_txs. eauto.
  - apply H2. apply in_rxs in Hi. destruct Hi as [t Hi]. apply in_rxs. eauto.
Qed.
Lemma fresh_good : forall P h e N', content P h -> (forall c, In c (chans e) -> hnext h <= c < N') -> good P N' e.
Proof.
  intros P h e N' C H. split.
  - intros c Hc. apply H, Hc.
  - intros c Hc. specialize (H c Hc). split; intros Hi; [apply (ct_tx _ _ _ C) in Hi|apply (ct_rx _ _ _ C) in Hi]; lia.
Qed.

(** ** Cells *)
Lemma cells_set : forall h c x d, cells (set_cell h c x) d = if d =? c then x else cells h d.
Proof. reflexivity. Qed.

Lemma seen_plain : forall s D c x, ~ In c (txs D) -> ~ In c (rxs D) ->
  seen s D c x = Cell (option_map (ren_msg s) (buf x)) (tx x) (rx x).
Proof.
  intros s D c x H1 H2. apply mem_not in H1, H2. unfold seen. rewrite H1, H2. cbn. rewrite !andb_true_r. reflexivity.
Qed.

Lemma same_low : forall s D h g c, same s D h g -> c < hnext h -> s c < hnext h.
Proof. intros s D h g c S. apply S. Qed.
Lemma same_inj : forall s D h g c d, same s D h g -> s c = s d -> c = d.
Proof. intros s D h g c d S. apply S. Qed.

(** Changing one channel on both sides. *)
Lemma same_set : forall s D h g c x y, same s D h g -> y = seen s D c x ->
  same s D (set_cell h c x) (set_cell g (s c) y).
Proof.
  intros s D h g c x y S E. constructor; try apply S. intros d. rewrite !cells_set.
  destruct (Nat.eqb_spec d c) as [->|H].
  - rewrite Nat.eqb_refl. exact E.
  - destruct (Nat.eqb_spec (s d) (s c)) as [E'|]; [|apply S].
    exfalso. apply H. eapply same_inj; eauto.
Qed.
(** Changing one channel on one side only, where the other side does not see it. *)
Lemma same_set_left : forall s D h g c x, same s D h g -> seen s D c x = seen s D c (cells h c) ->
  same s D (set_cell h c x) g.
Proof.
  intros s D h g c x S E. constructor; try apply S. intros d. rewrite cells_set.
  destruct (Nat.eqb_spec d c) as [->|H]; [rewrite E|]; apply S.
Qed.

Lemma ren_high : forall s D h g e, same s D h g -> (forall c, In c (chans e) -> hnext h <= c) -> ren s e = e.
Proof. intros s D h g [c|c|t r] S H; cbn in *; f_equal; apply (sm_high _ _ _ _ S), H; auto. Qed.

Lemma content_set : forall P h c x, content P h -> c < hnext h ->
  (forall v ca k, buf x = Some (Msg v ca k) -> Forall (good P (hnext h)) ca /\ k_ok P (hnext h) v k) ->
  (buf x <> None -> ~ In c (rxs P)) -> content P (set_cell h c x).
Proof.
  intros P h c x C L H1 H2. constructor.
  - intros d v ca k. rewrite cells_set. cbn [hnext set_cell]. destruct (d =? c); [apply H1|apply C].
  - intros t r Hr. destruct (ct_late _ _ C t r Hr) as (A & B & E). cbn [hnext set_cell]. split; [exact A|]. split; [exact B|].
    rewrite cells_set. destruct (Nat.eqb_spec r c) as [->|]; [|exact E].
    destruct (buf x) eqn:Eb; [|reflexivity]. exfalso. apply H2; [discriminate|]. apply in_rxs. eauto.
  - intros d Hd. cbn [hnext set_cell] in Hd. rewrite cells_set. destruct (Nat.eqb_spec d c); [lia|]. apply C, Hd.
Qed.
Lemma content_more : forall P P' h, content P h -> newer (hnext h) P P' -> (forall t r, In (t, r) P' -> In (t, r) P) -> content P' h.
Proof.
  intros P P' h C W H. constructor.
  - intros c v ca k E. destruct (ct_msg _ _ C c v ca k E) as [H1 H2]. split.
    + eapply Forall_impl; [|exact H1]. intros a G. eapply good_mono; eauto.
    + destruct v; cbn in *; [eapply good_mono|eapply safe_mono]; eauto.
  - intros t r Hr. apply (ct_late _ _ C), H, Hr.
  - apply C.
Qed.

(** ** New channels *)
Lemma bounded1_cells : forall h d, cells (snd (bounded1 h)) d = if d =? hnext h then Cell None true true else cells h d.
Proof. reflexivity. Qed.

Lemma seen_fresh : forall s D P h c x, content P h -> incl D P -> hnext h <= c ->
  seen s D c x = Cell (option_map (ren_msg s) (buf x)) (tx x) (rx x).
Proof.
  intros s D P h c x C I L. apply seen_plain; intros H.
  - apply in_txs in H. destruct H as [r H]. apply I in H. destruct (ct_late _ _ C _ _ H). lia.
  - apply in_rxs in H. destruct H as [t H]. apply I in H. destruct (ct_late _ _ C _ _ H) as (_ & Q & _). lia.
Qed.

Lemma same_bounded1 : forall s D P h g, same s D h g -> content P h -> incl D P ->
  same s D (snd (bounded1 h)) (snd (bounded1 g)) /\ fst (bounded1 g) = fst (bounded1 h).
Proof.
  intros s D P h g S C I. split; [|apply S]. constructor.
  - cbn. rewrite (sm_next _ _ _ _ S). reflexivity.
  - apply S.
  - intros c Hc. cbn in Hc |- *. destruct (Nat.eq_dec c (hnext h)) as [->|].
    + rewrite (sm_high _ _ _ _ S); lia.
    + pose proof (sm_low _ _ _ _ S c ltac:(lia)). lia.
  - intros c Hc. cbn in Hc. apply (sm_high _ _ _ _ S). lia.
  - intros c. rewrite !bounded1_cells. rewrite (sm_next _ _ _ _ S). destruct (Nat.eqb_spec c (hnext h)) as [->|H].
    + rewrite (sm_high _ _ _ _ S) by lia. rewrite Nat.eqb_refl. rewrite (seen_fresh _ _ _ _ _ _ C I (le_n _)). reflexivity.
    + destruct (Nat.eqb_spec (s c) (hnext h)) as [E|]; [|apply S].
      exfalso. apply H. apply (sm_inj _ _ _ _ S). rewrite E. symmetry. apply (sm_high _ _ _ _ S). lia.
Qed.
Lemma content_bounded1 : forall P h, content P h -> content P (snd (bounded1 h)).
Proof.
  intros P h C. constructor.
  - intros c v ca k. rewrite bounded1_cells. destruct (c =? hnext h); [discriminate|]. intros E.
    destruct (ct_msg _ _ C c v ca k E) as [H1 H2]. split.
    + eapply Forall_impl; [|exact H1]. intros a G. eapply good_mono; [exact G|apply newer_refl|cbn; lia].
    + destruct v; cbn in *; [eapply good_mono|eapply safe_mono]; eauto; try apply newer_refl; cbn; lia.
  - intros t r Hr. destruct (ct_late _ _ C t r Hr) as (A & B & E). rewrite bounded1_cells. cbn [hnext snd bounded1].
    destruct (Nat.eqb_spec r (hnext h)); [lia|]. split; [lia|]. split; [lia|exact E].
  - intros c Hc. cbn in Hc. rewrite bounded1_cells. destruct (Nat.eqb_spec c (hnext h)); [lia|]. apply C. lia.
Qed.

Lemma same_new : forall s D P h g t a b h1, same s D h g -> content P h -> incl D P -> heap_new t h = (a, b, h1) ->
  exists g1, heap_new t g = (a, b, g1) /\ same s D h1 g1 /\ content P h1 /\ hnext h < hnext h1 /\
    (forall c, In c (chans a) \/ In c (chans b) -> hnext h <= c < hnext h1).
Proof.
  intros s D P h g t a b h1 S C I E.
  destruct (same_bounded1 s D P h g S C I) as [S1 E1]. pose proof (content_bounded1 P h C) as C1.
  destruct t as [|q t|q t]; unfold heap_new in *.
  - destruct (bounded1 h) as [c1 k1] eqn:B1. destruct (bounded1 g) as [c1' k1'] eqn:B1'. cbn [fst snd] in *.
    destruct (same_bounded1 s D P k1 k1' S1 C1 I) as [S2 E2]. pose proof (content_bounded1 P k1 C1) as C2.
    destruct (bounded1 k1) as [c2 k2] eqn:B2. destruct (bounded1 k1') as [c2' k2'] eqn:B2'. cbn [fst snd] in *.
    injection E as <- <- <-. subst c1' c2'. exists k2'. split; [reflexivity|]. split; [exact S2|]. split; [exact C2|].
    unfold bounded1 in B1, B2. injection B1 as <- <-. injection B2 as <- <-. cbn. split; [lia|]. intros c Hc. intuition lia.
  - destruct (bounded1 h) as [c1 k1] eqn:B1. destruct (bounded1 g) as [c1' k1'] eqn:B1'. cbn [fst snd] in *.
    injection E as <- <- <-. subst c1'. exists k1'. split; [reflexivity|]. split; [exact S1|]. split; [exact C1|].
    unfold bounded1 in B1. injection B1 as <- <-. cbn. split; [lia|]. intros c Hc. intuition lia.
  - destruct (bounded1 h) as [c1 k1] eqn:B1. destruct (bounded1 g) as [c1' k1'] eqn:B1'. cbn [fst snd] in *.
    injection E as <- <- <-. subst c1'. exists k1'. split; [reflexivity|]. split; [exact S1|]. split; [exact C1|].
    unfold bounded1 in B1. injection B1 as <- <-. cbn. split; [lia|]. intros c Hc. intuition lia.
Qed.

Lemma ren_msgs_low : forall P h s s' c, content P h -> (forall c, c < hnext h -> s' c = s c) ->
  option_map (ren_msg s') (buf (cells h c)) = option_map (ren_msg s) (buf (cells h c)).
Proof.
  intros P h s s' c C H. destruct (buf (cells h c)) as [[v ca k|g]|] eqn:E; try reflexivity.
  destruct (ct_msg _ _ C c v ca k E) as [H1 H2]. cbn. do 2 f_equal.
  - apply map_ext_in. intros a Ha. apply ren_ext. intros d Hd. apply H.
    rewrite Forall_forall in H1. apply (H1 a Ha). exact Hd.
  - apply ren_ext. intros d Hd. apply H. destruct v; cbn in H2; apply H2; exact Hd.
Qed.

(** The same session created from its other side. *)
Lemma same_new_flip : forall s D P h g t a b h1, same s D h g -> content P h -> incl D P -> heap_new t h = (a, b, h1) ->
  exists s' a' b' g1, heap_new (co t) g = (a', b', g1) /\ a' = ren s' b /\ b' = ren s' a /\ same s' D h1 g1 /\
    (forall c, c < hnext h -> s' c = s c).
Proof.
  intros s D P h g t a b h1 S C I E.
  destruct (same_new s D P h g t a b h1 S C I E) as (g1 & E1 & S1 & C1 & L1 & F1).
  assert (K : t <> End -> exists a' b' g1, heap_new (co t) g = (a', b', g1) /\ a' = ren s b /\ b' = ren s a /\ same s D h1 g1).
  { intros Ht. exists b, a, g1. split.
    - destruct t; [congruence| |]; cbn in *; injection E1 as <- <- <-; reflexivity.
    - rewrite (ren_high s D h g b S) by (intros c Hc; apply F1; auto).
      rewrite (ren_high s D h g a S) by (intros c Hc; apply F1; auto). auto. }
  destruct t as [|q t|q t].
  2,3: destruct K as (a' & b' & g2 & K1 & K2 & K3 & K4); [discriminate|exists s, a', b', g2; auto 6].
  clear K E1 S1 F1. cbn in E. injection E as <- <- <-.
  pose proof (sm_next _ _ _ _ S) as En. set (N := hnext h) in *.
  set (s' := fun c => if c =? N then 1 + N else if c =? 1 + N then N else s c).
  exists s', (EEnd N (1 + N)), (EEnd (1 + N) N). eexists. split.
  { cbn. rewrite En. reflexivity. }
  assert (A1 : s' N = 1 + N) by (unfold s'; rewrite Nat.eqb_refl; reflexivity).
  assert (A2 : s' (1 + N) = N).
  { unfold s'. destruct (Nat.eqb_spec (1 + N) N); [lia|]. rewrite Nat.eqb_refl. reflexivity. }
  assert (A3 : forall c, c <> N -> c <> 1 + N -> s' c = s c).
  { intros c H1 H2. unfold s'. destruct (Nat.eqb_spec c N); [lia|]. destruct (Nat.eqb_spec c (1 + N)); [lia|reflexivity]. }
  assert (A4 : forall c, c < N -> s' c = s c) by (intros; apply A3; lia).
  split; [cbn [ren]; change (Datatypes.S N) with (1 + N); rewrite A1, A2; reflexivity|].
  split; [cbn [ren]; change (Datatypes.S N) with (1 + N); rewrite A1, A2; reflexivity|]. split; [|exact A4].
  assert (Hhi : forall c, N <= c -> s c = c) by apply S.
  assert (Hlo : forall c, c < N -> s c < N) by (intros c; apply (same_low s D h g c S)).
  constructor.
  - cbn. rewrite ?En. reflexivity.
  - assert (V : forall c, (c < N /\ s' c = s c /\ s c < N) \/ (c = N /\ s' c = 1 + N) \/ (c = 1 + N /\ s' c = N) \/ (1 + N < c /\ s' c = c)).
    { intros c. destruct (Nat.eq_dec c N) as [->|H1]; [auto|]. destruct (Nat.eq_dec c (1 + N)) as [->|H2]; [auto|].
      destruct (Nat.lt_ge_cases c N) as [L|L]; [left; auto|]. right. right. right. split; [lia|]. rewrite A3 by assumption. apply Hhi, L. }
    intros c d Ecd.
    destruct (V c) as [(Q1 & Q2 & Q3)|[(Q1 & Q2)|[(Q1 & Q2)|(Q1 & Q2)]]];
      destruct (V d) as [(Z1 & Z2 & Z3)|[(Z1 & Z2)|[(Z1 & Z2)|(Z1 & Z2)]]]; try lia.
    apply (sm_inj _ _ _ _ S). lia.
  - intros c Hc. cbn in Hc |- *. destruct (Nat.eq_dec c N) as [->|H1]; [rewrite A1; lia|].
    destruct (Nat.eq_dec c (1 + N)) as [->|H2]; [rewrite A2; lia|]. rewrite A3 by assumption. specialize (Hlo c ltac:(lia)). lia.
  - intros c Hc. cbn in Hc. rewrite A3 by lia. apply Hhi. lia.
  - intros c. cbn [cells set_cell bounded1].
    assert (Z : forall x y : nat, x <> y -> (x =? y) = false) by (intros x y Hxy; apply Nat.eqb_neq, Hxy).
    change (Datatypes.S N) with (1 + N) in *. rewrite ?En.
    destruct (Nat.eq_dec c N) as [->|H1].
    + rewrite A1, ?Nat.eqb_refl, ?(Z N (1 + N)), ?(Z (1 + N) N) by lia. rewrite ?Nat.eqb_refl.
      rewrite (seen_fresh _ _ _ _ _ _ C I (le_n _)). reflexivity.
    + destruct (Nat.eq_dec c (1 + N)) as [->|H2].
      * rewrite A2, ?Nat.eqb_refl, ?(Z N (1 + N)), ?(Z (1 + N) N) by lia. rewrite ?Nat.eqb_refl.
        rewrite (seen_fresh _ _ _ _ _ _ C I (Nat.le_succ_diag_r _)). reflexivity.
      * rewrite (A3 c H1 H2). rewrite (Z c N H1), (Z c (1 + N) H2).
        assert (s c <> N /\ s c <> 1 + N) as [Q1 Q2].
        { destruct (Nat.lt_ge_cases c N) as [L|L]; [specialize (Hlo c L)|rewrite (Hhi c L)]; lia. }
        rewrite (Z _ _ Q1), (Z _ _ Q2).
        rewrite (sm_cell _ _ _ _ S c). unfold seen. f_equal. destruct (mem c (rxs D)); [reflexivity|].
        symmetry. eapply ren_msgs_low; eauto.
Qed.

(** ** The operations *)
Lemma cell_avoid : forall s D h g c, same s D h g -> ~ In c (txs D) -> ~ In c (rxs D) ->
  cells g (s c) = Cell (option_map (ren_msg s) (buf (cells h c))) (tx (cells h c)) (rx (cells h c)).
Proof. intros s D h g c S H1 H2. rewrite (sm_cell _ _ _ _ S). apply seen_plain; assumption. Qed.

Lemma chans_lt : forall P N e c, good P N e -> In c (chans e) -> c < N.
Proof. intros P N e c [H _] Hc. apply H, Hc. Qed.

(** Everything an operation needs. *)
Record hrel (s : nat -> nat) (P D : lates) (h g : heap) : Prop := Env {
  en_same : same s D h g; en_content : content P h; en_incl : incl D P
}.

Lemma env_send : forall s P D h g e v ca t, hrel s P D h g -> good P (hnext h) e -> Forall (good P (hnext h)) ca ->
  match heap_send e v ca t h with
  | SentOk x h' => exists g' y, heap_send (ren s e) v (map (ren s) ca) t g = SentOk (ren s x) g' /\
      same s D h' g' /\ hnext h < hnext h' /\ (forall c, In c (chans x) \/ In c (chans y) -> hnext h <= c < hnext h') /\
      (forall P', newer (hnext h) P P' ->
         (forall t r, In (t, r) P' -> In (t, r) P \/ (hnext h <= t < hnext h' /\ hnext h <= r < hnext h')) ->
         k_ok P' (hnext h') v y -> content P' h') /\ exists h0, heap_new t h = (x, y, h0)
  | SentLost x lost h' => exists g' y, heap_send (ren s e) v (map (ren s) ca) t g = SentLost (ren s x) (map (ren s) lost) g' /\
      same s D h' g' /\ hnext h < hnext h' /\ (forall c, In c (chans x) \/ In c (chans y) -> hnext h <= c < hnext h') /\
      lost = ca ++ [y] /\
      (forall P', newer (hnext h) P P' ->
         (forall t r, In (t, r) P' -> In (t, r) P \/ (hnext h <= t < hnext h' /\ hnext h <= r < hnext h')) -> content P' h')
      /\ exists h0, heap_new t h = (x, y, h0)
  | SentWait => heap_send (ren s e) v (map (ren s) ca) t g = SentWait
  | SentBad => heap_send (ren s e) v (map (ren s) ca) t g = SentBad
  end.
Proof.
  intros s P D h g e v ca t [S C I] Ge Gc. unfold heap_send. destruct e as [c|c|c1 c2]; cbn [ren]; [|reflexivity|reflexivity].
  destruct (heap_new t h) as [[x y] h1] eqn:E. destruct (same_new s D P h g t x y h1 S C I E) as (g1 & E1 & S1 & C1 & L & F).
  rewrite E1. pose proof (good_avoids _ _ _ _ Ge I c ltac:(cbn; auto)) as [N1 N2].
  pose proof (chans_lt _ _ _ c Ge ltac:(cbn; auto)) as Hc.
  destruct (proj2 Ge c ltac:(cbn; auto)) as [M1 M2].
  assert (Fx : ren s x = x) by (apply (ren_high s D h g x S); intros d Hd; apply F; auto).
  assert (Fy : ren s y = y) by (apply (ren_high s D h g y S); intros d Hd; apply F; auto).
  pose proof (cell_avoid s D h1 g1 c S1 N1 N2) as Ec. rewrite Ec. cbn [buf tx rx].
  assert (More : forall P', newer (hnext h) P P' ->
     (forall t r, In (t, r) P' -> In (t, r) P \/ (hnext h <= t < hnext h1 /\ hnext h <= r < hnext h1)) -> content P' h1).
  { intros P' W Z. constructor.
    - intros d v0 ca0 k0 E0.
      assert (Hd : d < hnext h).
      { destruct (Nat.lt_ge_cases d (hnext h)) as [|Hd]; [assumption|exfalso].
        clear - E E0 Hd C. destruct t; cbn in E; injection E as <- <- <-; cbn in E0; pose proof (ct_high _ _ C d Hd) as Q;
          repeat match type of E0 with context [if ?b then _ else _] => destruct b; try discriminate end; rewrite Q in E0; discriminate. }
      assert (E0' : buf (cells h d) = Some (Msg v0 ca0 k0)).
      { clear - E E0 Hd. destruct t; cbn in E; injection E as <- <- <-; cbn in E0;
          repeat match type of E0 with context [?a =? ?b] => destruct (Nat.eqb_spec a b); try lia end; exact E0. }
      destruct (ct_msg _ _ C d v0 ca0 k0 E0') as [H1 H2]. split.
      + eapply Forall_impl; [|exact H1]. intros a G. eapply good_mono; [exact G|exact W|lia].
      + destruct v0; cbn in *; [eapply good_mono|eapply safe_mono]; eauto; lia.
    - intros t0 r0 Hr. destruct (Z t0 r0 Hr) as [H|[H1 H2]].
      + apply (ct_late _ _ C1), H.
      + split; [lia|]. split; [lia|]. clear - E H2 C.
        destruct t; cbn in E; injection E as <- <- <-; cbn; cbn in H2;
          repeat match goal with |- context [?a =? ?b] => destruct (Nat.eqb_spec a b); try reflexivity end;
          rewrite (ct_high _ _ C) by lia; reflexivity.
    - apply C1. }
  destruct (rx (cells h1 c)) eqn:Erx.
  - destruct (buf (cells h1 c)) as [m|] eqn:Eb; cbn [option_map]; [reflexivity|].
    exists (set_cell g1 (s c) (Cell (Some (Msg v (map (ren s) ca) (ren s y))) false true)), y.
    split; [rewrite Fx, Fy; reflexivity|]. split.
    { apply same_set; [exact S1|]. rewrite seen_plain by assumption. reflexivity. }
    split; [exact L|]. split; [exact F|]. split; [|eauto].
    intros P' W Z Ky. apply content_set.
    + apply More; assumption.
    + lia.
    + intros v0 ca0 k0 E0. injection E0 as <- <- <-. split; [|exact Ky].
      eapply Forall_impl; [|exact Gc]. intros a G. eapply good_mono; [exact G|exact W|lia].
    + intros _ Hi. apply M2. eapply newer_rx; eauto.
  - exists (set_cell g1 (s c) (Cell (option_map (ren_msg s) (buf (cells h1 c))) false false)), y.
    split; [rewrite Fx, map_app; cbn [map]; rewrite Fy; reflexivity|]. split.
    { apply same_set; [exact S1|]. rewrite seen_plain by assumption. reflexivity. }
    split; [exact L|]. split; [exact F|]. split; [reflexivity|]. split; [|eauto].
    intros P' W Z. specialize (More P' W Z). apply content_set; [exact More|lia| |].
    + intros v0 ca0 k0 E0. cbn [buf] in E0. apply (ct_msg _ _ More) in E0. exact E0.
    + intros _ Hi. apply M2. eapply newer_rx; eauto.
Qed.

Lemma env_recv : forall s P D h g e, hrel s P D h g -> good P (hnext h) e ->
  match heap_recv e h with
  | Got v ca k h' => exists g', heap_recv (ren s e) g = Got v (map (ren s) ca) (ren s k) g' /\ hrel s P D h' g' /\ hnext h' = hnext h /\
      Forall (good P (hnext h)) ca /\ k_ok P (hnext h) v k
  | GotErr h' => exists g', heap_recv (ren s e) g = GotErr g' /\ hrel s P D h' g' /\ hnext h' = hnext h
  | GotWait => heap_recv (ren s e) g = GotWait
  | GotBad => heap_recv (ren s e) g = GotBad
  end.
Proof.
  intros s P D h g e [S C I] Ge. unfold heap_recv. destruct e as [c|c|c1 c2]; cbn [ren]; [reflexivity| |reflexivity].
  pose proof (good_avoids _ _ _ _ Ge I c ltac:(cbn; auto)) as [N1 N2].
  pose proof (chans_lt _ _ _ c Ge ltac:(cbn; auto)) as Hc. destruct (proj2 Ge c ltac:(cbn; auto)) as [M1 M2].
  rewrite (cell_avoid s D h g c S N1 N2). cbn [buf tx rx].
  destruct (buf (cells h c)) as [[v ca k|sg]|] eqn:Eb; cbn [option_map ren_msg]; [|reflexivity|].
  - eexists. split; [reflexivity|]. destruct (ct_msg _ _ C c v ca k Eb) as [H1 H2].
    split; [|split; [reflexivity|split; assumption]]. constructor; [| |exact I].
    + apply same_set; [exact S|]. rewrite seen_plain by assumption. reflexivity.
    + apply content_set; [exact C|exact Hc|discriminate|]. intros H. cbn in H. congruence.
  - destruct (tx (cells h c)); [reflexivity|]. eexists. split; [reflexivity|]. split; [|reflexivity]. constructor; [| |exact I].
    + apply same_set; [exact S|]. rewrite seen_plain by assumption. reflexivity.
    + apply content_set; [exact C|exact Hc|discriminate|]. intros H. cbn in H. congruence.
Qed.

Lemma env_tell : forall s P D h g e sg, hrel s P D h g -> good P (hnext h) e ->
  match heap_tell e sg h with
  | TellOk h' => exists g', heap_tell (ren s e) sg g = TellOk g' /\ hrel s P D h' g' /\ hnext h' = hnext h
  | TellErr => heap_tell (ren s e) sg g = TellErr
  | TellWait => heap_tell (ren s e) sg g = TellWait
  | TellBad => heap_tell (ren s e) sg g = TellBad
  end.
Proof.
  intros s P D h g e sg [S C I] Ge. unfold heap_tell. destruct e as [c|c|c r]; cbn [ren]; [reflexivity|reflexivity|].
  pose proof (good_avoids _ _ _ _ Ge I c ltac:(cbn; auto)) as [N1 N2].
  pose proof (chans_lt _ _ _ c Ge ltac:(cbn; auto)) as Hc. destruct (proj2 Ge c ltac:(cbn; auto)) as [M1 M2].
  rewrite (cell_avoid s D h g c S N1 N2). cbn [buf tx rx]. destruct (rx (cells h c)); [|reflexivity].
  destruct (buf (cells h c)) as [m|] eqn:Eb; cbn [option_map]; [reflexivity|].
  eexists. split; [reflexivity|]. split; [|reflexivity]. constructor; [| |exact I].
  + apply same_set; [exact S|]. rewrite seen_plain by assumption. reflexivity.
  + apply content_set; [exact C|exact Hc|discriminate|]. intros _. exact M2.
Qed.

Lemma env_hear : forall s P D h g e, hrel s P D h g -> good P (hnext h) e ->
  match heap_hear e h with
  | Heard sg h' => exists g', heap_hear (ren s e) g = Heard sg g' /\ hrel s P D h' g' /\ hnext h' = hnext h
  | HearErr => heap_hear (ren s e) g = HearErr
  | HearWait => heap_hear (ren s e) g = HearWait
  | HearBad => heap_hear (ren s e) g = HearBad
  end.
Proof.
  intros s P D h g e [S C I] Ge. unfold heap_hear. destruct e as [c|c|r c]; cbn [ren]; [reflexivity|reflexivity|].
  pose proof (good_avoids _ _ _ _ Ge I c ltac:(cbn; auto)) as [N1 N2].
  pose proof (chans_lt _ _ _ c Ge ltac:(cbn; auto)) as Hc. destruct (proj2 Ge c ltac:(cbn; auto)) as [M1 M2].
  rewrite (cell_avoid s D h g c S N1 N2). cbn [buf tx rx].
  destruct (buf (cells h c)) as [[v ca k|sg]|] eqn:Eb; cbn [option_map ren_msg]; [reflexivity| |].
  - eexists. split; [reflexivity|]. split; [|reflexivity]. constructor; [| |exact I].
    + apply same_set; [exact S|]. rewrite seen_plain by assumption. reflexivity.
    + apply content_set; [exact C|exact Hc|discriminate|]. intros H. cbn in H. congruence.
  - destruct (tx (cells h c)); reflexivity.
Qed.

(** A drop done by both. *)
Lemma env_drop : forall s P D h g e out h', hrel s P D h g -> safe P (hnext h) e -> heap_drop e h = (out, h') ->
  exists g', heap_drop (ren s e) g = (map (ren s) out, g') /\ hrel s P D h' g' /\ hnext h' = hnext h /\
    Forall (safe P (hnext h)) out.
Proof.
  intros s P D h g e out h' [S C I] [Lw Sf] E. unfold heap_drop in *.
  destruct e as [c|c|t r]; cbn [ren]; injection E as <- <-.
  - eexists. split; [reflexivity|]. split; [|split; [reflexivity|constructor]]. constructor; [| |exact I].
    + apply same_set; [exact S|]. rewrite (sm_cell _ _ _ _ S). unfold seen. cbn. reflexivity.
    + apply content_set; [exact C|apply Lw; cbn; auto|intros v ca k Eb; exact (ct_msg _ _ C c v ca k Eb)|].
      cbn [buf]. intros Hb Hi. destruct (ct_rx _ _ _ C Hi) as [_ Q]. congruence.
  - assert (Nr : ~ In c (rxs D)).
    { intros H. apply Sf. apply in_rxs in H. destruct H as [t H]. apply in_rxs. eauto. }
    assert (Hg : cells g (s c) = seen s D c (cells h c)) by apply S.
    assert (Eb : buf (cells g (s c)) = option_map (ren_msg s) (buf (cells h c))).
    { rewrite Hg. unfold seen. cbn. apply mem_not in Nr. rewrite Nr. reflexivity. }
    rewrite Eb. eexists. split; [|split; [|split; [reflexivity|]]].
    + f_equal. destruct (buf (cells h c)) as [[v ca k|sg]|]; cbn; try reflexivity. rewrite map_app. reflexivity.
    + constructor; [| |exact I].
      * apply same_set; [exact S|]. rewrite Hg. unfold seen. cbn. destruct (mem c (rxs D)); reflexivity.
      * apply content_set; [exact C|apply Lw; cbn; auto|discriminate|]. intros H. cbn in H. congruence.
    + destruct (buf (cells h c)) as [[v ca k|sg]|] eqn:E0; try constructor.
      destruct (ct_msg _ _ C c v ca k E0) as [H1 H2]. apply Forall_app. split.
      * eapply Forall_impl; [|exact H1]. intros a. apply good_safe.
      * constructor; [|constructor]. destruct v; cbn in H2; [apply good_safe, H2|exact H2].
  - eexists. split; [reflexivity|]. split; [|split; [reflexivity|]].
    + constructor; [| |exact I].
      * apply same_set; [exact S|]. rewrite (sm_cell _ _ _ _ S). unfold seen. cbn. reflexivity.
      * apply content_set; [exact C|apply Lw; cbn; auto|intros v ca k Eb; exact (ct_msg _ _ C t v ca k Eb)|].
        cbn [buf]. intros Hb Hi. destruct (ct_rx _ _ _ C Hi) as [_ Q]. congruence.
    + constructor; [|constructor]. split; [|exact Sf]. intros c [<-|[]]. apply Lw. cbn. auto.
Qed.

(** The drop of an end of the old MeshedChannels on the second heap only. *)
Lemma env_ahead : forall s P D h g t r, hrel s P D h g -> In (t, r) P ->
  exists g1 g2, heap_drop (ren s (EEnd t r)) g = ([ren s (ERx r)], g1) /\ heap_drop (ren s (ERx r)) g1 = ([], g2) /\
    hrel s P ((t, r) :: D) h g2.
Proof.
  intros s P D h g t r [S C I] Hp. unfold heap_drop. cbn [ren].
  set (g1 := set_cell g (s t) (Cell (buf (cells g (s t))) false (rx (cells g (s t))))).
  destruct (ct_late _ _ C t r Hp) as (Ht & Hr & Eb).
  assert (Q : buf (cells g1 (s r)) = None).
  { unfold g1. rewrite cells_set. assert (Q0 : buf (cells g (s r)) = None).
    { rewrite (sm_cell _ _ _ _ S). unfold seen. cbn. rewrite Eb. destruct (mem r (rxs D)); reflexivity. }
    destruct (Nat.eqb_spec (s r) (s t)) as [E|E]; [cbn; rewrite <- E; exact Q0|exact Q0]. }
  exists g1, (set_cell g1 (s r) (Cell None (tx (cells g1 (s r))) false)). split; [reflexivity|]. split; [rewrite Q; reflexivity|].
  constructor; [|exact C|].
  - constructor; try apply S. intros c. rewrite cells_set. unfold g1. rewrite !cells_set.
    unfold seen, rxs, txs, mem. cbn [map fst snd existsb]. fold (mem c (rxs D)) (mem c (txs D)).
    fold (rxs D) (txs D). change (existsb (Nat.eqb c) (rxs D)) with (mem c (rxs D)). change (existsb (Nat.eqb c) (txs D)) with (mem c (txs D)).
    assert (Hs : forall d, (s c =? s d) = (c =? d)).
    { intros d. destruct (Nat.eqb_spec c d) as [->|H]; [apply Nat.eqb_refl|]. apply Nat.eqb_neq. intros E. apply H. eapply same_inj; eauto. }
    rewrite !Hs. destruct (Nat.eqb_spec c r) as [->|Hcr].
    + rewrite Nat.eqb_sym. destruct (Nat.eqb_spec r t) as [->|Hrt].
      * rewrite Nat.eqb_refl. cbn. rewrite !andb_false_r. reflexivity.
      * rewrite (proj2 (Nat.eqb_neq (s t) (s r))) by (intros E; apply Hrt; symmetry; eapply same_inj; eauto).
        cbn. rewrite (sm_cell _ _ _ _ S). unfold seen. cbn. rewrite !andb_false_r. reflexivity.
    + destruct (Nat.eqb_spec c t) as [->|Hct]; cbn.
      * rewrite (sm_cell _ _ _ _ S). unfold seen. cbn. rewrite andb_false_r. reflexivity.
      * rewrite (sm_cell _ _ _ _ S). reflexivity.
  - intros x [<-|Hx]; [exact Hp|apply I, Hx].
Qed.

(** The same drop, later, on the first heap only. *)
Lemma env_behind_end : forall s P D h g t r, hrel s P D h g -> In (t, r) D ->
  exists h', heap_drop (EEnd t r) h = ([ERx r], h') /\ hrel s P D h' g /\ hnext h' = hnext h.
Proof.
  intros s P D h g t r [S C I] Hd. destruct (ct_late _ _ C t r (I _ Hd)) as (Ht & Hr & Eb).
  eexists. split; [reflexivity|]. split; [|reflexivity]. constructor; [| |exact I].
  - apply same_set_left; [exact S|]. unfold seen. cbn. f_equal.
    assert (M : mem t (txs D) = true) by (apply mem_in, in_txs; eauto). rewrite M. cbn. rewrite andb_false_r. reflexivity.
  - apply content_set; [exact C|exact Ht|intros v ca k E; exact (ct_msg _ _ C t v ca k E)|].
    cbn [buf]. intros Hb Hi. destruct (ct_rx _ _ _ C Hi) as [_ Q]. congruence.
Qed.
Lemma env_behind_rx : forall s P D h g r, hrel s P D h g -> In r (rxs D) ->
  exists h', heap_drop (ERx r) h = ([], h') /\ hrel s P D h' g /\ hnext h' = hnext h.
Proof.
  intros s P D h g r [S C I] Hd.
  assert (Hp : In r (rxs P)). { apply in_rxs in Hd. destruct Hd as [t Hd]. apply in_rxs. eauto. }
  destruct (ct_rx _ _ _ C Hp) as [Hr Eb].
  cbn. rewrite Eb. eexists. split; [reflexivity|]. split; [|reflexivity]. constructor; [| |exact I].
  - apply same_set_left; [exact S|]. unfold seen. cbn. apply mem_in in Hd. rewrite Hd. cbn. rewrite andb_false_r. reflexivity.
  - apply content_set; [exact C|exact Hr|discriminate|]. intros H. cbn in H. congruence.
Qed.
