(** The hand-written choices for three roles against the enum choice. Proofs. The new channels are created in another
    order and from the other side: the two heaps differ by a renaming of the new channels. *)
From Coq Require Import List Arith Bool Lia.
From Verif Require Import Types Diag Wiring WiringProofs Session Mesh MeshSpec Links LinksProofs Refine Sim MeshWire Three BinMesh BinSpec
  BinHeap BinWire BinSim ThreeMesh.
Import ListNotations.

(** ** Any renaming of the new channels *)
Definition fresh : cell := Cell None true true.
Definition within (N M c : nat) : bool := (N <=? c) && (c <? M).
Definition grown (h h1 : heap) (M : nat) : Prop :=
  hnext h1 = M /\ forall c, cells h1 c = if within (hnext h) M c then fresh else cells h c.

Lemma content_grown : forall P h h1 M, content P h -> grown h h1 M -> hnext h <= M -> content P h1.
Proof.
  intros P h h1 M C [G1 G2] L. constructor.
  - intros c v ca k. rewrite G2. destruct (within _ _ _); [discriminate|]. intros E.
    destruct (ct_msg _ _ C c v ca k E) as [H1 H2]. split.
    + eapply Forall_impl; [|exact H1]. intros a G. eapply good_mono; [exact G|apply newer_refl|lia].
    + destruct v; cbn in *; [eapply good_mono|eapply safe_mono]; eauto; try apply newer_refl; lia.
  - intros t r Hr. destruct (ct_late _ _ C t r Hr) as (A & B & E). rewrite G2. split; [lia|]. split; [lia|].
    destruct (within _ _ _); [reflexivity|exact E].
  - intros c Hc. rewrite G2. unfold within. destruct (Nat.ltb_spec c M); [lia|]. rewrite andb_false_r. apply C. lia.
Qed.

Definition extend (N M : nat) (s k : nat -> nat) (c : nat) : nat := if c <? N then s c else if c <? M then k c else c.
Lemma hrel_grown : forall s P D h g h1 g1 M k, hrel s P D h g -> grown h h1 M -> grown g g1 M -> hnext h <= M ->
  (forall c, hnext h <= c < M -> hnext h <= k c < M) ->
  (forall c d, hnext h <= c < M -> hnext h <= d < M -> k c = k d -> c = d) ->
  hrel (extend (hnext h) M s k) P D h1 g1.
Proof.
  intros s P D h g h1 g1 M k [S C I] G1 G2 L K1 K2. constructor; [|eapply content_grown; eauto|exact I].
  pose proof (sm_next _ _ _ _ S) as En. destruct G1 as [G1 G1c]. destruct G2 as [G2 G2c]. set (N := hnext h) in *. set (s' := extend N M s k).
  assert (V : forall c, (c < N /\ s' c = s c /\ s c < N) \/ (N <= c < M /\ s' c = k c /\ N <= k c < M) \/ (M <= c /\ s' c = c)).
  { intros c. unfold s', extend. destruct (Nat.ltb_spec c N) as [H|H].
    - left. split; [exact H|]. split; [reflexivity|]. apply S, H.
    - destruct (Nat.ltb_spec c M) as [H'|H']; [|right; right; auto]. right. left. split; [auto|]. split; [reflexivity|]. apply K1. auto. }
  constructor.
  - congruence.
  - intros c d E. destruct (V c) as [(A1 & A2 & A3)|[(A1 & A2 & A3)|(A1 & A2)]]; destruct (V d) as [(B1 & B2 & B3)|[(B1 & B2 & B3)|(B1 & B2)]]; try lia.
    + apply (sm_inj _ _ _ _ S). congruence.
    + apply K2; try assumption. congruence.
  - intros c Hc. rewrite G1 in *. destruct (V c) as [(A1 & A2 & A3)|[(A1 & A2 & A3)|(A1 & A2)]]; lia.
  - intros c Hc. rewrite G1 in *. destruct (V c) as [(A1 & A2 & A3)|[(A1 & A2 & A3)|(A1 & A2)]]; lia.
  - intros c. rewrite G1c, G2c, En. fold N. unfold within.
    destruct (V c) as [(A1 & A2 & A3)|[(A1 & A2 & A3)|(A1 & A2)]]; rewrite A2.
    + destruct (Nat.leb_spec N c); [lia|]. destruct (Nat.leb_spec N (s c)); [lia|]. cbn [andb].
      rewrite (sm_cell _ _ _ _ S c). unfold seen. f_equal. destruct (mem c (rxs D)); [reflexivity|].
      symmetry. eapply ren_msgs_low; [exact C|]. intros d Hd. destruct (V d) as [(? & ? & ?)|[(? & ? & ?)|(? & ?)]]; [assumption|lia|lia].
    + destruct (Nat.leb_spec N c); [|lia]. destruct (Nat.leb_spec N (k c)); [|lia]. destruct (Nat.ltb_spec c M); [|lia].
      destruct (Nat.ltb_spec (k c) M); [|lia]. cbn [andb]. rewrite (seen_fresh _ _ _ h _ _ C I) by assumption. reflexivity.
    + destruct (Nat.ltb_spec c M); [lia|]. rewrite andb_false_r.
      rewrite <- (sm_high _ _ _ _ S c) at 1 by (fold N; lia). rewrite (sm_cell _ _ _ _ S c).
      rewrite (ct_high _ _ C c) by (fold N; lia). reflexivity.
Qed.

(** ** The channels of one [new] *)
Definition size (t : sty) : nat := match t with End => 2 | _ => 1 end.
Definition ends (t : sty) (c : nat) : ep * ep :=
  match t with Snd _ _ => (ETx c, ERx c) | Rcv _ _ => (ERx c, ETx c) | End => (EEnd c (1 + c), EEnd (1 + c) c) end.

Lemma grown_trans : forall h h1 h2 M M', hnext h <= M -> M <= M' -> grown h h1 M -> grown h1 h2 M' -> grown h h2 M'.
Proof.
  intros h h1 h2 M M' L1 L2 [A1 A2] [B1 B2]. split; [exact B1|]. intros c. rewrite B2, A2, A1. unfold within.
  destruct (Nat.leb_spec M c), (Nat.ltb_spec c M'), (Nat.leb_spec (hnext h) c), (Nat.ltb_spec c M); cbn; try reflexivity; lia.
Qed.
Lemma grown_one : forall h, grown h (snd (bounded1 h)) (1 + hnext h).
Proof.
  intros h. split; [reflexivity|]. intros c. rewrite bounded1_cells. unfold within.
  destruct (Nat.eqb_spec c (hnext h)), (Nat.leb_spec (hnext h) c), (Nat.ltb_spec c (1 + hnext h)); cbn [andb]; try reflexivity; lia.
Qed.
Lemma heap_new_ends : forall t h, exists h1, heap_new t h = (ends t (hnext h), h1) /\ grown h h1 (hnext h + size t).
Proof.
  intros t h. pose proof (grown_one h) as G. destruct t as [|q t|q t]; cbn [size ends].
  - exists (snd (bounded1 (snd (bounded1 h)))). split; [reflexivity|]. pose proof (grown_one (snd (bounded1 h))) as G2.
    replace (hnext h + 2) with (1 + hnext (snd (bounded1 h))) by (cbn; lia).
    eapply grown_trans; [| |exact G|exact G2]; cbn; lia.
  - exists (snd (bounded1 h)). split; [reflexivity|]. replace (hnext h + 1) with (1 + hnext h) by lia. exact G.
  - exists (snd (bounded1 h)). split; [reflexivity|]. replace (hnext h + 1) with (1 + hnext h) by lia. exact G.
Qed.
Lemma alloc_three : forall t1 t2 t3 h, let N := hnext h in
  exists h1, alloc heap_ops [t1; t2; t3] h = ([ends t1 N; ends t2 (N + size t1); ends t3 (N + size t1 + size t2)], h1) /\
    grown h h1 (N + size t1 + size t2 + size t3).
Proof.
  intros t1 t2 t3 h N. destruct (heap_new_ends t1 h) as (h1 & E1 & G1). destruct (heap_new_ends t2 h1) as (h2 & E2 & G2).
  destruct (heap_new_ends t3 h2) as (h3 & E3 & G3). exists h3. cbn [alloc op_new heap_ops].
  pose proof (proj1 G1) as A1. rewrite A1 in E2, G2. pose proof (proj1 G2) as A2. rewrite A2 in E3, G3. fold N in E1, E2, E3, G1, G2, G3.
  destruct (ends t1 N) as [a1 b1] eqn:D1. destruct (ends t2 (N + size t1)) as [a2 b2] eqn:D2.
  destruct (ends t3 (N + size t1 + size t2)) as [a3 b3] eqn:D3. rewrite E1, E2, E3. split; [reflexivity|].
  eapply grown_trans; [| |eapply grown_trans; [| |exact G1|exact G2]|exact G3]; fold N; lia.
Qed.

(** ** One session, created at [a] and, perhaps from its other side, at [a'] *)
Definition shift (f : bool) (z a a' c : nat) : nat := if f && (z =? 2) then a' + 1 - (c - a) else a' + (c - a).
Lemma co_size : forall t, size (co t) = size t.
Proof. intros [| |]; reflexivity. Qed.
Lemma ends_shift : forall t f a a' (r : nat -> nat), (forall c, a <= c < a + size t -> r c = shift f (size t) a a' c) ->
  ends (if f then co t else t) a' = (ren r (fst (turn f (ends t a))), ren r (snd (turn f (ends t a)))).
Proof.
  intros [|q t|q t] f a a' r H; cbn in H.
  - assert (E0 : r a = shift f 2 a a' a) by (apply H; lia). assert (E1 : r (1 + a) = shift f 2 a a' (1 + a)) by (apply H; lia).
    unfold shift in E0, E1. change (2 =? 2) with true in E0, E1. rewrite andb_true_r in E0, E1.
    assert (F0 : r a = if f then 1 + a' else a') by (rewrite E0; destruct f; lia).
    assert (F1 : r (1 + a) = if f then a' else 1 + a') by (rewrite E1; destruct f; lia).
    destruct f; cbn [turn ends fst snd ren co]; rewrite F0, F1; reflexivity.
  - assert (E0 : r a = shift f 1 a a' a) by (apply H; lia). unfold shift in E0. rewrite andb_false_r in E0.
    rewrite Nat.sub_diag, Nat.add_0_r in E0. destruct f; cbn; rewrite E0; reflexivity.
  - assert (E0 : r a = shift f 1 a a' a) by (apply H; lia). unfold shift in E0. rewrite andb_false_r in E0.
    rewrite Nat.sub_diag, Nat.add_0_r in E0. destruct f; cbn; rewrite E0; reflexivity.
Qed.

(** Three sessions, in one of the orders 12 13 23, 12 23 13 and 13 23 12. *)
Definition laid (N z1 z2 z3 a1 a2 a3 : nat) : Prop :=
  (a1 = N /\ a2 = N + z1 /\ a3 = N + z1 + z2) \/ (a1 = N /\ a3 = N + z1 /\ a2 = N + z1 + z3) \/ (a2 = N /\ a3 = N + z2 /\ a1 = N + z2 + z3).
Definition move (f1 f2 f3 : bool) (N z1 z2 z3 a1 a2 a3 c : nat) : nat :=
  if within a1 (a1 + z1) c then shift f1 z1 a1 N c
  else if within a2 (a2 + z2) c then shift f2 z2 a2 (N + z1) c
  else shift f3 z3 a3 (N + z1 + z2) c.
Lemma shift_range : forall f z a a' c, z = 1 \/ z = 2 -> a <= c < a + z -> a' <= shift f z a a' c < a' + z.
Proof. intros f z a a' c [-> | ->] H; unfold shift; destruct f; cbn; lia. Qed.
Lemma shift_inj : forall f z a a' c d, z = 1 \/ z = 2 -> a <= c < a + z -> a <= d < a + z -> shift f z a a' c = shift f z a a' d -> c = d.
Proof. intros f z a a' c d [-> | ->] H1 H2; unfold shift; destruct f; cbn; lia. Qed.
Lemma move_cases : forall f1 f2 f3 N z1 z2 z3 a1 a2 a3 c, laid N z1 z2 z3 a1 a2 a3 -> N <= c < N + z1 + z2 + z3 ->
  (a1 <= c < a1 + z1 /\ move f1 f2 f3 N z1 z2 z3 a1 a2 a3 c = shift f1 z1 a1 N c) \/
  (a2 <= c < a2 + z2 /\ move f1 f2 f3 N z1 z2 z3 a1 a2 a3 c = shift f2 z2 a2 (N + z1) c) \/
  (a3 <= c < a3 + z3 /\ move f1 f2 f3 N z1 z2 z3 a1 a2 a3 c = shift f3 z3 a3 (N + z1 + z2) c).
Proof.
  intros f1 f2 f3 N z1 z2 z3 a1 a2 a3 c L H. unfold move, within.
  destruct (Nat.leb_spec a1 c), (Nat.ltb_spec c (a1 + z1)), (Nat.leb_spec a2 c), (Nat.ltb_spec c (a2 + z2)); cbn [andb]; unfold laid in L; auto;
    try (right; right; split; [lia|reflexivity]).
Qed.
Lemma size_two : forall t, size t = 1 \/ size t = 2.
Proof. intros [| |]; cbn; auto. Qed.

Lemma three_turn : forall s P D h g h1 u1 u2 u3 f1 f2 f3 a1 a2 a3,
  let N := hnext h in let M := N + size u1 + size u2 + size u3 in
  hrel s P D h g -> grown h h1 M -> laid N (size u1) (size u2) (size u3) a1 a2 a3 ->
  exists s' g1,
    alloc heap_ops (cos [f1; f2; f3] [u1; u2; u3]) g = (on_pairs (ren s') (turns [f1; f2; f3] [ends u1 a1; ends u2 a2; ends u3 a3]), g1) /\
    hrel s' P D h1 g1 /\ agree N s s'.
Proof.
  intros s P D h g h1 u1 u2 u3 f1 f2 f3 a1 a2 a3 N M R G L.
  assert (Z : forall (f : bool) u, size (if f then co u else u) = size u) by (intros [|] u; [apply co_size|reflexivity]).
  destruct (alloc_three (if f1 then co u1 else u1) (if f2 then co u2 else u2) (if f3 then co u3 else u3) g) as (g1 & E & G').
  rewrite (sm_next _ _ _ _ (en_same _ _ _ _ _ R)) in E, G'. fold N in E, G'. rewrite !Z in E. rewrite !Z in G'. fold M in G'.
  set (k := move f1 f2 f3 N (size u1) (size u2) (size u3) a1 a2 a3).
  pose proof (size_two u1) as Z1. pose proof (size_two u2) as Z2. pose proof (size_two u3) as Z3.
  assert (K1 : forall c, N <= c < M -> N <= k c < M).
  { intros c Hc. unfold k. destruct (move_cases f1 f2 f3 N _ _ _ a1 a2 a3 c L Hc) as [(A & ->)|[(A & ->)|(A & ->)]].
    - pose proof (shift_range f1 _ a1 N c Z1 A). lia.
    - pose proof (shift_range f2 _ a2 (N + size u1) c Z2 A). lia.
    - pose proof (shift_range f3 _ a3 (N + size u1 + size u2) c Z3 A). lia. }
  assert (K2 : forall c d, N <= c < M -> N <= d < M -> k c = k d -> c = d).
  { intros c d Hc Hd. unfold k.
    destruct (move_cases f1 f2 f3 N _ _ _ a1 a2 a3 c L Hc) as [(A & ->)|[(A & ->)|(A & ->)]];
      destruct (move_cases f1 f2 f3 N _ _ _ a1 a2 a3 d L Hd) as [(B & ->)|[(B & ->)|(B & ->)]].
    - apply shift_inj; assumption.
    - pose proof (shift_range f1 _ a1 N c Z1 A). pose proof (shift_range f2 _ a2 (N + size u1) d Z2 B). lia.
    - pose proof (shift_range f1 _ a1 N c Z1 A). pose proof (shift_range f3 _ a3 (N + size u1 + size u2) d Z3 B). lia.
    - pose proof (shift_range f2 _ a2 (N + size u1) c Z2 A). pose proof (shift_range f1 _ a1 N d Z1 B). lia.
    - apply shift_inj; assumption.
    - pose proof (shift_range f2 _ a2 (N + size u1) c Z2 A). pose proof (shift_range f3 _ a3 (N + size u1 + size u2) d Z3 B). lia.
    - pose proof (shift_range f3 _ a3 (N + size u1 + size u2) c Z3 A). pose proof (shift_range f1 _ a1 N d Z1 B). lia.
    - pose proof (shift_range f3 _ a3 (N + size u1 + size u2) c Z3 A). pose proof (shift_range f2 _ a2 (N + size u1) d Z2 B). lia.
    - apply shift_inj; assumption. }
  exists (extend N M s k), g1. split; [|split].
  - cbn [cos turns on_pairs map]. rewrite E.
    assert (Q : forall c, N <= c < M -> extend N M s k c = k c).
    { intros c Hc. unfold extend. destruct (Nat.ltb_spec c N); [lia|]. destruct (Nat.ltb_spec c M); [reflexivity|lia]. }
    assert (Y : forall u f a a', (forall c, a <= c < a + size u -> N <= c < M /\ k c = shift f (size u) a a' c) ->
      ends (if f then co u else u) a' = let '(x, y) := turn f (ends u a) in (ren (extend N M s k) x, ren (extend N M s k) y)).
    { intros u f a a' H. rewrite (ends_shift u f a a' (extend N M s k)); [destruct (turn f (ends u a)); reflexivity|].
      intros c Hc. destruct (H c Hc) as [H1 H2]. rewrite Q by exact H1. exact H2. }
    rewrite (Y u1 f1 a1 N); [rewrite (Y u2 f2 a2 (N + size u1)); [rewrite (Y u3 f3 a3 (N + size u1 + size u2)); [reflexivity|]|]|];
      intros c Hc; (assert (Hr : N <= c < M) by (unfold laid in L; lia)); (split; [exact Hr|]); unfold k, move, within.
    + destruct (Nat.leb_spec a1 c), (Nat.ltb_spec c (a1 + size u1)); cbn [andb];
        destruct (Nat.leb_spec a2 c), (Nat.ltb_spec c (a2 + size u2)); cbn [andb]; try reflexivity; unfold laid in L; lia.
    + destruct (Nat.leb_spec a1 c), (Nat.ltb_spec c (a1 + size u1)); cbn [andb];
        destruct (Nat.leb_spec a2 c), (Nat.ltb_spec c (a2 + size u2)); cbn [andb]; try reflexivity; unfold laid in L; lia.
    + destruct (Nat.leb_spec a1 c), (Nat.ltb_spec c (a1 + size u1)); cbn [andb];
        destruct (Nat.leb_spec a2 c), (Nat.ltb_spec c (a2 + size u2)); cbn [andb]; try reflexivity; unfold laid in L; lia.
  - apply (hrel_grown s P D h g h1 g1 M k); try assumption. unfold M; fold N; lia.
  - intros c Hc. unfold extend. destruct (Nat.ltb_spec c N); [reflexivity|lia].
Qed.

(** ** From the channels to the choice *)
Lemma made_by_wire : forall n branch p s P D h g b l hs np h1 s' g1 (made : option (@prog ep * heap)),
  hrel s P D h g -> Forall (good P (hnext h)) hs ->
  alloc heap_ops (pair_types n (choose_vars n) (enum_branch branch b l)) g = (on_pairs (ren s') np, g1) ->
  hrel s' P D h1 g1 -> agree (hnext h) s s' -> hnext h <= hnext h1 ->
  (forall e, In e (flat np) -> forall c, In c (chans e) -> hnext h <= c < hnext h1) ->
  made = match wire n p b l hs np with Some pr => Some (pr, h1) | None => None end ->
  match made with
  | Some (pr, h') => exists s' g', make_choice heap_ops n (enum_branch branch) p b l (map (ren s) hs) g = Some (conv s' pr, g') /\
      hrel s' P D h' g' /\ agree (hnext h) s s' /\ hnext h <= hnext h' /\ Forall (good P (hnext h')) (held pr) /\ choosing pr
  | None => make_choice heap_ops n (enum_branch branch) p b l (map (ren s) hs) g = None
  end.
Proof.
  intros n branch p s P D h g b l hs np h1 s' g1 made R Hs K1 K3 K4 K5 K6 ->. rewrite make_choice_wire, K1.
  assert (Em : map (ren s) hs = map (ren s') hs).
  { symmetry. eapply map_ren_agree; [exact K4|]. eapply Forall_impl; [|exact Hs]. intros e He. apply He. }
  rewrite Em, wire_natural. destruct (wire n p b l hs np) as [pr0|] eqn:Ew; [|reflexivity]. cbn [option_map]. exists s', g1.
  assert (Hc : choosing pr0).
  { unfold wire in Ew. destruct (choose_sends n p); [|discriminate]. destruct (choose_own n p); [|discriminate].
    destruct (all_some _); [|discriminate]. destruct (pick_all _ _); [|discriminate]. injection Ew as <-. exact I. }
  split; [destruct pr0; cbn in *; try contradiction; reflexivity|]. split; [exact K3|]. split; [exact K4|]. split; [exact K5|].
  split; [|exact Hc]. apply Forall_forall. intros e He. destruct (wire_in _ _ _ _ _ _ _ _ _ Ew He) as [H|H].
  - rewrite Forall_forall in Hs. eapply good_mono; [apply Hs, H|apply newer_refl|exact K5].
  - apply (fresh_good P h e (hnext h1) (en_content _ _ _ _ _ R)). apply K6, H.
Qed.
Lemma ends_range : forall t a e c, In e [fst (ends t a); snd (ends t a)] -> In c (chans e) -> a <= c < a + size t.
Proof. intros [|q t|q t] a e c [<-|[<-|[]]] H; cbn in *; intuition lia. Qed.

(** ** The hand-written choices *)
Section HandWritten.
  Variable branch : nat -> nat -> nat -> mty.
  Variable labels : nat -> nat.
  Variable fam : family.
  Hypothesis branch_dual : forall b l, l < labels b -> dual_mesh 3 (branch b l).

  (** The order of the bindings and their sides, against 12, 13, 23 from the lower role. *)
  Definition flips (p : nat) : list bool :=
    match fam, p with
    | FunctionMpst, 1 => [false; false; true]
    | FunctionMpst, 2 => [true; true; false]
    | FunctionMpst, _ => [true; true; true]
    | MacrosSimple, 1 => [false; false; true]
    | MacrosSimple, 2 => [true; true; false]
    | MacrosSimple, _ => [true; true; true]
    | MeshedImpl, 1 => [true; true; true]
    | MeshedImpl, 2 => [false; true; true]
    | MeshedImpl, _ => [true; false; false]
    end.
  Definition sorted {A} (p : nat) (l : list A) : list A :=
    match fam, p, l with
    | MacrosSimple, 2, [a; b; c] => [a; c; b]
    | MacrosSimple, 3, [a; b; c] => [c; a; b]
    | _, _, _ => l
    end.

  Lemma tmake_wire : forall p b l hs (h : heap) x1 x2 x3 h1, 1 <= p <= 3 ->
    alloc heap_ops (new_types (branch b l) (cb_new (body_of fam p))) h = ([x1; x2; x3], h1) ->
    tmake heap_ops branch fam p b l hs h =
      match wire 3 p b l hs (turns (flips p) (sorted p [x1; x2; x3])) with Some pr => Some (pr, h1) | None => None end.
  Proof.
    intros p b l hs h [a1 b1] [a2 b2] [a3 b3] h1 Hp E. unfold tmake. rewrite E.
    assert (p = 1 \/ p = 2 \/ p = 3) as [-> | [-> | ->]] by lia; unfold flips, sorted; destruct fam; cbn;
      (destruct hs as [|e1 [|e2 hs]]; reflexivity).
  Qed.
  Lemma new_types_sorted : forall p b l, 1 <= p <= 3 -> l < labels b ->
    pair_types 3 (choose_vars 3) (enum_branch branch b l) = cos (flips p) (sorted p (new_types (branch b l) (cb_new (body_of fam p)))).
  Proof.
    intros p b l Hp Hl. destruct (branch_dual b l Hl) as [_ Hd]. unfold sess in Hd.
    pose proof (Hd 1 2 ltac:(lia) ltac:(lia) ltac:(lia)) as H12. pose proof (Hd 1 3 ltac:(lia) ltac:(lia) ltac:(lia)) as H13.
    pose proof (Hd 2 3 ltac:(lia) ltac:(lia) ltac:(lia)) as H23. cbn in H12, H13, H23.
    assert (p = 1 \/ p = 2 \/ p = 3) as [-> | [-> | ->]] by lia; unfold flips, sorted; destruct fam; cbn; rewrite ?H12, ?H13, ?H23; reflexivity.
  Qed.

  Lemma tmake_prog : forall p b l hs h pr h', tmake heap_ops branch fam p b l hs h = Some (pr, h') -> exists pend own, pr = PChoose b l pend own.
  Proof.
    intros p b l hs h pr h' E. unfold tmake in E. destruct (alloc heap_ops _ h) as [pl h1].
    destruct (fields _ _); [|discriminate]. destruct (fields _ _); [|discriminate]. destruct (fields _ _); [|discriminate].
    destruct (body_names p) as [|? [|? ?]]; try discriminate. destruct (pick_all pl _); [|discriminate]. destruct (pick_all pl _); [|discriminate].
    destruct (pick_all pl _); [|discriminate]. destruct (nth_error hs 0); [|discriminate]. destruct (nth_error hs 1); [|discriminate].
    injection E as <- _. eauto.
  Qed.

  Lemma three_makes : makes 3 branch labels (tmake heap_ops branch fam).
  Proof.
    split; [|exact tmake_prog]. intros p s P D h g b l hs R Hp Hl Hs.
    assert (exists v1 v2 v3, new_types (branch b l) (cb_new (body_of fam p)) = [v1; v2; v3]) as (v1 & v2 & v3 & Ev).
    { destruct fam; destruct p as [|[|[|p]]]; cbn; eauto. }
    destruct (alloc_three v1 v2 v3 h) as (h1 & Ea & G). rewrite <- Ev in Ea. set (N := hnext h) in *.
    pose proof (tmake_wire p b l hs h _ _ _ h1 Hp Ea) as Ew. pose proof (new_types_sorted p b l Hp Hl) as Et. rewrite Ev in Et.
    assert (K : exists u1 u2 u3 a1 a2 a3 f1 f2 f3, sorted p [v1; v2; v3] = [u1; u2; u3] /\ flips p = [f1; f2; f3] /\
      sorted p [ends v1 N; ends v2 (N + size v1); ends v3 (N + size v1 + size v2)] = [ends u1 a1; ends u2 a2; ends u3 a3] /\
      laid N (size u1) (size u2) (size u3) a1 a2 a3 /\ size v1 + size v2 + size v3 = size u1 + size u2 + size u3).
    { assert (p = 1 \/ p = 2 \/ p = 3) as [-> | [-> | ->]] by lia; unfold flips, sorted; destruct fam;
        do 9 eexists; (split; [reflexivity|]); (split; [reflexivity|]); (split; [reflexivity|]); unfold laid; lia. }
    destruct K as (u1 & u2 & u3 & a1 & a2 & a3 & f1 & f2 & f3 & Q1 & Q2 & Q3 & Q4 & Q5).
    replace (N + size v1 + size v2 + size v3) with (N + size u1 + size u2 + size u3) in G by lia.
    destruct (three_turn s P D h g h1 u1 u2 u3 f1 f2 f3 a1 a2 a3 R G Q4) as (s' & g1 & J1 & J2 & J3).
    rewrite Q1, Q2 in Et. rewrite Q2, Q3 in Ew. rewrite <- Et in J1.
    eapply (made_by_wire 3 branch p s P D h g b l hs _ h1 s' g1 _ R Hs J1 J2 J3); [| |exact Ew].
    - rewrite (proj1 G). fold N. lia.
    - intros e He c Hc. apply turns_flat in He. rewrite (proj1 G). fold N. unfold laid in Q4. cbn in He.
      assert (V : a1 <= c < a1 + size u1 \/ a2 <= c < a2 + size u2 \/ a3 <= c < a3 + size u3).
      { destruct (ends u1 a1) as [y1 z1] eqn:D1, (ends u2 a2) as [y2 z2] eqn:D2, (ends u3 a3) as [y3 z3] eqn:D3. cbn in He.
        destruct He as [<-|[<-|[<-|[<-|[<-|[<-|[]]]]]]].
        1,2: left; eapply ends_range; [|exact Hc]; rewrite D1; cbn; auto.
        1,2: right; left; eapply ends_range; [|exact Hc]; rewrite D2; cbn; auto.
        1,2: right; right; eapply ends_range; [|exact Hc]; rewrite D3; cbn; auto. }
      lia.
  Qed.
End HandWritten.
