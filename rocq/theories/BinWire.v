(** The channels and the wiring of a binary choice against those of an enum choice. Proofs. *)
From Coq Require Import List Arith Bool Lia.
From Verif Require Import Types Diag DiagProofs Wiring WiringProofs Session Mesh MeshSpec Links LinksProofs Refine Sim MeshWire
  BinMesh BinSpec BinHeap.
Import ListNotations.

(** ** Pairs of ends taken the other way round *)
Definition turn {A} (f : bool) (x : A * A) : A * A := if f then (snd x, fst x) else x.
Fixpoint turns {A} (fl : list bool) (ps : list (A * A)) : list (A * A) :=
  match fl, ps with
  | f :: fl', x :: ps' => turn f x :: turns fl' ps'
  | _, _ => ps
  end.
Fixpoint cos (fl : list bool) (tys : list sty) : list sty :=
  match fl, tys with
  | f :: fl', t :: tys' => (if f then co t else t) :: cos fl' tys'
  | _, _ => tys
  end.

Lemma turns_length : forall A fl (ps : list (A * A)), length (turns fl ps) = length ps.
Proof. induction fl as [|f fl IH]; intros [|x ps]; cbn; try reflexivity. f_equal. apply IH. Qed.
Lemma cos_length : forall fl tys, length (cos fl tys) = length tys.
Proof. induction fl as [|f fl IH]; intros [|x ps]; cbn; try reflexivity. f_equal. apply IH. Qed.
Lemma turns_nth : forall A fl (ps : list (A * A)) k, nth_error (turns fl ps) k = option_map (turn (nth k fl false)) (nth_error ps k).
Proof.
  induction fl as [|f fl IH]; intros [|x ps] [|k]; cbn; try reflexivity; try apply IH; destruct (nth_error ps k); reflexivity.
Qed.
Lemma cos_nth : forall fl tys k, k < length tys -> nth k (cos fl tys) End = if nth k fl false then co (nth k tys End) else nth k tys End.
Proof.
  induction fl as [|f fl IH]; intros [|x ps] [|k] Hk; cbn in *; try reflexivity; try lia. apply IH. lia.
Qed.
Lemma turns_flat : forall A fl (ps : list (A * A)) x, In x (flat (turns fl ps)) -> In x (flat ps).
Proof.
  induction fl as [|f fl IH]; intros [|[a b] ps] x H; cbn in *; try exact H.
  destruct f; cbn in H; intuition; right; right; apply IH; assumption.
Qed.

(** ** The allocations *)
Definition agree (N : nat) (s s' : nat -> nat) : Prop := forall c, c < N -> s' c = s c.
Lemma agree_refl : forall N s, agree N s s.
Proof. intros N s c _. reflexivity. Qed.
Lemma agree_trans : forall N N' s s' s'', agree N s s' -> agree N' s' s'' -> N <= N' -> agree N s s''.
Proof. intros N N' s s' s'' H1 H2 L c Hc. rewrite H2 by lia. apply H1, Hc. Qed.
Lemma ren_agree : forall N s s' e, agree N s s' -> low N e -> ren s' e = ren s e.
Proof. intros N s s' e A L. apply ren_ext. intros c Hc. apply A, L, Hc. Qed.
Lemma map_ren_agree : forall N s s' es, agree N s s' -> Forall (low N) es -> map (ren s') es = map (ren s) es.
Proof. intros N s s' es A L. apply map_ext_in. intros e He. eapply ren_agree; [exact A|]. rewrite Forall_forall in L. apply L, He. Qed.

Lemma alloc_turn : forall tys fl s P D h g pl h', hrel s P D h g -> alloc heap_ops tys h = (pl, h') ->
  exists s' pe g', alloc heap_ops (cos fl tys) g = (pe, g') /\ pe = on_pairs (ren s') (turns fl pl) /\ hrel s' P D h' g' /\
    agree (hnext h) s s' /\ hnext h <= hnext h' /\
    forall e, In e (flat pl) -> forall c, In c (chans e) -> hnext h <= c < hnext h'.
Proof.
  induction tys as [|t tys IH]; intros fl s P D h g pl h' R E.
  - cbn in E. injection E as <- <-. exists s, [], g. destruct fl; cbn; (split; [reflexivity|]); (split; [reflexivity|]);
      (split; [exact R|]); (split; [apply agree_refl|]); (split; [apply le_n|]); intros e [].
  - cbn [alloc op_new heap_ops] in E. destruct (heap_new t h) as [[a b] h1] eqn:E1.
    destruct (alloc heap_ops tys h1) as [l h2] eqn:E2. injection E as <- <-.
    destruct R as [S C I]. destruct (same_new s D P h g t a b h1 S C I E1) as (g1 & Eg & S1 & C1 & L1 & F1).
    assert (K : forall f : bool, exists s1 a' b' g1, heap_new (if f then co t else t) g = (a', b', g1) /\
              (a', b') = (ren s1 (fst (turn f (a, b))), ren s1 (snd (turn f (a, b)))) /\ hrel s1 P D h1 g1 /\ agree (hnext h) s s1).
    { intros [|].
      - destruct (same_new_flip s D P h g t a b h1 S C I E1) as (s1 & a' & b' & g1' & K1 & -> & -> & K4 & K5).
        exists s1, (ren s1 b), (ren s1 a), g1'. split; [exact K1|]. split; [reflexivity|]. split; [|exact K5]. constructor; assumption.
      - exists s, a, b, g1. split; [exact Eg|]. split.
        + cbn. rewrite (ren_high s D h g a S), (ren_high s D h g b S); [reflexivity| |]; intros c Hc; apply F1; auto.
        + split; [constructor; assumption|apply agree_refl]. }
    assert (Q : forall f fl', fl = f :: fl' \/ (fl = [] /\ f = false /\ fl' = []) -> cos fl (t :: tys) = (if f then co t else t) :: cos fl' tys
                /\ turns fl ((a, b) :: l) = turn f (a, b) :: turns fl' l).
    { intros f fl' [-> |(-> & -> & ->)]; [split; reflexivity|]. cbn. destruct tys, l; split; reflexivity. }
    assert (exists f fl', fl = f :: fl' \/ (fl = [] /\ f = false /\ fl' = [])) as (f & fl' & Hf).
    { destruct fl as [|f fl']; [exists false, []|exists f, fl']; auto. }
    destruct (Q f fl' Hf) as [Q1 Q2]. rewrite Q1, Q2. destruct (K f) as (s1 & a' & b' & g1' & K1 & K2 & K3 & K4).
    destruct (IH fl' s1 P D h1 g1' l h2 K3 E2) as (s2 & pe & g2 & J1 & J2 & J3 & J4 & J5 & J6).
    exists s2, ((a', b') :: pe), g2. cbn [alloc op_new heap_ops]. rewrite K1, J1. split; [reflexivity|].
    split; [|split; [exact J3|split; [|split; [lia|]]]].
    + cbn [on_pairs map]. rewrite J2. f_equal. rewrite K2.
      assert (A : forall e, In e [a; b] -> ren s1 e = ren s2 e).
      { intros e He. symmetry. eapply ren_agree; [exact J4|]. intros c Hc. destruct He as [<-|[<-|[]]]; apply F1; auto. }
      destruct f; cbn; rewrite (A a), (A b) by (cbn; auto); reflexivity.
    + eapply agree_trans; [exact K4|exact J4|lia].
    + intros e He c Hc. cbn in He. destruct He as [<-|[<-|He]].
      * specialize (F1 c (or_introl Hc)). lia.
      * specialize (F1 c (or_intror Hc)). lia.
      * specialize (J6 e He c Hc). lia.
Qed.

(** ** The wiring *)
Definition first_is (n p : nat) : list bool :=
  map (fun k => match get_line_column_from_diag (diag n) k with Some (line, _) => p =? line | None => false end) (seq 1 (npairs n)).
Lemma first_is_nth : forall n p l c, 1 <= l -> l < c -> c <= n -> nth (idx n l c - 1) (first_is n p) false = (p =? l).
Proof.
  intros n p l c H1 H2 H3. pose proof (idx_range n l c H1 H2 H3) as Hr. unfold first_is. rewrite npairs_tri.
  set (F := fun k => match get_line_column_from_diag (diag n) k with Some (line, _) => p =? line | None => false end).
  rewrite (nth_indep _ false (F 0)) by (rewrite map_length, seq_length; lia). rewrite map_nth, seq_nth by lia.
  replace (1 + (idx n l c - 1)) with (idx n l c) by lia. unfold F. rewrite get_line_column_spec by assumption. reflexivity.
Qed.

Lemma bchoice_types : forall n p T, dual_mesh n T ->
  pair_types n (choose_vars n) T = cos (first_is n p) (pair_types n (bchoose_vars n p) T).
Proof.
  intros n p T [_ Hd]. apply (nth_ext _ _ End End).
  - rewrite cos_length, !pair_types_length. reflexivity.
  - intros k Hk. rewrite pair_types_length in Hk. rewrite cos_nth by (rewrite pair_types_length; exact Hk).
    rewrite npairs_tri in Hk. destruct (idx_surj n (k + 1)) as (l & c & H1 & H2 & H3 & Hi); [lia|].
    replace k with (idx n l c - 1) by lia. rewrite (pair_types_nth n (choose_vars n)) by (try apply choose_vars_spec; assumption).
    rewrite first_is_nth by assumption.
    assert (V : nth (idx n l c - 1) (pair_types n (bchoose_vars n p) T) End = if p =? l then sess T c l else sess T l c).
    { unfold pair_types. pose proof (idx_range n l c H1 H2 H3) as Hr. rewrite npairs_tri.
      set (F := fun k => match bchoose_vars n p k with
           | Some (line, column, _) => nth (comm_field line column - 1) (fst (T line)) End | None => End end).
      rewrite (nth_indep _ End (F 0)) by (rewrite map_length, seq_length; lia). rewrite map_nth, seq_nth by lia.
      replace (1 + (idx n l c - 1)) with (idx n l c) by lia. unfold F, bchoose_vars. rewrite get_line_column_spec by assumption.
      destruct (p =? l); cbn [negb]; rewrite comm_field_pos by lia; reflexivity. }
    rewrite V. destruct (p =? l); [|reflexivity]. apply Hd; lia.
Qed.

Lemma pick_turn : forall A (ps : list (A * A)) n p i q, 1 <= i <= n -> 1 <= q <= n -> i <> q ->
  pick (turns (first_is n p) ps) (end_of b_fork n i q) = pick ps (end_of (b_choice p) n i q).
Proof.
  intros A ps n p i q Hi Hq Hne. unfold pick, end_of. cbn [fst snd]. rewrite turns_nth, first_is_nth by lia.
  destruct (nth_error ps (idx n (min i q) (max i q) - 1)) as [[a b]|]; [|reflexivity]. cbn [option_map].
  unfold b_choice, b_fork. rewrite (Nat.eqb_sym i p), (Nat.eqb_sym q p).
  destruct (Nat.ltb_spec i q) as [L|L].
  - rewrite Nat.min_l by lia. destruct (Nat.eqb_spec p i) as [E1|E1]; cbn; [reflexivity|].
    destruct (Nat.eqb_spec p q) as [E2|E2]; reflexivity.
  - rewrite Nat.min_r by lia. destruct (Nat.eqb_spec p i) as [E1|E1].
    + destruct (Nat.eqb_spec p q) as [E2|E2]; [lia|reflexivity].
    + destruct (Nat.eqb_spec p q) as [E2|E2]; reflexivity.
Qed.
Lemma pick_all_turn : forall A (ps : list (A * A)) n p i, 1 <= i <= n ->
  pick_all (turns (first_is n p) ps) (mesh_of b_fork n i) = pick_all ps (mesh_of (b_choice p) n i).
Proof.
  intros A ps n p i Hi. unfold pick_all, mesh_of. rewrite !map_map. f_equal. apply map_ext_in. intros j Hj. apply in_seq in Hj.
  apply pick_turn; [exact Hi|apply peer_range; lia|]. intros E. symmetry in E. revert E. apply peer_neq.
Qed.

Lemma own_spec : forall n p, 1 <= p <= n -> forall own, bchoose_sender n p = Some own ->
  all_some (map (own_field own) (seq 1 (n - 1))) = Some (mesh_of (b_choice p) n p).
Proof.
  intros n p Hp own E. rewrite bchoose_sender_spec in E by exact Hp. injection E as <-. unfold mesh_of. apply all_some_map.
  intros j Hj. unfold own_field.
  assert (Q : forall l, In j l -> find (fun e => fst e =? j) (map (fun j => (j, end_of (b_choice p) n p (peer p j))) l)
            = Some (j, end_of (b_choice p) n p (peer p j))).
  { induction l as [|x l IH]; intros H; [destruct H|]. cbn. destruct (Nat.eqb_spec x j) as [->|Hx]; [reflexivity|].
    apply IH. destruct H as [H|H]; [congruence|exact H]. }
  rewrite Q by exact Hj. reflexivity.
Qed.

Lemma bmake_choice_wire : forall S H (O : ops S H) n branch p b l hs s, 1 <= p <= n ->
  bmake_choice O n branch p b l hs s =
    let '(pairs, s1) := alloc O (pair_types n (bchoose_vars n p) (branch b l)) s in
    match wire n p b l hs (turns (first_is n p) pairs) with Some pr => Some (pr, s1) | None => None end.
Proof.
  intros S H O n branch p b l hs s Hp. unfold bmake_choice, wire. destruct (alloc O _ s) as [pairs s1].
  destruct (bchoose_sender n p) as [own|] eqn:Eo; [|rewrite bchoose_sender_spec in Eo by exact Hp; discriminate].
  rewrite (own_spec n p Hp own Eo). rewrite choose_sends_spec, choose_own_spec by exact Hp.
  rewrite pick_all_turn by exact Hp. rewrite filter_not by exact Hp. rewrite !map_map.
  rewrite (map_ext_in _ (fun i => match nth_error hs (i - 1) with
     | Some h => match pick_all (turns (first_is n p) pairs) (mesh_of b_fork n (served p i)) with
                 | Some m => Some (other p i, h, m) | None => None end | None => None end)).
  - destruct (all_some _); [|reflexivity]. destruct (pick_all pairs _); reflexivity.
  - intros i Hi. apply in_seq in Hi. pose proof (peer_range n p i Hp ltac:(lia)) as Hr. pose proof (peer_neq p i) as Hne.
    assert (Ef : bchoose_choice p (peer p i) = i).
    { unfold bchoose_choice, peer. destruct (Nat.ltb_spec i p).
      - destruct (Nat.ltb_spec p i); lia.
      - destruct (Nat.ltb_spec p (Datatypes.S i)); lia. }
    rewrite Ef, bchoose_receiver_spec by (try exact Hp; assumption).
    replace (served p i) with (peer p i) by (rewrite served_other; apply peer_other). rewrite <- (peer_other p i).
    rewrite pick_all_turn by exact Hr. destruct (nth_error hs (i - 1)); [|reflexivity].
    destruct (pick_all pairs _); reflexivity.
Qed.
