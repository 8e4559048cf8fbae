(** The functions for role n against the enum choice. Proofs. *)
From Coq Require Import List Arith Bool Lia.
From Verif Require Import Types Diag DiagProofs Wiring WiringProofs Session Mesh MeshSpec Links LinksProofs Refine Sim MeshWire BinMesh BinSpec
  BinHeap BinWire BinSim BinThree FuncMesh.
Import ListNotations.

Lemma last_types : forall n (T : nat -> mty), pair_types n (choose_vars n) (fun i => T (other n i)) = pair_types n (choose_vars n) T.
Proof.
  intros n T. apply (nth_ext _ _ End End); [rewrite !pair_types_length; reflexivity|].
  intros k Hk. rewrite pair_types_length, npairs_tri in Hk. destruct (idx_surj n (k + 1)) as (l & c & H1 & H2 & H3 & Hi); [lia|].
  replace k with (idx n l c - 1) by lia. rewrite !pair_types_nth by (try apply choose_vars_spec; assumption).
  unfold sess. assert (E : other n l = l) by (unfold other; destruct (Nat.leb_spec n l); lia). rewrite E. reflexivity.
Qed.

Lemma cmake_wire : forall S H (O : ops S H) n branch b l hs s, 1 <= n ->
  cmake_choice O n branch n b l hs s =
    let '(pairs, s1) := alloc O (pair_types n (choose_vars n) (branch b l)) s in
    match wire n n b l hs pairs with Some pr => Some (pr, s1) | None => None end.
Proof.
  intros S H O n branch b l hs s Hn. unfold cmake_choice, wire. rewrite last_types. destruct (alloc O _ s) as [pairs s1].
  rewrite choose_sends_spec, choose_own_spec, cchoose_sender_spec by lia. rewrite map_map.
  rewrite (map_ext_in _ (fun i => match nth_error hs (i - 1) with
     | Some h => match pick_all pairs (mesh_of b_fork n (served n i)) with
                 | Some m => Some (other n i, h, m) | None => None end | None => None end)).
  - destruct (all_some _); [|reflexivity]. destruct (pick_all pairs _); reflexivity.
  - intros i Hi. apply in_seq in Hi. rewrite cchoose_receiver_spec by lia.
    assert (Es : served n i = i) by (unfold served; destruct (Nat.leb_spec n i); lia).
    assert (Eo : other n i = i) by (unfold other; destruct (Nat.leb_spec n i); lia).
    rewrite Es, Eo. destruct (nth_error hs (i - 1)); [|reflexivity]. destruct (pick_all pairs _); reflexivity.
Qed.

Lemma cos_nil : forall tys, cos [] tys = tys.
Proof. intros [|t tys]; reflexivity. Qed.
Lemma turns_nil : forall A (ps : list (A * A)), turns [] ps = ps.
Proof. intros A [|t ps]; reflexivity. Qed.

Section Functions.
  Variable n : nat.
  Variable branch : nat -> nat -> nat -> mty.
  Variable labels : nat -> nat.
  Variable by_function : nat -> bool.
  Hypothesis branch_dual : forall b l, l < labels b -> dual_mesh n (branch b l).

  Lemma function_makes : makes n branch labels (fmake heap_ops n branch by_function).
  Proof.
    destruct (generated_makes n branch labels branch_dual) as [G1 G2]. unfold fmake. split.
    - intros p s P D h g b l hs R Hp Hl Hs. destruct (Nat.eqb_spec p n) as [Ep|Ep]; cbn [andb]; [|apply G1; assumption].
      destruct (by_function b); [|apply G1; assumption]. subst p. rewrite cmake_wire by lia.
      destruct (alloc heap_ops (pair_types n (choose_vars n) (branch b l)) h) as [pl h1] eqn:Ea.
      destruct (alloc_turn _ [] s P D h g pl h1 R Ea) as (s' & pe & g' & K1 & K2 & K3 & K4 & K5 & K6).
      rewrite cos_nil in K1. rewrite turns_nil in K2. subst pe.
      eapply (made_by_wire n branch n s P D h g b l hs pl h1 s' g' _ R Hs); eauto.
    - intros p b l hs h pr h' E. destruct ((p =? n) && by_function b); [|eapply G2; eauto].
      unfold cmake_choice in E. destruct (alloc heap_ops _ h) as [pl h1]. destruct (all_some _); [|discriminate].
      destruct (cchoose_sender n); [|discriminate]. destruct (pick_all pl _); [|discriminate]. injection E as <- _. eauto.
  Qed.
End Functions.
