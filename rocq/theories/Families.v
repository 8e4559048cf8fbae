(** The rings and meshes of examples/ring and examples/mesh for every number of roles, as global protocols. *)
From Coq Require Import List Arith Bool.
From Verif Require Import Types Session Mesh Global Proto.
Import ListNotations.

(** The ring (examples/ring/ring_four_baking_mpst.rs:19-195, ring_twenty_baking_mpst.rs:42-2520): the last role chooses between
    passing a value from the first role to the last one (Forward), back (Backward), and the end (Done). *)
Definition forward (n : nat) : list message := map (fun p => Msg3 p (S p) 0) (seq 1 (n - 1)).
Definition backward (n : nat) : list message := map (fun p => Msg3 (S p) p 0) (rev (seq 1 (n - 1))).
Definition ring_protocol (n : nat) : protocol :=
  Protocol ([], GChoose n 0)
    (fun _ l => match l with 0 => (forward n, GChoose n 0) | 1 => (backward n, GChoose n 0) | _ => ([], GEnd) end).
Definition ring_labels : nat -> nat := fun b => match b with 0 => 3 | _ => 0 end.

(** The mesh (examples/mesh/mesh_four_baking_mpst.rs, mesh_twenty_baking_mpst.rs): the last role chooses between an exchange of a
    value in both directions between any two roles (More) and the end (Done). *)
Definition exchange (p q : nat) : list message := [Msg3 p q 0; Msg3 q p 0].
Definition all_exchanges (n : nat) : list message :=
  flat_map (fun k => exchange n k ++ flat_map (fun j => exchange k j) (seq 1 (k - 1))) (seq 1 (n - 1)).
Definition mesh_protocol (n : nat) : protocol :=
  Protocol ([], GChoose n 0) (fun _ l => match l with 0 => (all_exchanges n, GChoose n 0) | _ => ([], GEnd) end).
Definition mesh_labels : nat -> nat := fun b => match b with 0 => 2 | _ => 0 end.

(** The table of endpoint types of a global protocol with choices 0, 1, ... that have so many branches each. *)
Definition table (n : nat) (sizes : list nat) (G : protocol) : proto :=
  mkproto (map (proj n (first_round G)) (seq 1 n))
    (map (fun bk => map (fun l => map (proj n (body G (fst bk) l)) (seq 1 n)) (seq 0 (snd bk))) (combine (seq 0 (length sizes)) sizes)).
