(** Specification vocabulary for binary choices: the same types with enum choices, and types a program can use to the
    end. Independent of the machine. *)
From Coq Require Import List Arith Bool.
From Verif Require Import Types WiringProofs Session Mesh BinMesh.
Import ListNotations.

(** The stack of the same role when the choice is an enum with two variants: RoleXtoAll becomes RoleBroadcast, and
    RoleAlltoX becomes a recv from X. (The last two cases are stacks no method of BinMesh.v uses.) *)
Fixpoint enum_stack (r : stack) : stack :=
  match r with
  | SEnd => SEnd
  | SRole x r' => SRole x (enum_stack r')
  | SToAll _ _ _ => SBroadcast
  | SAllTo x _ _ => SRole x SEnd
  | SRoleDual x _ => SRoleDual x SEnd
  | SBroadcast => SRoleDual 0 SEnd
  end.
Definition enum (m : mty) : mty := (fst m, enum_stack (snd m)).
Definition enum_branch (branch : nat -> nat -> nat -> mty) : nat -> nat -> nat -> mty := fun b l p => enum (branch b l p).
Definition enum_mesh (T : nat -> mty) : nat -> mty := fun p => enum (T p).

Section Usable.
  Variable n : nat.
  Variable branch : nat -> nat -> nat -> mty.
  Variable labels : nat -> nat.

  (** There is a method for every step of a role with these sessions and this stack, up to its close or its next choice. *)
  Fixpoint usable (p : nat) (ss : list sty) (r : stack) : Prop :=
    match r with
    | SEnd => Forall (fun s => s = End) ss
    | SRole x r' =>
        1 <= x <= n /\ x <> p /\
        match nth_error ss (field_pos p x) with
        | Some (Snd (PVal _) k) | Some (Rcv (PVal _) k) => usable p (set_nth (field_pos p x) k ss) r'
        | _ => False
        end
    | SAllTo x SEnd SEnd =>
        1 <= x <= n /\ x <> p /\ (exists b, nth_error ss (field_pos p x) = Some (Rcv (PChoice b p) End)) /\
        forall f s, f <> field_pos p x -> nth_error ss f = Some s -> s = End
    | SToAll x r1 r2 =>
        x = p /\ exists b, choice_of p ss = Some b /\ labels b = 2 /\ r1 = snd (branch b 0 p) /\ r2 = snd (branch b 1 p)
    | _ => False
    end.
  Definition usable_mesh (T : nat -> mty) : Prop := forall p, 1 <= p <= n -> usable p (fst (T p)) (snd (T p)).
End Usable.
