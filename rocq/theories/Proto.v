(** A protocol written in Rust as the types of its endpoints: a table of MeshedChannels types. Definitions only. *)
From Coq Require Import List Arith Bool.
From Verif Require Import Types WiringProofs Session Mesh MeshSpec TidySpec OrderSpec.
Import ListNotations.

(** What a source file with a protocol declares: the types of the arguments of the functions given to [fork_mpst], role 1
    first (e.g. examples/mpst/o_auth.rs:68-96, 166-172), and for every choice and every branch the types that the roles continue with:
    those of the variants of the enums for the roles that are told (o_auth.rs:32-64), that of the session that
    [choose_mpst_*_to_all!] returns for the role that chooses (o_auth.rs:68-74, 106-116). *)
Record proto := mkproto { p_start : list mty; p_choices : list (list (list mty)) }.

Definition no_type : mty := ([], SEnd).
Definition p_roles (P : proto) : nat := length (p_start P).
Definition of_list (Ts : list mty) : nat -> mty := fun p => nth (p - 1) Ts no_type.
Definition p_types (P : proto) : nat -> mty := of_list (p_start P).
Definition p_branch (P : proto) : nat -> nat -> nat -> mty := fun b l => of_list (nth l (nth b (p_choices P) []) []).
Definition p_labels (P : proto) : nat -> nat := fun b => length (nth b (p_choices P) []).

(** * A test for a whole table *)

(** Equality of session types: specification only; the types are those of src/binary/struct_trait/send.rs:13-21. *)
Fixpoint sty_eqb (s t : sty) : bool :=
  match s, t with
  | End, End => true
  | Snd p s', Snd q t' | Rcv p s', Rcv q t' => pty_eqb p q && sty_eqb s' t'
  | _, _ => false
  end.
(** One session for every other role, pairwise dual (mpst_seq_proc/src/common_functions/expand/fork.rs:41-78). *)
Definition dual_test (n : nat) (T : nat -> mty) : bool :=
  forallb (fun p => (length (fst (T p)) =? n - 1) &&
    forallb (fun q => (p =? q) || sty_eqb (sess T p q) (co (sess T q p))) (seq 1 n)) (seq 1 n).
(** Nothing left to do with the others when an offer comes: what is left is dropped by [offer_mpst!]
    (mpst_seq_proc/src/baking/baking_basic.rs:184-196). *)
Fixpoint tidy_role (p : nat) (ss : list sty) (r : stack) : bool :=
  match r with
  | SRole x r' =>
      let f := field_pos p x in
      match nth_error ss f with
      | Some (Snd (PVal _) k) | Some (Rcv (PVal _) k) => tidy_role p (set_nth f k ss) r'
      | Some (Rcv (PChoice _ _) End) => forallb is_end (set_nth f End ss)
      | _ => true
      end
  | _ => true
  end.
Definition tidy_test (n : nat) (T : nat -> mty) : bool := forallb (fun p => tidy_role p (fst (T p)) (snd (T p))) (seq 1 n).
Definition round_test (n : nat) (labels : nat -> nat) (T : nat -> mty) : bool := dual_test n T && tidy_test n T && check n labels T.
(** The whole table: the start and every branch of every choice (e.g. examples/mpst/o_auth.rs:32-96). *)
Definition accepts (P : proto) : bool :=
  forallb (round_test (p_roles P) (p_labels P)) (p_types P :: map of_list (concat (p_choices P))).
