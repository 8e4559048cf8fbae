(** Specification of the macros written by [generate!] (GenMacros.v): when a role chooses by a macro, and programs whose roles
    choose by their own macros. *)
From Coq Require Import List Arith Bool String.
From Verif Require Import Types Session Mesh MeshSpec Wiring Methods MethodsSpec ForkTypes ForkSpec GenMacros.
Import ListNotations.
Open Scope nat_scope.
Open Scope list_scope.

(** [choose_mpst_x_to_all!(s, labels)] (src/macros_multiple/choose.rs:362-371 gives the form) is accepted for a MeshedChannels with sessions [fields], with a result of type R. *)
Definition chooses (timed : bool) (defs : list choice_macro) (x : string) (sends : rty -> rty -> Prop) (fields : list rty)
    (labels : list label) (R : rty) : Prop :=
  exists c, use_macro timed defs x (List.length labels) = Some c /\
    choice_accepts sends c fields (fun i => nth (i - 1) labels (Label end_t end_t)) R.

(** No other role (in the timed forms: no later role) has the same macro name. *)
Definition own_macro (lower : string -> string) (timed : bool) (roles : list string) (p : nat) : Prop :=
  forall q, 1 <= q <= List.length roles -> (if timed then p < q else p <> q) ->
    macro_name lower (role_name roles q) <> macro_name lower (role_name roles p).

(** A program of the machine (Mesh.v), the variants of which are chosen by [chooser] with the macro named after it. *)
Definition compiled_by (lower : string -> string) (timed : bool) (sends : rty -> rty -> Prop) (mesh : string) (roles : list string)
    (T : nat -> mty) (branch : nat -> nat -> nat -> mty) (labels : nat -> nat) (chooser : nat -> nat -> nat) : Prop :=
  let n := List.length roles in
  (exists f, fork_fn mesh n = Some f /\ fork_accepts f (map (content mesh roles T) (seq 1 n))) /\
  forall b l, l < labels b -> exists fields, let e := chooser b l in
    chooses timed (choice_macros lower mesh roles) (macro_name lower (role_name roles e)) sends fields
      (map (branch_labels mesh roles (branch b l) b e) (seq 1 (n - 1))) (content mesh roles (branch b l) e).
