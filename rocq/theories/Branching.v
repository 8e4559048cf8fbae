(** The attribute macro [branching], which checks that the variants of an enum are written in alphabetical order.
    Model only: an item is an enum with the names of its variants, or something else; spans and the [println!] of each
    variant are left out. *)
From Coq Require Import List Arith Bool String.
Import ListNotations.
Open Scope list_scope.

(** What the macro is put on (mpst_seq_proc/src/lib.rs:430; checking/branching.rs:5, 23). *)
Inductive item := Enum (variants : list string) | OtherItem.

(** Accepted, an error with its message, or a panic of the macro (branching.rs:14-18, 22, 24-27; 13 [unwrap_err];
    lib.rs:431 [assert!]). *)
Inductive checked := Accepted | Rejected (message : string) | Panics.

(** [<] of [String]: byte by byte (branching.rs:12). *)
Definition smaller (a b : string) : bool := match String.compare a b with Lt => true | _ => false end.

(** [names.binary_search(&name)] on a sorted vector, as the standard library specifies it: [None] stands for [Ok], otherwise
    the index at which the name could be inserted (branching.rs:13). *)
Definition binary_search (names : list string) (name : string) : option nat :=
  if existsb (String.eqb name) names then None else Some (List.length (filter (fun x => smaller x name) names)).

(** The loop over the variants; [names] are those before (branching.rs:8-21). Reading past the end of [names] panics (16). *)
Fixpoint check_variants (names variants : list string) : checked :=
  match variants with
  | [] => Accepted
  | name :: rest =>
      if match names with [] => false | _ => smaller name (last names EmptyString) end then
        match binary_search names name with
        | None => Panics
        | Some i => match nth_error names i with
                    | Some next => Rejected (name ++ " should sort before " ++ next)
                    | None => Panics
                    end
        end
      else check_variants (names ++ [name]) rest
  end.

(** branching.rs:4-29. *)
Definition branching_variants (it : item) : checked :=
  match it with Enum vs => check_variants [] vs | OtherItem => Rejected "expected enum or match expression" end.

(** The macro: the item is kept, an error is added after it; [#[branching(..)]] with arguments panics (lib.rs:426-437). *)
Definition branching (args_empty : bool) (it : item) : checked := if args_empty then branching_variants it else Panics.
