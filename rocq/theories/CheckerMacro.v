(** * The macros of the checker

    Model of [checker_concat!] (src/checking/mod.rs:83-202) and of the two
    procedural macros behind it (mpst_seq_proc/src/checking/aux_checking.rs,
    aux_checking_impl.rs): the maps that they build from the lines
    [[Endpoint, Enum, Variant, ..]] and hand to [checker].  A choice is a plain
    identifier here; [checker_concat_impl!] is given the same lines.  A
    [HashMap] is an association list with each key once. *)

From Coq Require Import Ascii String ZArith Lia Bool List.
From Verif Require Import Checker CheckerSpec.
Import ListNotations.

(** [HashMap::insert]. *)
Definition hinsert {A} (m : hmap A) (k : str) (a : A) : hmap A :=
  (k, a) :: filter (fun e => negb (seqb (fst e) k)) m.

(** A line: the endpoint adopted by the sender and the (enum, variant) pairs
    (mod.rs:124-132). *)
Definition macro_line : Type := (ty * list (str * str))%type.

(** ["{}::{}"] (mod.rs:159-163, 168-172). *)
Definition branch_key (v : str * str) : str := fst v ++ lit "::" ++ snd v.

(** [branching_sessions] (mod.rs:143-145, 155-165). *)
Definition branching_of (lines : list macro_line) : hmap str :=
  fold_left
    (fun m line =>
       fold_left (fun m v => hinsert m (branch_key v) (type_name (fst line))) (snd line) m)
    lines [].

(** [group_branches] with the index of the line (mod.rs:148-153, 167-179). *)
Fixpoint groups_from (index : nat) (lines : list macro_line) (m : hmap Z) : hmap Z :=
  match lines with
  | [] => m
  | line :: rest =>
      groups_from (S index) rest
        (fold_left (fun m v => hinsert m (branch_key v) (Z.of_nat index)) (snd line) m)
  end.
Definition group_of (lines : list macro_line) : hmap Z := groups_from 0 lines [].

(** The [choices] collected by the procedural macros: the variants of each enum
    in the order of the lines (aux_checking.rs:43-60, aux_checking_impl.rs:43-60). *)
Definition choices_of (lines : list macro_line) : hmap (list str) :=
  fold_left
    (fun m v =>
       hinsert m (fst v)
         match hget m (fst v) with Some l => l ++ [snd v] | None => [snd v] end)
    (concat (map snd lines)) [].

(** [branches_receivers]: for each enum the map of its variants to the name of
    the type they carry.  [match self] binds [s] to a reference and [type_of]
    is given [&s], so that the name starts with two [&]
    (aux_checking_impl.rs:77-92, 108-138; aux_checking.rs:68-88).  [carried e b]
    is the type carried by variant [b] of enum [e]. *)
Definition receivers_of (carried : str -> str -> ty) (lines : list macro_line)
    : hmap (hmap str) :=
  map (fun e =>
         (fst e, fold_left
                   (fun m b => hinsert m b (lit "&&" ++ type_name (carried (fst e) b)))
                   (snd e) []))
    (choices_of lines).

(** [checker_concat!] with lines (mod.rs:118-202); without lines the three
    maps are empty (mod.rs:84-117). *)
Definition checker_concat (fuel : nat) (with_file : bool) (sessions : list ty)
    (carried : str -> str -> ty) (lines : list macro_line) (kmc : nat -> kmc_answer)
    : res (hmap graph * list str * option (option nat)) :=
  checker fuel with_file (map type_name sessions) (receivers_of carried lines)
    (branching_of lines) (group_of lines) kmc.
