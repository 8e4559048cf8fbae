(** How [generate!] and [generate_atmp!] read the roles, and the macros that they write for choices.
    Model only: tokens are identifiers, groups and others; [lower] is [str::to_lowercase]; the bodies of the macros are
    [choose_code] (ForkTypes.v). *)
From Coq Require Import List Arith Bool String Ascii.
From Verif Require Import Methods ForkTypes.
Import ListNotations.
Open Scope nat_scope.
Open Scope list_scope.

(** [proc_macro2::TokenTree] (mpst_seq_proc/src/common_functions/expand/parenthesised.rs:1, 24-30): punctuation and literals
    are [TOther]. *)
Inductive tok := TIdent (x : string) | TGroup (ts : list tok) | TOther.

(** parenthesised.rs:44-54. *)
Definition get_all_roles_ident (ts : list tok) : list string :=
  flat_map (fun t => match t with TIdent x => [x] | _ => [] end) ts.

(** parenthesised.rs:21-41: the identifiers in the groups; if there are none, those outside. *)
Definition get_all_roles (ts : list tok) : list string :=
  match flat_map (fun t => match t with TGroup g => get_all_roles_ident g | _ => [] end) ts with
  | [] => get_all_roles_ident ts
  | rs => rs
  end.

(** parenthesised.rs:57-76: the groups and identifiers in the groups; [None]: panic. *)
Definition parenthesised_groups (ts : list tok) : option (list tok) :=
  fold_right (fun t acc =>
    match t, acc with
    | TGroup g, Some l => if forallb (fun e => match e with TOther => false | _ => true end) g then Some (g ++ l) else None
    | _, _ => acc
    end) (Some []) ts.

(** What the forms of [generate!] pass on: [$( $all_roles , )+] (src/baking/mod.rs:98-142, src/baking_atmp/mod.rs:35-46), and
    [( $( ( $all_roles_one ) )+ )] without its parentheses (src/baking/mod.rs:143-180; the parentheses are taken off in
    mpst_seq_proc/src/baking/baking_interleaved_with_enum_and_cancel.rs:44-47). *)
Definition flat_call (roles : list string) : list tok := flat_map (fun r => [TIdent r; TOther]) roles.
Definition group_call (roles : list string) : list tok := map (fun r => TGroup [TIdent r]) roles.
(** The labels of a choice: a fragment [path] is a group without delimiters (src/macros_multiple/choose.rs:290-303). *)
Definition label_call (labels : list (list tok)) : list tok := map (fun l => TGroup [TGroup l]) labels.

(** A macro for choices: its name, and the sender, MeshedChannels and index that it gives to [choose_mpst_multi_to_all!]
    (mpst_seq_proc/src/macros_multiple/multiple/choose/choose_mpst_create_multi_to_all.rs:47-70,
    choose_atmp_mpst_create_multi_to_all.rs:48-73). *)
Record choice_macro := ChoiceMacro { cm_name : string; cm_sender : string; cm_mesh : string; cm_index : nat }.

Section Lower.
  Variable lower : string -> string.

  (** mpst_seq_proc/src/common_functions/expand/choose.rs:1149-1155, 1799-1804. *)
  Definition macro_name (role : string) : string := lower ("choose_mpst_" ++ role ++ "_to_all")%string.

  (** choose.rs:1141-1185 (recursive, rec_and_cancel, interleaved) and 1790-1846 (timed): one macro for each role, in
      order. *)
  Definition choice_macros (mesh : string) (roles : list string) : list choice_macro :=
    map (fun i => let x := nth (i - 1) roles ""%string in ChoiceMacro (macro_name x) x mesh i) (seq 1 (List.length roles)).

  (** The two protocols of an interleaved program, in the order of the text
      (mpst_seq_proc/src/baking/baking_interleaved_with_enum_and_cancel.rs:351-400). *)
  Definition choice_macros_two (mesh1 mesh2 : string) (roles1 roles2 : list string) : list choice_macro :=
    choice_macros mesh1 roles1 ++ choice_macros mesh2 roles2.
End Lower.

(** What a name stands for after the definitions. In the timed forms all macros are written by one expansion, and a later
    definition hides an earlier one (expand/choose.rs:1819-1838). In the others each is written by an expansion of its own
    (choose.rs:1173-1180), and Rust rejects a name with two definitions as ambiguous (E0659). *)
Definition resolve (timed : bool) (x : string) (defs : list choice_macro) : option choice_macro :=
  if timed then find (fun m => String.eqb (cm_name m) x) (rev defs)
  else match filter (fun m => String.eqb (cm_name m) x) defs with [m] => Some m | _ => None end.

(** The use of a macro with k labels; at least one is asked for, and the number of roles is computed from it
    (choose_mpst_create_multi_to_all.rs:56-58, mpst_seq_proc/src/choose_mpst_multi_to_all.rs:27-53). *)
Definition macro_choice (m : choice_macro) (k : nat) : option choice :=
  if k =? 0 then None else choose_code (cm_mesh m) (k + 1) (cm_index m) (cm_sender m).
Definition use_macro (timed : bool) (defs : list choice_macro) (x : string) (k : nat) : option choice :=
  match resolve timed x defs with Some m => macro_choice m k | None => None end.

(** [to_lowercase] for names in ASCII (expand/choose.rs:1153). *)
Definition lower_char (c : ascii) : ascii :=
  let k := nat_of_ascii c in if (65 <=? k) && (k <=? 90) then ascii_of_nat (k + 32) else c.
Fixpoint lower_ascii (s : string) : string :=
  match s with EmptyString => EmptyString | String c s' => String (lower_char c) (lower_ascii s') end.
