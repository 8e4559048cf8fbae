(** Model of mpst_seq_proc/src/common_functions/maths.rs: the numbering of the pairs of roles
    used by all the code generators of the library.
    [u64] is modelled by [nat]; a panic is [None]. *)
From Coq Require Import List Arith Bool Lia.
Import ListNotations.

(** maths.rs:3 [VecOfTuple]: (line, column, index). *)
Definition triple : Type := (nat * nat * nat)%type.

(** One turn of the closure of [diag], maths.rs:15-24: update of the mutable
    [line] and [column]. *)
Definition diag_step (n line column : nat) : nat * nat :=
  if line =? column then (line, column + 1)
  else if n - 1 <=? column then (line + 1, (line + 1) + 1)
  else (line, column + 1).

(** The iterator of [diag], maths.rs:13-25: [count] turns starting at counter [i]. *)
Fixpoint diag_loop (n count i line column : nat) : list triple :=
  match count with
  | 0 => []
  | S count' =>
      let '(line', column') := diag_step n line column in
      (line' + 1, column' + 1, i + 1) :: diag_loop n count' (i + 1) line' column'
  end.

(** maths.rs:6-26 [diag]. *)
Definition diag (n : nat) : list triple :=
  let diff := n - 1 in diag_loop n (diff * (diff + 1) / 2) 0 0 0.

(** maths.rs:83-103 [diag_w_offset]: same with an inclusive range, one more turn. *)
Definition diag_w_offset (n : nat) : list triple :=
  let diff := n - 1 in diag_loop n (diff * (diff + 1) / 2 + 1) 0 0 0.

(** The filter of maths.rs:37-43. *)
Definition touches (i : nat) (t : triple) : bool :=
  let '(line, column, _) := t in (i =? line) || (i =? column).

(** maths.rs:29-49 [diag_and_matrix] (first component) and 106-127
    [diag_and_matrix_w_offset]: row i keeps the triples whose line or column is i. *)
Definition matrix_of (d : list triple) (n : nat) : list (list triple) :=
  map (fun i => filter (touches i) d) (seq 1 n).

Definition matrix (n : nat) : list (list triple) := matrix_of (diag n) n.
Definition matrix_w_offset (n : nat) : list (list triple) := matrix_of (diag_w_offset n) n.

(** maths.rs:52-70 [get_tuple_matrix]; [i - 1] underflows (panic) for i = 0. *)
Definition get_tuple_matrix (m : list (list triple)) (i j : nat) : option triple :=
  match i, j with
  | S i', S j' =>
      match nth_error m i' with
      | Some row => nth_error row j'
      | None => None
      end
  | _, _ => None
  end.

(** maths.rs:73-80 [get_line_column_from_diag]. *)
Fixpoint get_line_column_from_diag (d : list triple) (index : nat) : option (nat * nat) :=
  match d with
  | [] => None
  | (l, c, k) :: d' => if k =? index then Some (l, c) else get_line_column_from_diag d' index
  end.

(** maths.rs:130-139 [get_tuple_diag]. *)
Definition get_tuple_diag (d : list triple) (i : nat) : option triple :=
  match i with
  | S i' => nth_error d i'
  | 0 => None
  end.
