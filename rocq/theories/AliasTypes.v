(** The aliases written by [create_choose_type_multi!] and [create_offer_type_multi!]. Model only.
    Types are closed; identifiers of structs are numbers. *)
From Coq Require Import List Arith Bool.
Import ListNotations.

(** The types that the aliases are made of: End, Send, Recv (src/binary/struct_trait/end.rs:30, send.rs:25,
    recv.rs:24), Either, a MeshedChannels (src/meshedchannels/mod.rs:73-92), a stack and its dual
    (src/role/a.rs:40, a_dual.rs:40), another type, among them the names and RoleEnd (src/role/end.rs:30). *)
Inductive ty :=
| TEnd
| TSend (p s : ty)
| TRecv (p s : ty)
| TEither (a b : ty)
| TMesh (id : nat) (ss : list ty) (r nm : ty)
| TRole (id : nat) (dualised : bool) (rs : list ty)
| TPlain (id : nat).

(** [Session::Dual] and [Role::Dual]: src/binary/struct_trait/send.rs:25, recv.rs:24, end.rs:30;
    mpst_seq_proc/src/macros_multiple/multiple/create_meshedchannels.rs:170-200, which keeps the name as src/meshedchannels/mod.rs:95
    does; src/role/a.rs:40, a_dual.rs:40, a_to_all.rs:47, all_to_a.rs:42, end.rs:30. RoleEnd is its own dual; a type that is
    neither a session nor a stack is left alone (the code asks for no dual of it). *)
Fixpoint dual (t : ty) : ty :=
  match t with
  | TEnd => TEnd
  | TSend p s => TRecv p (dual s)
  | TRecv p s => TSend p (dual s)
  | TMesh id ss r nm => TMesh id (map dual ss) (dual r) nm
  | TRole id b rs => TRole id (negb b) (map dual rs)
  | TEither _ _ | TPlain _ => t
  end.

(** The argument for the parameter [S{i}] (create_choose_type_multi.rs:42-49). *)
Definition arg (ss : list ty) (i : nat) : option ty := match i with O => None | S k => nth_error ss k end.
Fixpoint args (ss : list ty) (is : list nat) : option (list ty) :=
  match is with
  | [] => Some []
  | i :: is' => match arg ss i, args ss is' with Some t, Some l => Some (t :: l) | _, _ => None end
  end.
(** The alias applied: the parameters are S1 .. S(2n-2), R0, R1, N0, and Rust wants one argument for each; the
    left branch takes S1 .. S(n-1), the right one Sn .. S(2n-2). [None] is a type error, or for n = 0 the underflow of 2 * n - 1 in the macro
    (mpst_seq_proc/src/macros_multiple/multiple/choose/create_choose_type_multi.rs:38-99). *)
Definition branches (id n : nat) (ss : list ty) (r0 r1 nm : ty) : option (ty * ty) :=
  if (1 <=? n) && (length ss =? length (seq 1 (2 * n - 1 - 1))) then
    match args ss (seq 1 (n - 1)), args ss (seq n (2 * n - 1 - n)) with
    | Some sl, Some sr => Some (TMesh id sl r0 nm, TMesh id sr r1 nm)
    | _, _ => None
    end
  else None.
(** mpst_seq_proc/src/macros_multiple/multiple/choose/create_choose_type_multi.rs:69-97. *)
Definition choose_type (id n : nat) (ss : list ty) (r0 r1 nm : ty) : option ty :=
  match branches id n ss r0 r1 nm with
  | Some (a, b) => Some (TSend (TEither (dual a) (dual b)) TEnd)
  | None => None
  end.
(** mpst_seq_proc/src/macros_multiple/multiple/offer/create_offer_type_multi.rs:69-95. *)
Definition offer_type (id n : nat) (ss : list ty) (r0 r1 nm : ty) : option ty :=
  match branches id n ss r0 r1 nm with
  | Some (a, b) => Some (TRecv (TEither a b) TEnd)
  | None => None
  end.
