(** Session types, role stacks and MeshedChannels types, their [Dual], and [new].
    Model only; proofs are in TypesProofs.v. *)
From Coq Require Import List ZArith Bool.
Import ListNotations.

(** Names of roles and clocks are natural numbers: only equality of names matters here. *)

(** Role stacks.
    [SEnd]: src/role/end.rs:22-63; [SBroadcast]: src/role/broadcast.rs:22-63;
    [SRole x r] is RoleX<R>: src/role/a.rs:30-80 (b.rs, c.rs alike) and
    src/macros_simple/role.rs:29-178 (create_normal_role); [SRoleDual x r] is RoleXDual<R>:
    src/role/a_dual.rs:30-80; [SToAll x r1 r2] is RoleXtoAll<R1,R2>: src/role/a_to_all.rs:33-110;
    [SAllTo x r1 r2] is RoleAlltoX<R1,R2>: src/role/all_to_a.rs:28-105;
    src/macros_simple/role.rs:235-425 (create_broadcast_role). *)
Inductive stack :=
| SEnd
| SBroadcast
| SRole (x : nat) (r : stack)
| SRoleDual (x : nat) (r : stack)
| SToAll (x : nat) (r1 r2 : stack)
| SAllTo (x : nat) (r1 r2 : stack).

(** [Role::Dual]: src/role/a.rs:40, a_dual.rs:40, a_to_all.rs:47, all_to_a.rs:42, end.rs:30,
    broadcast.rs:30, src/macros_simple/role.rs:60,110,273-276,336-339. *)
Fixpoint sdual (r : stack) : stack :=
  match r with
  | SEnd => SEnd
  | SBroadcast => SBroadcast
  | SRole x r => SRoleDual x (sdual r)
  | SRoleDual x r => SRole x (sdual r)
  | SToAll x r1 r2 => SAllTo x (sdual r1) (sdual r2)
  | SAllTo x r1 r2 => SToAll x (sdual r1) (sdual r2)
  end.

(** The const parameters CLOCK, START, INCLUDE_START, END, INCLUDE_END, RESET of SendTimed and
    RecvTimed: src/binary_atmp/struct_trait/send.rs:24-52, recv.rs:24-51. A char is a natural
    number (32 is the blank used for "no reset"); i128 is unbounded here. *)
Record window := Window {
  w_clock : nat;
  w_start : Z;
  w_incl_start : bool;
  w_end : Z;
  w_incl_end : bool;
  w_reset : nat
}.

(** Session types over payload types [P] (Dual never looks inside a payload).
    Send: src/binary/struct_trait/send.rs:14-22; Recv: src/binary/struct_trait/recv.rs:14-21;
    End: src/binary/struct_trait/end.rs:11-16; SendTimed/RecvTimed: files above;
    MeshedChannels<S1,..,S(n-1),R,N>: src/meshedchannels/mod.rs:77-92 and, for any n,
    mpst_seq_proc/src/common_functions/expand/meshedchannels.rs:103-119. *)
Inductive ty (P : Type) :=
| TEnd
| TSend (p : P) (s : ty P)
| TRecv (p : P) (s : ty P)
| TSendT (p : P) (w : window) (s : ty P)
| TRecvT (p : P) (w : window) (s : ty P)
| TMesh (ss : list (ty P)) (r : stack) (name : nat).
Arguments TEnd {P}.
Arguments TSend {P}.
Arguments TRecv {P}.
Arguments TSendT {P}.
Arguments TRecvT {P}.
Arguments TMesh {P}.

(** [Session::Dual]: end.rs:30, send.rs:25, recv.rs:24 (src/binary/struct_trait), send.rs:107,
    recv.rs:106 (src/binary_atmp/struct_trait), src/meshedchannels/mod.rs:95,
    expand/meshedchannels.rs:130-135 (the name parameter N is kept). *)
Fixpoint dual {P} (t : ty P) : ty P :=
  match t with
  | TEnd => TEnd
  | TSend p s => TRecv p (dual s)
  | TRecv p s => TSend p (dual s)
  | TSendT p w s => TRecvT p w (dual s)
  | TRecvT p w s => TSendT p w (dual s)
  | TMesh ss r n => TMesh (map dual ss) (sdual r) n
  end.

(** Values of session types: channel ends. A channel id stands for one call of
    [crossbeam_channel::bounded(1)]. The timed structs copy their const parameters into fields
    (src/binary_atmp/struct_trait/send.rs:36-52, 111-130). *)
Inductive ep :=
| ESend (c : nat)
| ERecv (c : nat)
| ESendT (c : nat) (w : window)
| ERecvT (c : nat) (w : window)
| EEnd (tx rx : nat)
| EMesh (es : list ep) (r : stack) (name : nat).

(** [Session::new] for a list of sessions, in the order of the let-bindings
    (expand/meshedchannels.rs:33-41). *)
Definition new_list {P} (new : ty P -> nat -> ep * ep * nat) :=
  fix go (ss : list (ty P)) (c : nat) : list ep * list ep * nat :=
    match ss with
    | [] => ([], [], c)
    | s :: rest =>
        let '(e1, e2, c1) := new s c in
        let '(l1, l2, c2) := go rest c1 in
        (e1 :: l1, e2 :: l2, c2)
    end.

(** [Session::new]: end.rs:32-46, send.rs:27-30, recv.rs:26-29 (calls [Self::Dual::new] and swaps),
    src/binary_atmp/struct_trait/send.rs:109-131, recv.rs:108-111,
    src/meshedchannels/mod.rs:97-119, expand/meshedchannels.rs:138-157.
    The third component is the next unused channel id. Role and name channels are not counted
    here (see Roles.v); the stack value is represented by its type. *)
Fixpoint new {P} (t : ty P) (c : nat) : ep * ep * nat :=
  match t with
  | TEnd => (EEnd c (S c), EEnd (S c) c, S (S c))
  | TSend _ _ => (ESend c, ERecv c, S c)
  | TRecv _ _ => let '(sender, receiver, c') := (ESend c, ERecv c, S c) in (receiver, sender, c')
  | TSendT _ w _ => (ESendT c w, ERecvT c w, S c)
  | TRecvT _ w _ =>
      let '(sender, receiver, c') := (ESendT c w, ERecvT c w, S c) in (receiver, sender, c')
  | TMesh ss r n =>
      let '(l1, l2, c') := new_list new ss c in
      (EMesh l1 r n, EMesh l2 (sdual r) n, c')
  end.
