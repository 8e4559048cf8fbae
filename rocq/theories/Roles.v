(** Role stacks as run-time values with their internal channels (property C36). Model only. *)
From Coq Require Import List Arith Bool.
From Verif Require Import Types.
Import ListNotations.

(** An internal channel [bounded(1)] of a role: is the receiver still alive, is the place taken
    (src/role/a.rs:43-44). *)
Record rchan := RChan { rx_alive : bool; full : bool }.
Definition rheap := list rchan.

(** Run-time values. RoleEnd, RoleBroadcast: a sender and a receiver (src/role/end.rs:22-27,
    broadcast.rs:22-27). RoleX, RoleXDual: one sender (a.rs:30-38, a_dual.rs:30-38).
    RoleXtoAll, RoleAlltoX: two senders (a_to_all.rs:33-44, all_to_a.rs:28-39).
    The first argument is the (Rust) type of the value. *)
Inductive rval :=
| VPair (t : stack) (tx rx : nat)
| VOne (t : stack) (tx : nat)
| VTwo (t : stack) (tx1 tx2 : nat).

(** The Rust type of a value (src/role/a.rs:30-38, end.rs:22-27, broadcast.rs:22-27). *)
Definition rty (v : rval) : stack :=
  match v with VPair t _ _ | VOne t _ | VTwo t _ _ => t end.

(** [let (tx, rx) = bounded(1)] keeping both ends / keeping only the sender: in
    [let (sender_normal, _) = bounded::<R>(1)] (src/role/a.rs:43-44) the receiver is dropped at the
    end of the statement. *)
Definition chan_kept : rchan := RChan true false.
Definition chan_no_rx : rchan := RChan false false.

(** [Role::new]: end.rs:32-46, broadcast.rs:32-46, a.rs:42-54, a_dual.rs:42-54,
    a_to_all.rs:49-65, all_to_a.rs:44-60, src/macros_simple/role.rs:63-75,113-125,279-295,342-358. *)
Definition role_new (t : stack) (h : rheap) : rval * rval * rheap :=
  let c := length h in
  match t with
  | SEnd | SBroadcast =>
      (VPair t c (S c), VPair (sdual t) (S c) c, h ++ [chan_kept; chan_kept])
  | SRole _ _ | SRoleDual _ _ =>
      (VOne t (S c), VOne (sdual t) c, h ++ [chan_no_rx; chan_no_rx])
  | SToAll _ _ _ | SAllTo _ _ _ =>
      (VTwo t (S (S c)) (S (S (S c))), VTwo (sdual t) c (S c),
       h ++ [chan_no_rx; chan_no_rx; chan_no_rx; chan_no_rx])
  end.

(** Outcome of an operation (src/role/a.rs:75-79). *)
Inductive outcome :=
| Returned (v : rval) (h : rheap)   (* the call returned *)
| Blocked                           (* the call waits: place taken, receiver alive *)
| NoSuchMethod.                     (* the value has no such method *)

(** [sender.send(there)] of crossbeam on [bounded(1)]: fails at once without receiver (the error is
    ignored by [unwrap_or]), stores if the place is free, waits otherwise (src/role/a.rs:77). *)
Definition role_send (tx : nat) (h : rheap) : option rheap :=
  match nth_error h tx with
  | None => None
  | Some ch =>
      if negb (rx_alive ch) then Some h
      else if full ch then None
      else Some (firstn tx h ++ RChan true true :: skipn (S tx) h)
  end.

(** Common body of the three methods: [let (here, there) = R::new();
    self.sender.send(there).unwrap_or(()); here] (src/role/a.rs:75-79). *)
Definition advance (t : stack) (tx : nat) (h : rheap) : outcome :=
  let '(here, _, h1) := role_new t h in
  match role_send tx h1 with
  | Some h2 => Returned here h2
  | None => Blocked
  end.

(** [continuation]: src/role/a.rs:75-79, a_dual.rs:75-79, src/macros_simple/role.rs:160-164,171-175. *)
Definition continuation (v : rval) (h : rheap) : outcome :=
  match v with
  | VOne (SRole _ r) tx | VOne (SRoleDual _ r) tx => advance r tx h
  | _ => NoSuchMethod
  end.

(** [continuation_left], [continuation_right]: src/role/a_to_all.rs:98-109, all_to_a.rs:93-104,
    src/macros_simple/role.rs:397-406,413-422. *)
Definition continuation_left (v : rval) (h : rheap) : outcome :=
  match v with
  | VTwo (SToAll _ r1 _) tx1 _ | VTwo (SAllTo _ r1 _) tx1 _ => advance r1 tx1 h
  | _ => NoSuchMethod
  end.
Definition continuation_right (v : rval) (h : rheap) : outcome :=
  match v with
  | VTwo (SToAll _ _ r2) _ tx2 | VTwo (SAllTo _ _ r2) _ tx2 => advance r2 tx2 h
  | _ => NoSuchMethod
  end.
