(** The functions written by [create_send_mpst_session!], [create_send_mpst_cancel!], [create_send_check_cancel!],
    [create_recv_mpst_session!], [create_offer_type_multi!] and [create_offer_mpst_session_multi!]: signature and body, as
    functions of the number of sessions and of the index ([exclusion]) that the user writes.
    Model only: types as in Methods.v; [Result], the bounds of [where] (they are [ok_for] of the parameters) and lifetimes
    are left out. The identifiers given by the user ([receiver], [sender], ..) are names of roles and names. *)
From Coq Require Import List Arith Bool String.
From Verif Require Import Methods.
Import ListNotations.
Open Scope nat_scope.
Open Scope list_scope.

(** Statements before the struct is built: [let new_session = send(x, s.session{i})]
    (mpst_seq_proc/src/macros_simple/send/create_send_mpst_session.rs:77-88; with [send_canceled] and [?]:
    macros_multiple/multiple/send/create_send_mpst_cancel.rs:77-88), [let (v, new_session) = recv(s.session{i})?]
    (macros_simple/recv/create_recv_mpst_session.rs:77-88, macros_simple/offer/create_offer_mpst_session_multi.rs:131-142),
    [match s.session{i}.receiver.try_recv() { Ok(Signal::Cancel) => { cancel(s); panic!("Error") }, _ => {} }]
    (macros_multiple/multiple/send/create_send_check_cancel.rs:155-161). *)
Inductive stmt := LetSend (i : nat) | LetRecv (i : nat) | TryCancel (i : nat).

(** What a field of the new struct is set to: [new_session] or [s.session{i}]
    (create_send_mpst_session.rs:105-118). *)
Inductive source := New | Old (i : nat).

(** How the function ends: the struct (create_send_mpst_session.rs:156-162), the value and the struct
    (create_recv_mpst_session.rs:161-170), or [cancel(s); e.either(f, g)] (create_offer_mpst_session_multi.rs:212-221). *)
Inductive ending := EMesh | EPair | EEither.

(** A function: type parameters, type of [x] if there is one, type of [s], types of the results (for offer: the types that
    [f] and [g] take), statements, [continuation] (false) or [continuation_left] (true), fields of the struct, ending. *)
Record fn := Fn {
  f_params : list param; f_arg : option rty; f_self : rty; f_outs : list rty;
  f_lets : list stmt; f_left : bool; f_fields : list (nat * source); f_end : ending }.

(** The loops [(1..n).map(|i| if i == exclusion {..} else {..})]: the statement is there for the index equal to
    [exclusion] (create_send_mpst_session.rs:77-88). *)
Definition at_index (mk : nat -> stmt) (n e : nat) : list stmt :=
  flat_map (fun i => if negb (i =? e) then [] else [mk i]) (seq 1 (n - 1)).

(** create_send_mpst_session.rs:105-118 (the same text in the other five files). *)
Definition new_fields (n e : nat) : list (nat * source) :=
  map (fun i => (i, if i =? e then New else Old i)) (seq 1 (n - 1)).

Section Forms.
  Variable mesh : string.
  Variable n : nat.

  (** create_send_mpst_session.rs:53-165, create_send_mpst_cancel.rs:53-170 (which differ in the function that is called
      and in the [Result]). *)
  Definition send_fn (receiver sender : string) (e : nat) : fn :=
    Fn ([PT] ++ map PS (seq 1 (n - 1)) ++ [PRole]) (Some (RVar PT))
       (mesh_t mesh (map (fun i => if i =? e then RApp CSend [RVar PT; RVar (PS i)] else RVar (PS i)) (seq 1 (n - 1)))
          (RApp (CRole receiver) [RVar PRole]) (name_t sender))
       [mesh_t mesh (svars 1 (n - 1)) (RVar PRole) (name_t sender)]
       (at_index LetSend n e) false (new_fields n e) EMesh.

  (** macros_multiple/multiple/send/create_send_check_cancel.rs:53-180: the first field is [End] in both types and the
      parameters start at S2; the loops of the body still start at 1. *)
  Definition send_check_fn (receiver sender : string) (e : nat) : fn :=
    Fn ([PT] ++ map PS (seq 2 (n - 2)) ++ [PRole]) (Some (RVar PT))
       (mesh_t mesh (end_t :: map (fun i => if i =? e then RApp CSend [RVar PT; RVar (PS i)] else RVar (PS i)) (seq 2 (n - 2)))
          (RApp (CRole receiver) [RVar PRole]) (name_t sender))
       [mesh_t mesh (end_t :: svars 2 (n - 2)) (RVar PRole) (name_t sender)]
       (TryCancel 1 :: at_index LetSend n e) false (new_fields n e) EMesh.

  (** macros_simple/recv/create_recv_mpst_session.rs:53-173. *)
  Definition recv_fn (sender receiver : string) (e : nat) : fn :=
    Fn ([PT] ++ map PS (seq 1 (n - 1)) ++ [PRole]) None
       (mesh_t mesh (map (fun i => if i =? e then RApp CRecv [RVar PT; RVar (PS i)] else RVar (PS i)) (seq 1 (n - 1)))
          (RApp (CRole sender) [RVar PRole]) (name_t receiver))
       [RVar PT; mesh_t mesh (svars 1 (n - 1)) (RVar PRole) (name_t receiver)]
       (at_index LetRecv n e) false (new_fields n e) EPair.

  (** macros_multiple/multiple/offer/create_offer_type_multi.rs:38-97: the alias, applied to sessions, stacks and name. *)
  Definition offer_alias (left right : list rty) (r1 r2 nm : rty) : rty :=
    RApp CRecv [RApp CEither [mesh_t mesh left r1 nm; mesh_t mesh right r2 nm]; end_t].

  (** macros_simple/offer/create_offer_mpst_session_multi.rs:58-224; [role] is the name x of RoleAllto{x}. *)
  Definition offer_fn (role name : string) (e : nat) : fn :=
    let left := svars 1 (n - 1) in
    let right := svars n (2 * n - 1 - n) in
    Fn (map PS (seq 1 (2 * n - 1 - 1)) ++ [PR 1; PR 2]) None
       (mesh_t mesh (map (fun i => if negb (i =? e) then end_t else offer_alias left right (RVar (PR 1)) (RVar (PR 2)) (name_t name)) (seq 1 (n - 1)))
          (RApp (CAllTo role) [role_end_t; role_end_t]) (name_t name))
       [mesh_t mesh left (RVar (PR 1)) (name_t name); mesh_t mesh right (RVar (PR 2)) (name_t name)]
       (at_index LetRecv n e) true (new_fields n e) EEither.
End Forms.

(** src/macros_simple/send.rs:36-47, 77-88, recv.rs:34-45, 76-87, offer.rs:41-53, 88-100: three roles, index 1 or 2. *)
Definition send_fn_3 (receiver sender : string) (e : nat) : fn := send_fn "MeshedChannels" 3 receiver sender e.
Definition recv_fn_3 (sender receiver : string) (e : nat) : fn := recv_fn "MeshedChannels" 3 sender receiver e.
Definition offer_fn_3 (role name : string) (e : nat) : fn := offer_fn "MeshedChannels" 3 role name e.
