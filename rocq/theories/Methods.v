(** The [impl] blocks written by [generate!] and [generate_atmp!]: for which types they give which methods.
    Model only: types are terms, an [impl] is its parameters, its self type and the types that its methods return (or,
    for [offer], give to the two functions); [Result], the clocks and the bodies are left out (bodies: Wiring.v).
    Identifiers are constructors ([Role{x}] is [CRole x]); clashes between them are the subject of C47. *)
From Coq Require Import List Arith Bool String ZArith.
From Verif Require Import Types Diag Wiring.
Import ListNotations.
Open Scope nat_scope.
Open Scope list_scope.

(** Type and const parameters: [PS i] is S{i}, [PR i] is R{i}, [PRole] is R, [PT] is T, [PName] is N, [PN i] is N{i},
    [PK 1..6] are CLOCK, START, INCLUDE_START, END, INCLUDE_END, RESET
    (mpst_seq_proc/src/common_functions/expand/aux_baking.rs:10-24, send.rs:247-257, choose.rs:31-43, aux_fork.rs:67-88). *)
Inductive param := PS (i : nat) | PR (i : nat) | PRole | PT | PName | PN (i : nat) | PK (i : nat).

(** Structs of the library and of the generated code, types of the user, tuples, constants (src/binary/struct_trait,
    src/binary_atmp/struct_trait, src/role, expand/role.rs, expand/name.rs, expand/meshedchannels.rs:103-119). *)
Inductive con :=
| CEnd | CSend | CRecv | CSendT | CRecvT | CEither
| CMesh (m : string)
| CRoleEnd | CBroadcast | CRole (x : string) | CRoleDual (x : string) | CToAll (x : string) | CAllTo (x : string)
| CName (x : string)
| CUser (x : nat)
| CTuple
| CChar (c : nat) | CInt (z : Z) | CBool (b : bool).

(** Types; [RDual t] is [<t as Session>::Dual] (choose.rs:73-75). *)
Inductive rty := RVar (v : param) | RApp (c : con) (args : list rty) | RDual (t : rty).

(** Methods (send.rs:7-86, recv.rs:7-93, offer.rs:7-110, choose.rs:11-573, close.rs:6-63, cancel.rs:6-43). *)
Inductive meth := MSend | MRecv | MRecvAll | MOffer | MChooseLeft | MChooseRight | MClose | MCancel.

Record impl := Impl { i_params : list param; i_self : rty; i_methods : list (meth * list rty) }.

(** [all_roles.get(i - 1)]: send.rs:16-26 ([i - 1] underflows for 0; absent: panic). *)
Definition role_at (roles : list string) (i : nat) : option string :=
  match i with 0 => None | S k => nth_error roles k end.

(** MeshedChannels with the given fields (expand/meshedchannels.rs:103-119). *)
Definition mesh_t (mesh : string) (fields : list rty) (stack name : rty) : rty := RApp (CMesh mesh) (fields ++ [stack; name]).
(** The parameters S{a}.. as fields (aux_baking.rs:10-14). *)
Definition svars (a len : nat) : list rty := map (fun k => RVar (PS k)) (seq a len).
Definition consts : list param := map PK (seq 1 6).
Definition end_t : rty := RApp CEnd [].
Definition role_end_t : rty := RApp CRoleEnd [].
Definition name_t (x : string) : rty := RApp (CName x) [].

Section Mode.
  (** generate_atmp! or generate!; the name of the MeshedChannels; the roles
      (mpst_seq_proc/src/common_functions/parsing.rs:8-21: number_roles is the length of the list). *)
  Variable timed : bool.
  Variable mesh : string.
  Variable roles : list string.
  Let n := List.length roles.

  (** [Send<T, S>], or [SendTimed<T, CLOCK, .., RESET, S>] (send.rs:34-40, 205-221); [Recv] alike. *)
  Definition send_t (payload s : rty) : rty :=
    if timed then RApp CSendT (payload :: map RVar consts ++ [s]) else RApp CSend [payload; s].
  Definition recv_t (payload s : rty) : rty :=
    if timed then RApp CRecvT (payload :: map RVar consts ++ [s]) else RApp CRecv [payload; s].
  Definition kparams : list param := if timed then consts else [].

  (** send.rs:7-86 (send_basic), 90-175 (send_canceled), 178-292 (send_atmp_canceled). *)
  Definition send_impl (sender receiver : nat) : option impl :=
    match role_at roles sender, role_at roles receiver with
    | Some s, Some r =>
        Some (Impl (map PS (seq 1 (n - 1)) ++ [PRole; PT] ++ kparams)
          (mesh_t mesh
             (map (fun k => if comm_wrapped sender receiver k then send_t (RVar PT) (RVar (PS k)) else RVar (PS k))
                  (seq 1 (n - 1)))
             (RApp (CRole r) [RVar PRole]) (name_t s))
          [(MSend, [mesh_t mesh (svars 1 (n - 1)) (RVar PRole) (name_t s)])])
    | _, _ => None
    end.

  (** recv.rs:7-93 (recv_basic), 96-183 (recv), 369-483 (recv_atmp). *)
  Definition recv_impl (receiver sender : nat) : option impl :=
    match role_at roles sender, role_at roles receiver with
    | Some s, Some r =>
        Some (Impl (map PS (seq 1 (n - 1)) ++ [PRole; PT] ++ kparams)
          (mesh_t mesh
             (map (fun k => if comm_wrapped receiver sender k then recv_t (RVar PT) (RVar (PS k)) else RVar (PS k))
                  (seq 1 (n - 1)))
             (RApp (CRole s) [RVar PRole]) (name_t r))
          [(MRecv, [RVar PT; mesh_t mesh (svars 1 (n - 1)) (RVar PRole) (name_t r)])])
    | _, _ => None
    end.

  (** recv.rs:186-274 (recv_from_all_basic), 277-366 (recv_from_all), 486-601 (recv_from_all_atmp). *)
  Definition recv_all_impl (receiver sender : nat) : option impl :=
    match role_at roles sender, role_at roles receiver with
    | Some s, Some r =>
        Some (Impl (map PS (seq 1 (n - 1)) ++ [PT] ++ kparams)
          (mesh_t mesh
             (map (fun k => if comm_wrapped receiver sender k then recv_t (RVar PT) (RVar (PS k)) else RVar (PS k))
                  (seq 1 (n - 1)))
             (RApp (CAllTo s) [role_end_t; role_end_t]) (name_t r))
          [(MRecvAll, [RVar PT; mesh_t mesh (svars 1 (n - 1)) role_end_t (name_t r)])])
    | _, _ => None
    end.

  (** offer.rs:7-110 (offer_basic), 113-216 (offer), 219-341 (offer_atmp): left sessions S1..S(n-1), right sessions
      Sn..S(2n-2). *)
  Definition offer_impl (sender receiver : nat) : option impl :=
    match role_at roles sender, role_at roles receiver with
    | Some s, Some r =>
        let left := mesh_t mesh (svars 1 (n - 1)) (RVar (PR 1)) (name_t r) in
        let right := mesh_t mesh (svars n (2 * n - 1 - n)) (RVar (PR 2)) (name_t r) in
        Some (Impl (map PS (seq 1 (2 * n - 1 - 1)) ++ [PR 1; PR 2] ++ kparams)
          (mesh_t mesh
             (map (fun k => if comm_wrapped receiver sender k then recv_t (RApp CEither [left; right]) end_t else end_t)
                  (seq 1 (n - 1)))
             (RApp (CAllTo s) [role_end_t; role_end_t]) (name_t r))
          [(MOffer, [left; right])])
    | _, _ => None
    end.

  (** choose.rs:57-75 (left_sessions; right_sessions 79-110 with [diff*(diff+1)/2] added): S{m} or its dual. *)
  Definition session_of (add : nat) (e : endp) : rty :=
    let v := RVar (PS (add + fst e)) in if snd e then v else RDual v.

  (** choose.rs:48-167 [choose_sessions] for receiver j: the field by which the choice is sent. 112-137: the stacks. *)
  Definition choose_field (sender j : nat) : option rty :=
    match bchoose_receiver_decl n sender j, role_at roles j with
    | Some es, Some r =>
        let diff := n - 1 in
        let stack_right := if sender <? j then 2 * (j - 1) else 2 * (j - 1) + 2 in
        Some (send_t (RApp CEither
                [mesh_t mesh (map (session_of 0) es) (RVar (PR (bchoose_stack_decl sender j))) (name_t r);
                 mesh_t mesh (map (session_of (diff * (diff + 1) / 2)) es) (RVar (PR stack_right)) (name_t r)]) end_t)
    | _, _ => None
    end.

  (** choose.rs:11-573 (choose_basic), 576-1138 (choose), 1188-1787 (choose_atmp): one block with both methods. *)
  Definition choose_impl (sender : nat) : option impl :=
    match role_at roles sender,
          all_some (map (choose_field sender) (filter (fun j => negb (sender =? j)) (seq 1 n))),
          bchoose_sender_decl n sender with
    | Some s, Some fields, Some es =>
        let diff := n - 1 in
        Some (Impl (map PS (seq 1 ((n - 1) * n)) ++ map PR (seq 1 (2 * n)) ++ kparams)
          (mesh_t mesh fields (RApp (CToAll s) [RVar (PR (2 * n - 1)); RVar (PR (2 * n))]) (name_t s))
          [(MChooseLeft, [mesh_t mesh (map (session_of 0) es) (RVar (PR (2 * n - 1))) (name_t s)]);
           (MChooseRight, [mesh_t mesh (map (session_of (diff * (diff + 1) / 2)) es) (RVar (PR (2 * n))) (name_t s)])])
    | _, _, _ => None
    end.

  (** close.rs:6-63, close_atmp.rs:6-65. *)
  Definition close_impl : impl :=
    Impl [PName] (mesh_t mesh (map (fun _ => end_t) (seq 1 (n - 1))) role_end_t (RVar PName)) [(MClose, [])].

  (** cancel.rs:6-43. *)
  Definition cancel_impl : impl :=
    Impl (map PS (seq 1 (n - 1)) ++ [PRole; PName]) (mesh_t mesh (svars 1 (n - 1)) (RVar PRole) (RVar PName)) [(MCancel, [])].

  (** The loops over pairs: mpst_seq_proc/src/baking/baking_basic.rs:62-79, 84-101, 106-123, 128-143 (the same in
      baking_with_cancel.rs, baking_with_enum.rs, baking_with_enum_and_cancel.rs and
      baking_atmp/baking_atmp_with_enum_and_cancel.rs). *)
  Definition for_pairs (f : nat -> nat -> option impl) : list (option impl) :=
    flat_map (fun a => flat_map (fun b => if negb (a =? b) then [f a b] else []) (seq 1 n)) (seq 1 n).

  (** The blocks in the order of the text: baking_basic.rs:163-182. *)
  Definition impls : option (list impl) :=
    all_some (for_pairs send_impl ++ for_pairs recv_impl ++ for_pairs recv_all_impl ++
              for_pairs (fun receiver sender => offer_impl sender receiver) ++
              map choose_impl (seq 1 n) ++ [Some close_impl; Some cancel_impl]).
End Mode.

(** generate!("interleaved", ..) and its timed form: the blocks of both protocols
    (baking_interleaved_with_enum_and_cancel.rs:351-400). *)
Definition impls_two (timed : bool) (mesh1 mesh2 : string) (roles1 roles2 : list string) : option (list impl) :=
  match impls timed mesh1 roles1, impls timed mesh2 roles2 with
  | Some l1, Some l2 => Some (l1 ++ l2)
  | _, _ => None
  end.
