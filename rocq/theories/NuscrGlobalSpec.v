(** * A generated file as a system of the machine of Mesh.v

    How the types of a generated file are read as types without time of the
    machine.  Independent of the generator: only names and declarations of the
    file are used. *)

From Coq Require Import Ascii String Bool List.
From Verif Require Types Session Mesh Global.
From Verif Require Import Checker Nuscr NuscrSpec.
Import ListNotations.
Open Scope nat_scope.
Open Scope list_scope.

Section Read.
  Variable f : rust_file.
  (** Numbers for the payload types. *)
  Variable code : str -> nat.

  (** Role [a] has number [k] in [generate_atmp!(.., A, B, C)]. *)
  Definition role_number (k : nat) (a : str) : Prop :=
    1 <= k /\ nth_error (meshed_roles f) (k - 1) = Some a.

  (** A payload is an enum whose variants all contain endpoints of one role,
      or data. *)
  Inductive payload_as : str -> Session.pty -> Prop :=
  | pa_data P : ~ In P (map fst (enum_types f)) -> payload_as P (Session.PVal (code P))
  | pa_enum P vs k a : In (P, vs) (enum_types f) -> vs <> [] -> role_number k a ->
      (forall v, In v vs -> exists e, In e (endpoint_types f) /\ ep_name e = v /\ ep_role e = a) ->
      payload_as P (Session.PChoice 0 k).

  (** Forgetting the time. *)
  Inductive untimed_as : styp -> Session.sty -> Prop :=
  | ua_end : untimed_as SEnd Session.End
  | ua_send P c lo loi hi hii r k q k' : payload_as P q -> untimed_as k k' ->
      untimed_as (STimed true P c lo loi hi hii r k) (Session.Snd q k')
  | ua_recv P c lo loi hi hii r k q k' : payload_as P q -> untimed_as k k' ->
      untimed_as (STimed false P c lo loi hi hii r k) (Session.Rcv q k').
  Inductive order_as : ktyp -> Types.stack -> Prop :=
  | oa_end : order_as KEnd Types.SEnd
  | oa_broadcast : order_as KBroadcast Types.SBroadcast
  | oa_role a i k k' : role_number i a -> order_as k k' -> order_as (KRole a k) (Types.SRole i k').

  (** The type of an endpoint: its fields and its stack. *)
  Definition endpoint_as (e : endpoint) (T : Mesh.mty) : Prop :=
    Forall2 (fun nm s => exists y, session_is (types f) nm y /\ untimed_as y s) (ep_sessions e) (fst T) /\
    exists y, stack_is (types f) (ep_stack e) y /\ order_as y (snd T).

  (** The system started with the endpoints of part 0, one per role; the
      variants of an enum and the endpoints the chooser goes on with are those
      of the branches. *)
  Record system_as (labels : nat -> nat) (T : nat -> Mesh.mty) (B : nat -> nat -> nat -> Mesh.mty) : Prop :=
    System {
    sys_start : forall k a, role_number k a ->
      exists e, In e (endpoint_types f) /\ ep_name e = endpoint_name (lit "0") a /\ endpoint_as e (T k);
    sys_variants : forall n vs, In (n, vs) (enum_types f) -> labels 0 = length vs;
    sys_no_enum : enum_types f = [] -> labels 0 = 0;
    sys_one : forall b, labels (S b) = 0;
    sys_enums : forall n vs k, In (n, vs) (enum_types f) -> payload_as n (Session.PChoice 0 k) ->
      forall l v, nth_error vs l = Some v ->
      exists e, In e (endpoint_types f) /\ ep_name e = v /\ endpoint_as e (B 0 l k);
    sys_branches : forall l k a, l < labels 0 -> role_number k a ->
      exists e, In e (endpoint_types f) /\ ep_name e = endpoint_name (lit "0_" ++ num l) a /\
        endpoint_as e (B 0 l k)
  }.
End Read.

(** ** The protocol without time *)

Section Untimed.
  Variable title : str -> str.
  Variable code : str -> nat.
  (** The roles in the order of their numbers. *)
  Variable rs : list str.

  Fixpoint place (a : str) (l : list str) : nat :=
    match l with
    | [] => 0
    | x :: l => if seqb x a then 0 else S (place a l)
    end.
  Definition number_in (a : str) : nat := S (place a rs).
  Definition told (m : msg) : Global.message :=
    Global.Msg3 (number_in (sender m)) (number_in (receiver m)) (code (title (label m))).
  Definition finale_of (c : option str) : Global.finale :=
    match c with Some s => Global.GChoose (number_in s) 0 | None => Global.GEnd end.
  Definition round_of (p : proto) (i : option nat) : Global.round :=
    (map told (part_messages p i), finale_of (part_choice p i)).
  Definition global_of (p : proto) : Global.protocol :=
    Global.Protocol (round_of p None) (fun _ l => round_of p (Some l)).
End Untimed.

(** No message is called like an enum of the choice. *)
Definition no_enum_message (title : str -> str) (p : proto) : Prop :=
  forall i m, part p i -> In m (part_messages p i) ->
    forall s r, title (label m) <> choice_name (lit "0") s r.

(** The number of variants. *)
Definition variants (p : proto) (b : nat) : nat :=
  match b, ending p with 0, Some (_, c, cs) => length (c :: cs) | _, _ => 0 end.
