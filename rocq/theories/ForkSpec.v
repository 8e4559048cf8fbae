(** Specification: when a fork function compiles and is accepted, when a choice is accepted, and programs of the machine
    (Mesh.v) that the compiler accepts. *)
From Coq Require Import List Arith Bool String.
From Verif Require Import Types Session Mesh MeshSpec Wiring Methods MethodsSpec ForkTypes.
Import ListNotations.
Open Scope nat_scope.
Open Scope list_scope.

(** The parameters are distinct, all that are used are declared, all are determined by the arguments (other than below
    [Dual]), and the threads give to the functions what they take. *)
Definition fork_ok (f : forked) : Prop :=
  NoDup (fk_params f) /\ (forall t, In t (fk_args f) -> incl (vars t) (fk_params f)) /\
  (forall v, In v (fk_params f) -> exists t, In t (fk_args f) /\ In v (fixed t)) /\ fk_given f = fk_args f.

(** The function is called with functions that take values of the types Ts. *)
Definition fork_accepts (f : forked) (Ts : list rty) : Prop :=
  exists sg, (forall v, In v (fk_params f) -> ok_for v (sg v) = true) /\ map (inst sg) (fk_args f) = Ts.

(** The MeshedChannels of role p for a family of sessions, stacks and names. *)
Definition as_role (mesh : string) (n : nat) (G : nat -> nat -> rty) (st nm : nat -> rty) (p : nat) : rty :=
  mesh_t mesh (map (G p) (others n p)) (st p) (nm p).

(** A variant of an enum, as a function: what it holds, and the enum. *)
Record label := Label { l_content : rty; l_enum : rty }.

(** What a field must be so that an enum of type E can be sent: [let _ = send(.., s.session{i})] takes any continuation
    (choose_mpst_multi_to_all.rs:141-153), the declared functions only [End], the timed macro a [SendTimed]; with a
    broadcaster the message is a pair. *)
Definition sends_any (F E : rty) : Prop := exists S, is_session S = true /\ F = RApp CSend [E; S].
Definition sends_end (F E : rty) : Prop := F = RApp CSend [E; end_t].
Definition sends_timed (F E : rty) : Prop := exists w S, is_session S = true /\ F = sending true w E S.
Definition with_end (sends : rty -> rty -> Prop) (F E : rty) : Prop := sends F (RApp CTuple [end_t; E]).

(** The choice is accepted for a MeshedChannels with sessions [fields] and label i for the i-th session, with a result of
    type R. *)
Definition choice_accepts (sends : rty -> rty -> Prop) (c : choice) (fields : list rty) (labels : nat -> label) (R : rty) : Prop :=
  exists sg, (forall v, In v (ch_unknowns c) -> ok_for v (sg v) = true) /\
    (forall i C, In (i, C) (ch_sends c) -> l_content (labels i) = inst sg C /\
       exists F, nth_error fields (i - 1) = Some F /\ sends F (l_enum (labels i))) /\
    R = inst sg (ch_result c).

(** The choice fits the roles if role e chooses: the field towards each other role can send the enum of that role, and what the
    enums hold and what e keeps are the MeshedChannels of all roles for some pairwise dual sessions. *)
Definition choice_fits (sends : rty -> rty -> Prop) (mesh : string) (n e : nat) (sender : string)
    (fields : list rty) (labels : nat -> label) (R : rty) : Prop :=
  (forall q, 1 <= q <= n -> q <> e -> exists F, nth_error fields (comm_field e q - 1) = Some F /\ sends F (l_enum (labels (comm_field e q)))) /\
  exists G st nm, dual_family n G /\ (forall p, 1 <= p <= n -> is_role (st p) = true /\ is_name (nm p) = true) /\ nm e = name_t sender /\
    (forall q, 1 <= q <= n -> q <> e -> l_content (labels (comm_field e q)) = as_role mesh n G st nm q) /\ R = as_role mesh n G st nm e.

(** With a broadcaster (role 1), which takes no part in the choice and whose sessions are [End]. *)
Definition cancel_fits (sends : rty -> rty -> Prop) (mesh : string) (n e : nat) (sender : string)
    (fields : list rty) (labels : nat -> label) (R : rty) : Prop :=
  (forall q, 2 <= q <= n -> q <> e -> exists F, nth_error fields (comm_field e q - 1) = Some F /\ sends F (l_enum (labels (comm_field e q)))) /\
  exists G st nm, dual_family n G /\ (forall q, 2 <= q <= n -> G 1 q = end_t) /\
    (forall p, 2 <= p <= n -> is_role (st p) = true /\ is_name (nm p) = true) /\ nm e = name_t sender /\
    (forall q, 2 <= q <= n -> q <> e -> l_content (labels (comm_field e q)) = as_role mesh n G st nm q) /\ R = as_role mesh n G st nm e.

(** A program of the machine: the types that its roles start with and the contents of the enums. The compiler accepts it if
    it accepts the fork and, for every variant, some choice by one of the roles. *)
Definition content (mesh : string) (roles : list string) (B : nat -> mty) (q : nat) : rty :=
  thread_t mesh roles q (fst (B q)) (snd (B q)).
Definition peer_of (e i : nat) : nat := if i <? e then i else S i.
Definition branch_labels (mesh : string) (roles : list string) (B : nat -> mty) (b e i : nat) : label :=
  Label (content mesh roles B (peer_of e i)) (pty_t (PChoice b (peer_of e i))).
Definition compiled (mesh : string) (roles : list string) (T : nat -> mty) (branch : nat -> nat -> nat -> mty) (labels : nat -> nat) : Prop :=
  let n := List.length roles in
  (exists f, fork_fn mesh n = Some f /\ fork_accepts f (map (content mesh roles T) (seq 1 n))) /\
  forall b l, l < labels b -> exists e c fields, 1 <= e <= n /\ choose_code mesh n e (role_name roles e) = Some c /\
    choice_accepts sends_any c fields (branch_labels mesh roles (branch b l) b e) (content mesh roles (branch b l) e).

(** With a broadcaster the first session, from which [.sender.send(Signal::Offer(..))] is called, is [End]
    (choose_mpst_multi_cancel_to_all.rs:255-259). *)
Definition cancel_accepts (sends : rty -> rty -> Prop) (c : choice) (fields : list rty) (labels : nat -> label) (R : rty) : Prop :=
  nth_error fields 0 = Some end_t /\ choice_accepts (with_end sends) c fields labels R.
