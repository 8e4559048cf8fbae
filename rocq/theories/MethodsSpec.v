(** Specification of method calls on the generated [impl] blocks (Methods.v): instances of types, what Rust asks of a
    block, which block answers a call, and the type of the MeshedChannels of a role. *)
From Coq Require Import List Arith Bool String ZArith.
From Verif Require Import Types Session Methods.
Import ListNotations.
Open Scope nat_scope.
Open Scope list_scope.

(** Dual of a session type. *)
Fixpoint gdual (t : rty) : rty :=
  match t with
  | RApp CSend [p; s] => RApp CRecv [p; gdual s]
  | RApp CRecv [p; s] => RApp CSend [p; gdual s]
  | RApp CSendT [p; k1; k2; k3; k4; k5; k6; s] => RApp CRecvT [p; k1; k2; k3; k4; k5; k6; gdual s]
  | RApp CRecvT [p; k1; k2; k3; k4; k5; k6; s] => RApp CSendT [p; k1; k2; k3; k4; k5; k6; gdual s]
  | _ => t
  end.

(** Which types satisfy the bounds. *)
Definition is_char (t : rty) : bool := match t with RApp (CChar _) [] => true | _ => false end.
Definition is_int (t : rty) : bool := match t with RApp (CInt _) [] => true | _ => false end.
Definition is_bool (t : rty) : bool := match t with RApp (CBool _) [] => true | _ => false end.
Definition is_name (t : rty) : bool := match t with RApp (CName _) [] => true | _ => false end.
Definition const_ok (i : nat) (t : rty) : bool :=
  match i with 1 | 6 => is_char t | 2 | 4 => is_int t | 3 | 5 => is_bool t | _ => false end.
Fixpoint is_role (t : rty) : bool :=
  match t with
  | RApp CRoleEnd [] | RApp CBroadcast [] => true
  | RApp (CRole _) [r] | RApp (CRoleDual _) [r] => is_role r
  | RApp (CToAll _) [r1; r2] | RApp (CAllTo _) [r1; r2] => is_role r1 && is_role r2
  | _ => false
  end.
Fixpoint is_session (t : rty) : bool :=
  match t with
  | RApp CEnd [] => true
  | RApp CSend [_; s] | RApp CRecv [_; s] => is_session s
  | RApp CSendT [_; k1; k2; k3; k4; k5; k6; s] | RApp CRecvT [_; k1; k2; k3; k4; k5; k6; s] =>
      const_ok 1 k1 && const_ok 2 k2 && const_ok 3 k3 && const_ok 4 k4 && const_ok 5 k5 && const_ok 6 k6 && is_session s
  | _ => false
  end.
Definition ok_for (v : param) (t : rty) : bool :=
  match v with PS _ => is_session t | PR _ | PRole => is_role t | PT => true | PName | PN _ => is_name t | PK i => const_ok i t end.

(** The type with its parameters replaced. *)
Fixpoint inst (sg : param -> rty) (t : rty) : rty :=
  match t with
  | RVar v => sg v
  | RApp c args => RApp c (map (inst sg) args)
  | RDual t => gdual (inst sg t)
  end.

(** The block can be used for type T, with sg for its parameters. *)
Definition fits (im : impl) (sg : param -> rty) (T : rty) : Prop :=
  (forall v, In v (i_params im) -> ok_for v (sg v) = true) /\ inst sg (i_self im) = T.

(** A call of method m on a value of type T returns values of the types [outs]. *)
Definition resolves (l : list impl) (m : meth) (T : rty) (outs : list rty) : Prop :=
  exists im sg outs0, In im l /\ fits im sg T /\ In (m, outs0) (i_methods im) /\ outs = map (inst sg) outs0.

(** What the compiler asks of one block: parameters are declared once, all that are used are declared (error E0412),
    and all that are declared appear in the self type other than below [Dual] (error E0207). *)
Fixpoint vars (t : rty) : list param :=
  match t with RVar v => [v] | RApp _ args => flat_map vars args | RDual t => vars t end.
Fixpoint fixed (t : rty) : list param :=
  match t with RVar v => [v] | RApp _ args => flat_map fixed args | RDual _ => [] end.
Definition compiles (im : impl) : Prop :=
  NoDup (i_params im) /\ incl (vars (i_self im)) (i_params im) /\ incl (i_params im) (fixed (i_self im)) /\
  forall m outs t, In (m, outs) (i_methods im) -> In t outs -> incl (vars t) (i_params im).

(** What it asks of two blocks (error E0592): the same method is not given twice for one type. *)
Definition apart (l : list impl) : Prop :=
  forall a b im1 im2 m outs1 outs2 sg1 sg2 T, nth_error l a = Some im1 -> nth_error l b = Some im2 ->
    In (m, outs1) (i_methods im1) -> In (m, outs2) (i_methods im2) -> fits im1 sg1 T -> fits im2 sg2 T -> a = b.

(** The MeshedChannels of role p: one session for each other role, in their order; a stack; the name of p. *)
Definition others (n p : nat) : list nat := filter (fun q => negb (q =? p)) (seq 1 n).
Definition role_name (roles : list string) (p : nat) : string := nth (p - 1) roles EmptyString.
Definition endpoint (mesh : string) (roles : list string) (p : nat) (F : nat -> rty) (stack : rty) : rty :=
  mesh_t mesh (map F (others (List.length roles) p)) stack (name_t (role_name roles p)).

(** Replacing the session with q. *)
Definition update (F : nat -> rty) (q : nat) (s : rty) : nat -> rty := fun x => if x =? q then s else F x.

(** [Send<V, S>] or [SendTimed<V, w, S>], and [Recv] alike. *)
Definition wargs (w : window) : list rty :=
  [RApp (CChar (w_clock w)) []; RApp (CInt (w_start w)) []; RApp (CBool (w_incl_start w)) [];
   RApp (CInt (w_end w)) []; RApp (CBool (w_incl_end w)) []; RApp (CChar (w_reset w)) []].
Definition sending (timed : bool) (w : window) (V S : rty) : rty :=
  if timed then RApp CSendT (V :: wargs w ++ [S]) else RApp CSend [V; S].
Definition receiving (timed : bool) (w : window) (V S : rty) : rty :=
  if timed then RApp CRecvT (V :: wargs w ++ [S]) else RApp CRecv [V; S].

(** A family of sessions, one for each ordered pair of roles, in which the two sides of each pair are dual. *)
Definition dual_family (n : nat) (F : nat -> nat -> rty) : Prop :=
  forall p q, 1 <= p <= n -> 1 <= q <= n -> p <> q -> is_session (F p q) = true /\ F p q = gdual (F q p).

(** The types of the machine (Mesh.v) as types here: data of type t, the enum of role j for choice b, sessions, stacks,
    and the MeshedChannels of role p. *)
Definition pty_t (q : pty) : rty :=
  match q with PVal t => RApp (CUser t) [] | PChoice b j => RApp (CUser b) [RApp (CUser j) []] end.
Fixpoint sty_t (s : sty) : rty :=
  match s with
  | End => end_t
  | Snd q k => RApp CSend [pty_t q; sty_t k]
  | Rcv q k => RApp CRecv [pty_t q; sty_t k]
  end.
Fixpoint stack_t (roles : list string) (r : stack) : rty :=
  match r with
  | SEnd => role_end_t
  | SBroadcast => RApp CBroadcast []
  | SRole x r => RApp (CRole (role_name roles x)) [stack_t roles r]
  | SRoleDual x r => RApp (CRoleDual (role_name roles x)) [stack_t roles r]
  | SToAll x r1 r2 => RApp (CToAll (role_name roles x)) [stack_t roles r1; stack_t roles r2]
  | SAllTo x r1 r2 => RApp (CAllTo (role_name roles x)) [stack_t roles r1; stack_t roles r2]
  end.
Definition thread_t (mesh : string) (roles : list string) (p : nat) (ss : list sty) (r : stack) : rty :=
  mesh_t mesh (map sty_t ss) (stack_t roles r) (name_t (role_name roles p)).

(** The role on top of the stack is one of the n roles; no session starts by sending or receiving the enum of a choice. *)
Definition top_ok (n : nat) (r : stack) : Prop := match r with SRole x _ => 1 <= x <= n | _ => True end.
Definition data_only (ss : list sty) : Prop :=
  forall s, In s ss -> match s with Snd (PChoice _ _) _ | Rcv (PChoice _ _) _ => False | _ => True end.
