(** Specification for the functions of FnForms.v: when the compiler accepts one, which calls it accepts, what a call does. *)
From Coq Require Import List Arith Bool String.
From Verif Require Import Methods MethodsSpec FnForms.
Import ListNotations.
Open Scope nat_scope.
Open Scope list_scope.

(** ** Types of the body *)

(** What is in scope: the fields of [s] that are not moved, [new_session], the value received, [x]. *)
Record scope := Scope { sc_field : nat -> option rty; sc_new : option rty; sc_val : option rty; sc_arg : option rty }.

Definition moved (f : nat -> option rty) (i : nat) : nat -> option rty := fun j => if j =? i then None else f j.

(** [send : (T, Send<T, S>) -> S], [recv : Recv<T, S> -> Result<(T, S)>]; both take their arguments away. The test for a
    cancelling broadcaster looks at a channel of type [End]. *)
Inductive types : scope -> stmt -> scope -> Prop :=
| TySend : forall f nw v i T S, f i = Some (RApp CSend [T; S]) ->
    types (Scope f nw v (Some T)) (LetSend i) (Scope (moved f i) (Some S) v None)
| TyRecv : forall f nw v a i T S, f i = Some (RApp CRecv [T; S]) ->
    types (Scope f nw v a) (LetRecv i) (Scope (moved f i) (Some S) (Some T) a)
| TyTry : forall sc i, sc_field sc i = Some end_t -> types sc (TryCancel i) sc.
Inductive types_all : scope -> list stmt -> scope -> Prop :=
| TyNil : forall sc, types_all sc [] sc
| TyCons : forall sc a sc1 l sc2, types sc a sc1 -> types_all sc1 l sc2 -> types_all sc (a :: l) sc2.

Definition source_type (sc : scope) (x : source) : option rty := match x with New => sc_new sc | Old i => sc_field sc i end.

(** The struct literal: every field 1..n-1 once, no source used twice, each field of its type. *)
Definition literal (n : nat) (sc : scope) (fields : list (nat * source)) (tys : list rty) : Prop :=
  NoDup (map fst fields) /\ (forall i, In i (map fst fields) <-> 1 <= i < n) /\ NoDup (map snd fields) /\ List.length tys = n - 1 /\
  forall i x, In (i, x) fields -> source_type sc x = nth_error tys (i - 1).

(** [stack.continuation()] of a Role, [continuation_left()] of a choice. *)
Inductive pops : bool -> rty -> rty -> Prop :=
| PopRole : forall x R, pops false (RApp (CRole x) [R]) R
| PopAllTo : forall x R1 R2, pops true (RApp (CAllTo x) [R1; R2]) R1
| PopToAll : forall x R1 R2, pops true (RApp (CToAll x) [R1; R2]) R1.

(** The function compiles: parameters declared once, those used declared, a MeshedChannels of n roles has n - 1 sessions,
    the body has the declared type. *)
Definition scope0 (f : fn) (fields : list rty) : scope :=
  Scope (fun i => match i with 0 => None | S k => nth_error fields k end) None None (f_arg f).
Definition wide (mesh : string) (n : nat) (t : rty) : Prop :=
  exists fields stack name, t = mesh_t mesh fields stack name /\ List.length fields = n - 1.
Definition fn_ok (mesh : string) (n : nat) (f : fn) : Prop :=
  NoDup (f_params f) /\
  (forall t, In t (f_self f :: f_outs f) \/ f_arg f = Some t -> incl (vars t) (f_params f)) /\
  exists fields stack stack' name sc tys,
    f_self f = mesh_t mesh fields stack name /\ List.length fields = n - 1 /\
    types_all (scope0 f fields) (f_lets f) sc /\ literal n sc (f_fields f) tys /\ pops (f_left f) stack stack' /\
    match f_end f with
    | EMesh => f_outs f = [mesh_t mesh tys stack' name]
    | EPair => exists v, sc_val sc = Some v /\ f_outs f = [v; mesh_t mesh tys stack' name]
    | EEither => exists l r, sc_val sc = Some (RApp CEither [l; r]) /\ f_outs f = [l; r] /\ wide mesh n l /\ wide mesh n r
    end.

(** ** Calls *)

(** A call with a MeshedChannels of type T (and [x] of type [arg]) is accepted and gives [outs]. *)
Definition accepts_call (f : fn) (arg : option rty) (T : rty) (outs : list rty) : Prop :=
  exists sg, (forall v, In v (f_params f) -> ok_for v (sg v) = true) /\ inst sg (f_self f) = T /\
    option_map (inst sg) (f_arg f) = arg /\ outs = map (inst sg) (f_outs f).

(** ** What a call does *)

(** Running the body on handles: the fields of [s], what is done with them (in order), the fields of the new struct.
    [after] is the handle that [send] or [recv] returns. *)
Inductive event := Sent (i : nat) | Received (i : nat) | Looked (i : nat).
Section Run.
  Variable H : Type.
  Variable after : H -> H.
  Fixpoint run_lets (hs : list H) (l : list stmt) (nw : option H) : option (list event * option H) :=
    match l with
    | [] => Some ([], nw)
    | a :: l =>
        let i := match a with LetSend i | LetRecv i | TryCancel i => i end in
        match i, nth_error hs (i - 1) with
        | S _, Some h =>
            match run_lets hs l (match a with TryCancel _ => nw | _ => Some (after h) end) with
            | Some (ev, nw') => Some (match a with LetSend i => Sent i | LetRecv i => Received i | TryCancel i => Looked i end :: ev, nw')
            | None => None
            end
        | _, _ => None
        end
    end.
  Fixpoint run_fields (hs : list H) (nw : option H) (l : list (nat * source)) : option (list H) :=
    match l with
    | [] => Some []
    | (_, x) :: l =>
        match (match x with New => nw | Old 0 => None | Old (S k) => nth_error hs k end), run_fields hs nw l with
        | Some h, Some r => Some (h :: r)
        | _, _ => None
        end
    end.
  Definition run_fn (f : fn) (hs : list H) : option (list event * list H) :=
    match run_lets hs (f_lets f) None with
    | Some (ev, nw) => match run_fields hs nw (f_fields f) with Some r => Some (ev, r) | None => None end
    | None => None
    end.
End Run.
