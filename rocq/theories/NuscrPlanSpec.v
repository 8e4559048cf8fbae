(** * Generated files that can run in time: specification of C52

    The clocks that the functions of a generated file start, and the ways
    through a nuscr protocol. *)

From Coq Require Import Ascii String ZArith Bool List.
From Verif Require Types Timed.
From Verif Require Import Checker Nuscr NuscrSpec NuscrGlobalSpec NuscrTimedSpec.
Import ListNotations.
Open Scope nat_scope.

(** The functions of the role of number [k] start the clocks [cs k], in this
    order ([all_clocks.insert('c', Instant::now())]:
    src/top_down_nuscr/auxiliary_objects/code_generate/fn_endpoints.rs:39-47). *)
Definition started_as (f : rust_file) (cs : nat -> list nat) : Prop :=
  forall k a ix v ty ws, role_number f k a -> In (a, ix, v, ty, ws) (functions f) -> cs k = map letter ws.

(** The choices made on the way from part [i] to an end of the protocol. *)
Inductive way (p : proto) : option nat -> list nat -> Prop :=
| way_end i : part p i -> part_choice p i = None -> way p i []
| way_choice i s l ls : part p i -> part_choice p i = Some s -> part p (Some l) -> way p (Some l) ls ->
    way p i (l :: ls).

(** Both ends of the window belong to it, and fit in u64. *)
Definition closed_window (m : msg) : Prop :=
  li m = true /\ ri m = true /\ forall hi, number (rb m) = Some hi -> (hi <= Timed.u64_max)%Z.

(** A clock that a message restarts is the clock of some message of each of the
    two roles. *)
Definition resets_used (p : proto) : Prop :=
  forall i m c r, part p i -> In m (part_messages p i) -> reset m = Some c -> involves r m = true ->
  exists j m', part p j /\ In m' (part_messages p j) /\ involves r m' = true /\ clock m' = c.
