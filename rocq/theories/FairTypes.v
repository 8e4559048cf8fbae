(** What it means that no role is left behind, for any MeshedChannels types (FairSpec.v says it for the projections of a
    global protocol). The definitions are about the concrete machine of Session.v and Mesh.v: the threads that [fork_mpst]
    starts (mpst_seq_proc/src/common_functions/expand/fork.rs:17-169), scheduled one step at a time. *)
From Coq Require Import List Arith Bool.
From Verif Require Import Types Session Mesh Global Properties_Mesh FairSpec.
Import ListNotations.

Section FairTypes.
  Variable n : nat.
  Variable branch : nat -> nat -> nat -> mty.
  Variable labels : nat -> nat.
  Variable strict : bool.
  Variable T : nat -> mty.

  Notation cstate := (@state heap ep).
  (** Role p takes one step (src/binary/{send,recv,close}.rs, src/functionmpst/{send,recv,offer,close}.rs, by way of Mesh.v). *)
  Notation next := (exec heap_ops n branch labels strict).

  (** Role p can do something other than crash (as for FairSpec.v: a blocked thread sits in [receive],
      src/binary/recv.rs:12-19, or in [close], src/binary/close.rs:10-18). *)
  Definition enabled (p : nat) (st : cstate) : Prop := exists i st', i <> ICrash /\ next p i st = Some st'.

  (** The other roles go on, without crashes, along the branches of [pick]
      (mpst_seq_proc/src/choose_mpst_multi_to_all.rs:107-175); role p does nothing. *)
  Inductive others_go (pick : nat -> nat) (p : nat) : cstate -> cstate -> Prop :=
  | go_none : forall st, others_go pick p st st
  | go_step : forall q i st st1 st2, q <> p -> obeys pick q i st -> next q i st = Some st1 ->
      others_go pick p st1 st2 -> others_go pick p st st2.

  (** An execution of the threads that [fork_mpst] starts (mpst_seq_proc/src/common_functions/expand/fork.rs:17-169). *)
  Definition valid (x : execution) : Prop :=
    at_time x 0 = start n T /\
    forall t, match doing x t with
              | Some (p, i) => next p i (at_time x t) = Some (at_time x (S t))
              | None => at_time x (S t) = at_time x t
              end.

  (** No role is for ever able to go on without ever being run: what every scheduler of an operating
      system gives to the threads of std::thread (fork.rs:88-107). *)
  Definition fair (x : execution) : Prop :=
    forall p t, 1 <= p <= n -> exists t', t <= t' /\ (steps_at x p t' \/ ~ enabled p (at_time x t')).
End FairTypes.
