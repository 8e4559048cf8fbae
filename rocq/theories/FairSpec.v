(** What it means that no role is left behind. The definitions are about the concrete machine of Session.v
    and Mesh.v: the threads that [fork_mpst] starts (mpst_seq_proc/src/common_functions/expand/fork.rs:17-169),
    scheduled one step at a time. *)
From Coq Require Import List Arith Bool.
From Verif Require Import Types Session Mesh Global Properties_Mesh Properties_Global.
Import ListNotations.

Section FairSpec.
  Variable n : nat.
  Variable labels : nat -> nat.
  Variable strict : bool.
  Variable P : protocol.

  Notation cstate := (@state heap ep).
  Notation next := (next n labels strict P).

  (** Role p can do something other than crash. *)
  Definition enabled (p : nat) (st : cstate) : Prop := exists i st', i <> ICrash /\ next p i st = Some st'.

  (** Role p has returned and has dropped all it owned (the join handle that [fork_mpst]
      returns is ready: mpst_seq_proc/src/common_functions/expand/fork.rs:88-107). *)
  Definition over (p : nat) (st : cstate) : Prop := (exists r, result_of st p = Some r) /\ t_trash (st_thr st p) = [].

  (** ** Continuations *)

  (** Role q does i without crashing; at a choice (mpst_seq_proc/src/choose_mpst_multi_to_all.rs:107-175) it takes the branch
      that [pick] names for the enum it has to send. *)
  Definition obeys (pick : nat -> nat) (q : nat) (i : inp) (st : cstate) : Prop :=
    i <> ICrash /\
    forall l ss r hs b, i = ILabel l -> t_prog (st_thr st q) = PRun ss r hs -> choice_of q ss = Some b -> l = pick b.

  (** The other roles go on, without crashes, along the branches of [pick]; role p does nothing. *)
  Inductive others_go (pick : nat -> nat) (p : nat) : cstate -> cstate -> Prop :=
  | go_none : forall st, others_go pick p st st
  | go_step : forall q i st st1 st2, q <> p -> obeys pick q i st -> next q i st = Some st1 ->
      others_go pick p st1 st2 -> others_go pick p st st2.

  (** ** Fair executions *)

  (** An execution that goes on for ever; at some instants nothing may happen, so that a finite execution
      is one in which nothing happens from some instant on. *)
  Record execution := Execution { at_time : nat -> cstate; doing : nat -> option (nat * inp) }.
  Definition valid (x : execution) : Prop :=
    at_time x 0 = start n (proj n (first_round P)) /\
    forall t, match doing x t with
              | Some (p, i) => next p i (at_time x t) = Some (at_time x (S t))
              | None => at_time x (S t) = at_time x t
              end.
  Definition steps_at (x : execution) (p t : nat) : Prop := exists i, doing x t = Some (p, i).

  (** No role is for ever able to go on without ever being run: what every scheduler of an operating
      system gives to the threads of std::thread. *)
  Definition fair (x : execution) : Prop :=
    forall p t, 1 <= p <= n -> exists t', t <= t' /\ (steps_at x p t' \/ ~ enabled p (at_time x t')).

  (** Every thread gets to the end of the drops it has begun (the ends of
      src/binary/struct_trait/send.rs:14-22, recv.rs:14-21 and end.rs:11-16 have no [Drop] of their own: a
      drop releases the channel, and the last one to do so drops the messages in it). It may have to drop
      MeshedChannels that another role goes on sending. *)
  Definition drops_end (x : execution) : Prop :=
    forall p t, 1 <= p <= n -> exists t', t <= t' /\ t_trash (st_thr (at_time x t') p) = [].

  Definition no_crash (x : execution) : Prop := forall t p i, doing x t = Some (p, i) -> i <> ICrash.
End FairSpec.

