(** Binary sessions: two threads and one session. Model only. A binary session is run by the machine
    of Mesh.v with two roles: the parent (role 1) and the thread made by fork (role 2), each holding
    one session. The functions of src/binary are the one-field case of the machine's steps:
    send.rs:13-21 ([do_send]), send.rs:25-38 ([do_send], strict), recv.rs:12-19 ([do_recv]), close.rs:10-18
    ([do_close] with one field), choose.rs:17-39 and 43-51 ([make_choice], then one [do_choose_send] whose
    returned end is dropped, then the program continues with [here]), offer.rs:18-32 and 36-50
    ([do_offer]: recv, drop the returned end, match), fork.rs:12-44 ([init]: one [Session::new()], one end
    for each thread; the closure's Err becomes a panic, both end the thread). Simplification: the new session
    is always created from role 1's type; [Session::new] of the dual type gives the same two ends swapped. *)
From Coq Require Import List Arith Bool.
From Verif Require Import Types Session Mesh Global.
Import ListNotations.

(** A binary session type as one writes it with the library, seen from one side. [BChoose b]: a
    [Send<Enum, End>] used with [choose!] (choose.rs:43-51), or [Choose<S1, S2>] with its two variants
    (choose.rs:13: [Send<Either<Dual S1, Dual S2>, End>]); [BOffer b]: its dual
    (offer.rs:15: [Recv<Either<S1, S2>, End>]). *)
Inductive bty := BEnd | BSnd (t : nat) (s : bty) | BRcv (t : nat) (s : bty) | BChoose (b : nat) | BOffer (b : nat).

(** Duality: src/binary/struct_trait/send.rs:25, recv.rs:24, end.rs:30 ([type Dual]). *)
Fixpoint bdual (s : bty) : bty :=
  match s with
  | BEnd => BEnd
  | BSnd t k => BRcv t (bdual k)
  | BRcv t k => BSnd t (bdual k)
  | BChoose b => BOffer b
  | BOffer b => BChoose b
  end.

(** The session of role p (1 or 2); the enum that is sent contains the session of the receiver
    (choose.rs:13). *)
Fixpoint side (p : nat) (s : bty) : sty :=
  match s with
  | BEnd => End
  | BSnd t k => Snd (PVal t) (side p k)
  | BRcv t k => Rcv (PVal t) (side p k)
  | BChoose b => Snd (PChoice b (3 - p)) End
  | BOffer b => Rcv (PChoice b p) End
  end.
(** There is no role stack in a binary session: with one session there is only one thing to do next
    (specification only; the sessions are those of src/binary/struct_trait/send.rs:21, recv.rs:20). *)
Fixpoint turn (p : nat) (s : bty) : stack :=
  match s with
  | BEnd => SEnd
  | BSnd _ k | BRcv _ k => SRole (3 - p) (turn p k)
  | BChoose _ => SBroadcast
  | BOffer _ => SRole (3 - p) SEnd
  end.
Definition as_role (p : nat) (s : bty) : mty := ([side p s], turn p s).

(** A binary protocol: the session of role 1, and the session of role 1 in variant l of enum b
    (src/binary/fork.rs:12-44 for the first session, choose.rs:13 and offer.rs:15 for the variants). *)
Record binary := Bin { b_first : bty; b_body : nat -> nat -> bty }.

(** The same as a round of two roles, so that the theorems about global protocols apply
    (specification only; src/binary/fork.rs:12-44 gives one end to each role). *)
Fixpoint round_of (s : bty) : round :=
  match s with
  | BEnd => ([], GEnd)
  | BSnd t k => (Msg3 1 2 t :: fst (round_of k), snd (round_of k))
  | BRcv t k => (Msg3 2 1 t :: fst (round_of k), snd (round_of k))
  | BChoose b => ([], GChoose 1 b)
  | BOffer b => ([], GChoose 2 b)
  end.
Definition two (B : binary) : protocol := Protocol (round_of (b_first B)) (fun b l => round_of (b_body B b l)).

(** Every enum has a variant (src/binary/choose.rs:43-51, offer.rs:36-50: the patterns name variants). *)
Fixpoint wf_bty (labels : nat -> nat) (s : bty) : Prop :=
  match s with
  | BEnd => True
  | BSnd _ k | BRcv _ k => wf_bty labels k
  | BChoose b | BOffer b => 0 < labels b
  end.
Definition wf_binary (labels : nat -> nat) (B : binary) : Prop :=
  wf_bty labels (b_first B) /\ forall b l, l < labels b -> wf_bty labels (b_body B b l).

(** Finite protocols: a bound on what can follow each enum
    (specification only; no line of src/binary/choose.rs:13-51 limits recursion). *)
Fixpoint bsize (size : nat -> nat) (s : bty) : nat :=
  match s with
  | BEnd => 4
  | BSnd _ k | BRcv _ k => S (bsize size k)
  | BChoose b | BOffer b => size b + 4
  end.
Definition finite_binary (labels : nat -> nat) (B : binary) (size : nat -> nat) : Prop :=
  forall b l, l < labels b -> bsize size (b_body B b l) <= size b.
