(** Binary sessions over one-place channels: the run-time objects behind [Send], [Recv] and [End],
    and the functions [Session::new], [send], [recv], [close] (its two halves) and drop.
    Model only. Used by the multiparty machine (Mesh.v); proofs are in Links.v and Refine.v.

    Simplification: a handle that a function consumes ([s.channel] in [send] and [recv]) is released
    in the same atomic step as the channel operation. The channel is never used again by anybody,
    so nobody can observe the difference. All other drops are separate steps. *)
From Coq Require Import List Arith Bool.
Import ListNotations.

(** Payload types. [PVal t]: ordinary data of Rust type number t. [PChoice b j]: the enum by which
    the passive role j learns the branch of choice number b, e.g. [Branching0fromCtoA]
    (examples; README): each variant contains the MeshedChannels of role j in that branch.
    The variants used together in one call of [choose_mpst_multi_to_all!] carry the same (b, l)
    (src/binary/struct_trait/send.rs:21). *)
Inductive pty := PVal (t : nat) | PChoice (b j : nat).

(** Session types. [Send<T, S>]: src/binary/struct_trait/send.rs:14-22; [Recv<T, S>]:
    src/binary/struct_trait/recv.rs:14-21; [End]: src/binary/struct_trait/end.rs:11-16. *)
Inductive sty := End | Snd (p : pty) (s : sty) | Rcv (p : pty) (s : sty).

(** [Session::Dual]: send.rs:25, recv.rs:24, end.rs:30 in src/binary/struct_trait. *)
Fixpoint co (s : sty) : sty :=
  match s with
  | End => End
  | Snd p s => Rcv p (co s)
  | Rcv p s => Snd p (co s)
  end.

(** Values: data x of type t, or the variant l of the enum of role j for choice b. The sessions
    inside the variant are kept beside the value ([carried] below) (src/binary/struct_trait/send.rs:21). *)
Inductive value := VData (t x : nat) | VLabel (b l j : nat).

(** [enum Signal]: src/binary/struct_trait/end.rs:20-27, without [Offer], which only the broadcaster
    protocol uses (Broadcast.v). *)
Inductive signal := Stop | Cancel.

(** ** Concrete objects *)

(** Channel ends held by a thread: [Sender] of channel c (inside [Send]), [Receiver] of channel c
    (inside [Recv]), and [End {sender, receiver}]: src/binary/struct_trait/send.rs:21, recv.rs:20,
    end.rs:11-16. *)
Inductive ep := ETx (c : nat) | ERx (c : nat) | EEnd (t r : nat).

(** What a channel carries: [(T, S::Dual)] (send.rs:21) or a [Signal] (end.rs:13). *)
Inductive msg := Msg (v : value) (carried : list ep) (k : ep) | Sig (g : signal).

(** [crossbeam_channel::bounded(1)]: the place, and whether its sender and receiver are alive
    (src/binary/struct_trait/end.rs:33-34, send.rs:27-30). *)
Record cell := Cell { buf : option msg; tx : bool; rx : bool }.
Record heap := Heap { cells : nat -> cell; hnext : nat }.

Definition set_cell (h : heap) (c : nat) (x : cell) : heap :=
  Heap (fun d => if Nat.eqb d c then x else cells h d) (hnext h).

Definition dead : cell := Cell None false false.
Definition empty_heap : heap := Heap (fun _ => dead) 0.

(** [bounded(1)]: both ends alive, place free (src/binary/struct_trait/end.rs:33-34). *)
Definition bounded1 (h : heap) : nat * heap :=
  let c := hnext h in
  (c, Heap (cells (set_cell h c (Cell None true true))) (S c)).

(** [Session::new]: src/binary/struct_trait/send.rs:27-30, recv.rs:26-29, end.rs:32-46. *)
Definition heap_new (s : sty) (h : heap) : ep * ep * heap :=
  match s with
  | Snd _ _ => let '(c, h1) := bounded1 h in (ETx c, ERx c, h1)
  | Rcv _ _ => let '(c, h1) := bounded1 h in (ERx c, ETx c, h1)
  | End =>
      let '(c1, h1) := bounded1 h in
      let '(c2, h2) := bounded1 h1 in
      (EEnd c1 c2, EEnd c2 c1, h2)
  end.

(** ** Results of the operations, for any representation [S] of the store and [H] of the ends *)

Section Results.
  Context {S H : Type}.

  (** [send]: delivered; or the receiver is gone and the message (listed) is lost; or the place is
      taken (would block); or the end is not a [Send] (src/binary/send.rs:18-20, 30-37). *)
  Inductive sent := SentOk (here : H) (s : S) | SentLost (here : H) (lost : list H) (s : S)
                  | SentWait | SentBad.
  (** [recv]: a value with the sessions inside it and the continuation; [Err]; blocked; not a
      [Recv] (src/binary/recv.rs:17-18). *)
  Inductive got := Got (v : value) (carried : list H) (k : H) (s : S) | GotErr (s : S)
                 | GotWait | GotBad.
  (** [sender.send(Signal)] on an [End] (src/binary/close.rs:11). *)
  Inductive told := TellOk (s : S) | TellErr | TellWait | TellBad.
  (** [receiver.recv()] on an [End] (src/binary/close.rs:12). *)
  Inductive heard := Heard (g : signal) (s : S) | HearErr | HearWait | HearBad.
End Results.
Arguments sent : clear implicits.
Arguments got : clear implicits.
Arguments told : clear implicits.
Arguments heard : clear implicits.

(** The operations of a store of sessions (src/binary/send.rs, recv.rs, close.rs and struct_trait/session.rs:19). *)
Record ops (S H : Type) := Ops {
  op_new : sty -> S -> H * H * S;
  op_send : H -> value -> list H -> sty -> S -> sent S H;
  op_recv : H -> S -> got S H;
  op_drop : H -> S -> list H * S;
  op_tell : H -> signal -> S -> told S;
  op_hear : H -> S -> heard S
}.
Arguments op_new {S H}.
Arguments op_send {S H}.
Arguments op_recv {S H}.
Arguments op_drop {S H}.
Arguments op_tell {S H}.
Arguments op_hear {S H}.

(** ** The operations on the concrete heap *)

(** src/binary/send.rs:13-21: [let (here, there) = S::new(); s.channel.send((x, there))] and the
    treatment of its answer; [s] is the type [S] of the continuation. *)
Definition heap_send (e : ep) (v : value) (carried : list ep) (s : sty) (h : heap) : sent heap ep :=
  match e with
  | ETx c =>
      let '(here, there, h1) := heap_new s h in
      let cl := cells h1 c in
      if rx cl then
        match buf cl with
        | None => SentOk here (set_cell h1 c (Cell (Some (Msg v carried there)) false true))
        | Some _ => SentWait
        end
      else SentLost here (carried ++ [there]) (set_cell h1 c (Cell (buf cl) false false))
  | _ => SentBad
  end.

(** src/binary/recv.rs:12-19. *)
Definition heap_recv (e : ep) (h : heap) : got heap ep :=
  match e with
  | ERx c =>
      match buf (cells h c) with
      | Some (Msg v carried k) => Got v carried k (set_cell h c (Cell None (tx (cells h c)) false))
      | Some (Sig _) => GotBad
      | None =>
          if tx (cells h c) then GotWait
          else GotErr (set_cell h c (Cell None false false))
      end
  | _ => GotBad
  end.

(** Drop glue ([mem::drop], src/binary/cancel.rs:22-24; panics and early returns do the same).
    Dropping a receiver discards a stored message, whose parts must then be dropped in turn: they
    are returned. The fields of [End] are dropped in declaration order: sender, then receiver. *)
Definition heap_drop (e : ep) (h : heap) : list ep * heap :=
  match e with
  | ETx c => ([], set_cell h c (Cell (buf (cells h c)) false (rx (cells h c))))
  | ERx c =>
      (match buf (cells h c) with Some (Msg _ carried k) => carried ++ [k] | _ => [] end,
       set_cell h c (Cell None (tx (cells h c)) false))
  | EEnd t r => ([ERx r], set_cell h t (Cell (buf (cells h t)) false (rx (cells h t))))
  end.

(** [s.sender.send(signal)]: src/binary/close.rs:11. *)
Definition heap_tell (e : ep) (g : signal) (h : heap) : told heap :=
  match e with
  | EEnd t _ =>
      if rx (cells h t) then
        match buf (cells h t) with
        | None => TellOk (set_cell h t (Cell (Some (Sig g)) (tx (cells h t)) true))
        | Some _ => TellWait
        end
      else TellErr
  | _ => TellBad
  end.

(** [s.receiver.recv()]: src/binary/close.rs:12. *)
Definition heap_hear (e : ep) (h : heap) : heard heap :=
  match e with
  | EEnd _ r =>
      match buf (cells h r) with
      | Some (Sig g) => Heard g (set_cell h r (Cell None (tx (cells h r)) (rx (cells h r))))
      | Some (Msg _ _ _) => HearBad
      | None => if tx (cells h r) then HearWait else HearErr
      end
  | _ => HearBad
  end.

Definition heap_ops : ops heap ep :=
  Ops heap ep heap_new heap_send heap_recv heap_drop heap_tell heap_hear.
