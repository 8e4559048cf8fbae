(** The broadcaster: the loop of [broadcast_cancel!]
    (mpst_seq_proc/src/macros_multiple/multiple/broadcast_cancel.rs:54-93), against participants that do
    whatever their channels allow. Model only. *)
From Coq Require Import List Arith Bool.
Import ListNotations.

(** [enum Signal]: src/binary/struct_trait/end.rs:20-27. [Offer c]: a new [End], belonging to line c. *)
Inductive bsig := Stop | Cancel | Offer (c : nat).

(** A line: the two [bounded(1)] channels behind a pair of [End]s (end.rs:32-46), one [End] held by a
    participant, the other by the broadcaster (or on its way to it).
    [up]: the place of the channel towards the broadcaster; [up_tx]: the participant's sender is alive;
    [down]: the place of the other channel; [down_rx]: the participant's receiver is alive;
    [held]: the broadcaster's [End] is alive. *)
Record line := Line { up : option bsig; up_tx : bool; down : option bsig; down_rx : bool; held : bool }.

(** [End::new]: end.rs:32-46. *)
Definition fresh : line := Line None true None true true.

(** Where the broadcaster is: at the test of [while] (broadcast_cancel.rs:67), before the [try_recv] of
    field k (69), before the [send] of Stop on field k (77), before the [send] of Cancel on field k (45, 71),
    returned [Ok(())] (91), panicked with "Error" (73) or "Close already sent" (80). *)
Inductive place := Test | Poll (k : nat) | Answer (k : nat) | Spread (k : nat) | Over | Cancelled | Twice.

(** What happened, for the statements: field k heard a signal; field k, on line c, was sent a signal, and
    whether somebody was there to receive it; the participant on line c received a signal
    (broadcast_cancel.rs:67-88). *)
Inductive event := Heard (k : nat) (g : bsig) | Told (k c : nat) (g : bsig) (ok : bool) | Got (c : nat) (g : bsig).

(** [fields]: the line of [s.session1], [s.session2], ...; [open]: [bool_session1], ... (broadcast_cancel.rs:57). *)
Record state := State { lines : nat -> line; fields : list nat; open : list bool; at_ : place; log : list event }.

Definition set_line (ls : nat -> line) (c : nat) (l : line) : nat -> line :=
  fun d => if d =? c then l else ls d.
Definition set_nth {A} (k : nat) (x : A) (l : list A) : list A := firstn k l ++ match skipn k l with [] => [] | _ :: r => x :: r end.

(** Before the loop: n-1 lines, all flags true (broadcast_cancel.rs:56-60). *)
Definition start (n : nat) : state :=
  State (fun _ => fresh) (seq 0 (n - 1)) (repeat true (n - 1)) Test [].

(** [sender.send(g).unwrap_or(())] on a line (45, 77): [None] blocks; the flag tells whether it was
    delivered (broadcast_cancel.rs:45, 77). *)
Definition send_down (g : bsig) (l : line) : option (line * bool) :=
  if down_rx l then
    match down l with
    | Some _ => None
    | None => Some (Line (up l) (up_tx l) (Some g) (down_rx l) (held l), true)
    end
  else Some (l, false).

(** The broadcaster's [End] of a line is dropped: its receiver takes the waiting signal along
    (broadcast_cancel.rs:72-73, 83). *)
Definition drop_held (l : line) : line := Line None (up_tx l) (down l) (down_rx l) false.
Definition drop_all (cs : list nat) (ls : nat -> line) : nat -> line :=
  fun d => if existsb (Nat.eqb d) cs then drop_held (ls d) else ls d.

(** The place of [up] is emptied by [try_recv] (broadcast_cancel.rs:69). *)
Definition take_up (l : line) : line := Line None (up_tx l) (down l) (down_rx l) (held l).

(** One step of the broadcaster: broadcast_cancel.rs:67-91. [None]: blocked in [send], or ended. *)
Definition bstep (s : state) : option state :=
  let '(State ls fs os p lg) := s in
  match p with
  | Test => if existsb id os then Some (State ls fs os (Poll 0) lg)                      (* 67 *)
            else Some (State (drop_all fs ls) fs os Over lg)                             (* 91 *)
  | Poll k =>
      match nth_error fs k with
      | None => Some (State ls fs os Test lg)                                            (* 88 *)
      | Some c =>
          match up (ls c) with
          | Some Cancel =>                                                               (* 70-74 *)
              Some (State (set_line ls c (take_up (ls c))) fs os (Spread 0) (Heard k Cancel :: lg))
          | Some Stop =>                                                                 (* 75 *)
              let ls1 := set_line ls c (take_up (ls c)) in
              if nth k os false then Some (State ls1 fs os (Answer k) (Heard k Stop :: lg))   (* 76 *)
              else Some (State (drop_all fs ls1) fs os Twice (Heard k Stop :: lg))       (* 80 *)
          | Some (Offer d) =>                                                            (* 82-84 *)
              Some (State (set_line ls c (drop_held (ls c))) (set_nth k d fs) os (Poll (S k)) (Heard k (Offer d) :: lg))
          | None => Some (State ls fs os (Poll (S k)) lg)                                (* 85: Empty or Disconnected *)
          end
      end
  | Answer k =>
      match nth_error fs k with
      | None => None
      | Some c =>
          match send_down Stop (ls c) with
          | None => None
          | Some (l, ok) => Some (State (set_line ls c l) fs (set_nth k false os) (Poll (S k)) (Told k c Stop ok :: lg))  (* 77-78 *)
          end
      end
  | Spread k =>
      match nth_error fs k with
      | None => Some (State (drop_all fs ls) fs os Cancelled lg)                         (* 72-73 *)
      | Some c =>
          match send_down Cancel (ls c) with
          | None => None
          | Some (l, ok) => Some (State (set_line ls c l) fs os (Spread (S k)) (Told k c Cancel ok :: lg))   (* 71 *)
          end
      end
  | Over | Cancelled | Twice => None
  end.

(** ** The participants: everything their ends of the lines allow *)

(** [sender.send(g)]: into a free place while the broadcaster's [End] is alive. [close_mpst_cancel!] and the like send
    Stop (close/close_mpst_cancel.rs:48), [send_cancel!] Cancel (send/send_cancel.rs:73),
    [choose_mpst_multi_cancel_to_all!] and [offer_cancel_mpst!] an [End] the broadcaster does not hold yet
    (choose/choose_mpst_multi_cancel_to_all.rs; src/macros_multiple/offer.rs:203). *)
Inductive quiet : state -> state -> Prop :=
(** [receiver.recv()]: close/close_mpst_cancel.rs:57; [try_recv]: send/create_send_check_cancel.rs:155. *)
| EGet ls fs os p lg c g : down (ls c) = Some g -> down_rx (ls c) = true ->
    quiet (State ls fs os p lg)
      (State (set_line ls c (Line (up (ls c)) (up_tx (ls c)) None true (held (ls c)))) fs os p (Got c g :: lg))
(** The participant's sender or receiver is dropped (src/binary/cancel.rs:22-24, or the end of its thread). *)
| EDropTx ls fs os p lg c :
    quiet (State ls fs os p lg)
      (State (set_line ls c (Line (up (ls c)) false (down (ls c)) (down_rx (ls c)) (held (ls c)))) fs os p lg)
| EDropRx ls fs os p lg c :
    quiet (State ls fs os p lg)
      (State (set_line ls c (Line (up (ls c)) (up_tx (ls c)) None false (held (ls c)))) fs os p lg).

Inductive env : state -> state -> Prop :=
| EQuiet s s' : quiet s s' -> env s s'
| EPut ls fs os p lg c g : up (ls c) = None -> up_tx (ls c) = true -> held (ls c) = true ->
    (forall d, g = Offer d -> ~ In d fs) ->
    env (State ls fs os p lg)
      (State (set_line ls c (Line (Some g) true (down (ls c)) (down_rx (ls c)) (held (ls c)))) fs os p lg)
(** An [End] on its way to the broadcaster is lost with the thread that held it. *)
| ELost ls fs os p lg c : ~ In c fs ->
    env (State ls fs os p lg) (State (set_line ls c (drop_held (ls c))) fs os p lg).

(** Executions with environment steps from E; m counts the broadcaster's own steps
    (broadcast_cancel.rs:67-88). *)
Inductive run (E : state -> state -> Prop) (s : state) : nat -> state -> Prop :=
| RStart : run E s 0 s
| REnv m s1 s2 : run E s m s1 -> E s1 s2 -> run E s m s2
| ROwn m s1 s2 : run E s m s1 -> bstep s1 = Some s2 -> run E s (S m) s2.
