(** [select_mut] and [select]: src/binary/select.rs. Model only. The channels are those of Session.v; other
    threads may fill a channel or drop its sender between any two steps of [select_mut]. *)
From Coq Require Import List Arith Bool.
From Verif Require Import Session.
Import ListNotations.

(** [Vec::swap_remove]: the last element takes the place of the removed one (select.rs:75). *)
Definition swap_remove {A} (i : nat) (l : list A) : list A :=
  match rev l with
  | [] => []
  | x :: front =>
      let init := rev front in
      if i =? length init then init else firstn i init ++ [x] ++ skipn (S i) init
  end.

(** A receiver is ready when a message waits or its sender is gone (crossbeam's [Select::ready],
    select.rs:62). *)
Definition ready (h : heap) (c : nat) : bool :=
  match buf (cells h c) with Some _ => true | None => negb (tx (cells h c)) end.

(** [try_recv] (select.rs:63): the message, [Empty] or [Disconnected]. *)
Inductive tried := Taken (m : msg) (h : heap) | Empty | Disconnected.
Definition try_recv (c : nat) (h : heap) : tried :=
  match buf (cells h c) with
  | Some m => Taken m (set_cell h c (Cell None (tx (cells h c)) (rx (cells h c))))
  | None => if tx (cells h c) then Empty else Disconnected
  end.

(** What the call returns: [Ok] of the message, [Err] of a disconnection, [Err(EmptyVec)]
    (select.rs:53, 76-79). *)
Inductive outcome := Message (m : msg) | Gone | EmptyVec.

(** Where the call is: before [sel.ready()], between it and [try_recv] with the index, returned with the
    list that is left (select.rs:61-72). *)
Inductive place := Waiting | Trying (i : nat) | Done (o : outcome) (left : list nat).

(** select.rs:52-54 (empty vector) or the beginning of the loop. *)
Definition begin (rs : list nat) : place := match rs with [] => Done EmptyVec [] | _ => Waiting end.

(** Dropping the removed [Recv] (select.rs:75, [let _ =]). *)
Definition drop_rx (c : nat) (h : heap) : heap :=
  set_cell h c (Cell None (tx (cells h c)) false).

(** One step of the loop (select.rs:61-72) and, after its [break], lines 75-79. The index [i] returned
    by [sel.ready()] may be any ready one. [None]: [ready] blocks. *)
Definition sel_step (rs : list nat) (i : nat) (p : place) (h : heap) : option (place * heap) :=
  match p with
  | Waiting =>
      match nth_error rs i with
      | Some c => if ready h c then Some (Trying i, h) else None
      | None => None
      end
  | Trying j =>
      match nth_error rs j with
      | Some c =>
          match try_recv c h with
          | Taken m h1 => Some (Done (Message m) (swap_remove j rs), drop_rx c h1)
          | Empty => Some (Waiting, h)
          | Disconnected => Some (Done Gone (swap_remove j rs), drop_rx c h)
          end
      | None => None
      end
  | Done _ _ => None
  end.

(** What other threads may do to the channels of the receivers in rs: put a message into an empty
    channel whose sender is alive, drop a sender (crossbeam's send and drop on [bounded(1)]; the
    receivers belong to the caller of [select_mut]) (the other ends of the receivers of select.rs:47-81). *)
Definition env_cell (a b : cell) : Prop :=
  rx b = rx a /\
  match buf a with
  | Some m => buf b = Some m
  | None => buf b = None \/ tx a = true
  end /\
  (tx a = false -> tx b = false).
Definition env_step (rs : list nat) (h h' : heap) : Prop :=
  forall c, In c rs -> env_cell (cells h c) (cells h' c).

(** Executions of [select_mut rs], started in heap h0 (select.rs:47-81). *)
Inductive runs (rs : list nat) (h0 : heap) : place -> heap -> Prop :=
| RunStart : runs rs h0 (begin rs) h0
| RunEnv p h h' : runs rs h0 p h -> env_step rs h h' -> runs rs h0 p h'
| RunStep p h i p' h' : runs rs h0 p h -> sel_step rs i p h = Some (p', h') -> runs rs h0 p' h'.
