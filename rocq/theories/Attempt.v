(** The macro [attempt!]: src/attempt.rs. Model only: the expressions the macro expands to, and their
    evaluation. *)
From Coq Require Import List.
Import ListNotations.

Section Attempt.
  (** The state the blocks work on, and their errors. *)
  Context {W E : Type}.

  (** What evaluating a block may give. [Fell]: it panicked. The values inside Ok are dropped by the
      macro ([|_|], attempt.rs:45), so they are left out. *)
  Inductive res := Ok | Err (e : E) | Fell.

  (** A block of code, evaluated in a state (attempt.rs:41-46). *)
  Definition block : Type := W -> W * res.

  (** The expressions of the expansion: a block, or [a.and_then(|_| b)] (attempt.rs:45). *)
  Inductive expr := Just (b : block) | AndThen (a : expr) (b : block).

  (** [Result::and_then]: the closure runs only if the receiver is Ok (attempt.rs:43-46). *)
  Fixpoint eval (x : expr) (w : W) : W * res :=
    match x with
    | Just b => b w
    | AndThen a b =>
        match eval a w with
        | (w1, Ok) => b w1
        | (w1, r) => (w1, r)
        end
    end.

  (** The arms of the macro. [@recurse (a) { } catch (e) h]: [if let Err(e) = a h] (attempt.rs:41-43);
      [@recurse (a) { b; tail }]: attempt.rs:44-46; the first call needs at least one block
      (attempt.rs:47-49), otherwise no arm matches and the program is not accepted. *)
  Fixpoint recurse (a : expr) (tail : list block) : expr :=
    match tail with
    | [] => a
    | b :: tail' => recurse (AndThen a b) tail'
    end.
  Definition expand (blocks : list block) : option expr :=
    match blocks with [] => None | b :: tail => Some (recurse (Just b) tail) end.

  (** [if let Err(e) = a { h }]: the state at the end, and whether the statement was left by a panic.
      The handler is a block that may itself panic ([Fell]) (attempt.rs:42). *)
  Definition run_attempt (blocks : list block) (handler : E -> W -> W * bool) (w : W) : option (W * bool) :=
    match expand blocks with
    | None => None
    | Some a =>
        match eval a w with
        | (w1, Ok) => Some (w1, false)
        | (w1, Err e) => Some (handler e w1)
        | (w1, Fell) => Some (w1, true)
        end
    end.
End Attempt.
Arguments res : clear implicits.
Arguments block : clear implicits.
