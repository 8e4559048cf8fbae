(** Specification vocabulary: what a MeshedChannels type asks a role to do until the end of the round, and when the
    types of all roles can be done in some order. Independent of the machine and of global protocols. *)
From Coq Require Import List Arith Bool.
From Verif Require Import Types WiringProofs Session Mesh MeshSpec.
Import ListNotations.

(** The actions of a role: the methods it may call (send and recv: mpst_seq_proc/src/common_functions/expand/send.rs:72-84,
    recv.rs:72-90; offer: src/macros_multiple/offer.rs:159-184; choice and close: the last thing it does in a round). *)
Inductive act := ASend (x : nat) | ARecv (x : nat) | AOffer (x b : nat) | AChoose (b : nat) | AClose.

Section Order.
  Variable n : nat.
  Variable labels : nat -> nat.

  (** What role p does with these sessions and this stack; [None]: the stack asks for something that the sessions
      do not allow, so the program cannot be written. *)
  Fixpoint script (p : nat) (ss : list sty) (r : stack) : option (list act) :=
    match r with
    | SRole x r' =>
        let f := field_pos p x in
        if negb (x =? p) && (1 <=? x) && (x <=? n) then
          match nth_error ss f with
          | Some (Snd (PVal _) k) => option_map (cons (ASend x)) (script p (set_nth f k ss) r')
          | Some (Rcv (PVal _) k) => option_map (cons (ARecv x)) (script p (set_nth f k ss) r')
          | Some (Rcv (PChoice b j) End) => if j =? p then Some [AOffer x b] else None
          | _ => None
          end
        else None
    | SBroadcast => match choice_of p ss with Some b => if 0 <? labels b then Some [AChoose b] else None | None => None end
    | SEnd => if forallb is_end ss then Some [AClose] else None
    | _ => None
    end.
  Definition script_of (T : nat -> mty) (p : nat) : option (list act) := script p (fst (T p)) (snd (T p)).

  (** The action is a communication with x. *)
  Definition meets (x : nat) (a : act) : bool :=
    match a with ASend y | ARecv y | AOffer y _ => y =? x | AChoose _ => true | AClose => false end.
  (** The action waits for x. *)
  Definition waits (a : act) : option nat := match a with ARecv x | AOffer x _ => Some x | _ => None end.
  (** How many communications with x are among the first i actions. *)
  Definition upto (x i : nat) (l : list act) : nat := length (filter (meets x) (firstn i l)).

  (** The types of all roles can be followed in some order: [rank p i] is when role p does its action number i. A role
      does its actions one after the other; what it receives from x as its communication number k with x has been sent
      by x before, as the communication number k of x with p. *)
  Definition ordered (T : nat -> mty) : Prop := exists rank : nat -> nat -> nat,
    (forall p, 1 <= p <= n -> script_of T p <> None) /\
    (forall p l i j, 1 <= p <= n -> script_of T p = Some l -> i < j < length l -> rank p i < rank p j) /\
    (forall p l i a x lx, 1 <= p <= n -> script_of T p = Some l -> nth_error l i = Some a -> waits a = Some x ->
       script_of T x = Some lx ->
       exists j a', nth_error lx j = Some a' /\ meets p a' = true /\ upto p j lx = upto x i l /\ rank x j < rank p i).

  (** The types of the rounds that can follow T: after choice b with label l the roles have the types [branch b l]. *)
  Inductive reached (branch : nat -> nat -> nat -> mty) (T : nat -> mty) : (nat -> mty) -> Prop :=
  | reached_first : reached branch T T
  | reached_next : forall R p l b lab, reached branch T R -> 1 <= p <= n -> script_of R p = Some l -> In (AChoose b) l ->
      lab < labels b -> reached branch T (branch b lab).

  (** * Looking for an order
      A position for every role (a list, for role 1 first): how many of its actions it has done. A role may do its next
      action if it does not wait, or if the one it waits for has communicated with it once more than it has. *)
  Definition script_at (T : nat -> mty) (p : nat) : list act := match script_of T p with Some l => l | None => [] end.
  Definition free (T : nat -> mty) (pos : nat -> nat) (p : nat) : bool :=
    match nth_error (script_at T p) (pos p) with
    | None => false
    | Some a => match waits a with
                | None => true
                | Some x => upto x (pos p) (script_at T p) <? upto p (pos x) (script_at T x)
                end
    end.
  Definition advance (pos : nat -> nat) (p : nat) : nat -> nat := fun q => if q =? p then S (pos q) else pos q.
  Definition all_through (T : nat -> mty) (pos : nat -> nat) : bool :=
    forallb (fun p => length (script_at T p) <=? pos p) (seq 1 n).
  Fixpoint try_order (T : nat -> mty) (fuel : nat) (pos : nat -> nat) : bool :=
    all_through T pos ||
    match fuel with
    | 0 => false
    | S k => match find (free T pos) (seq 1 n) with
             | Some p => try_order T k (advance pos p)
             | None => false
             end
    end.
  (** The test: every role has a script, and the search comes to the end. *)
  Definition check (T : nat -> mty) : bool :=
    forallb (fun p => match script_of T p with Some _ => true | None => false end) (seq 1 n) &&
    try_order T (list_sum (map (fun p => length (script_at T p)) (seq 1 n))) (fun _ => 0).
End Order.
