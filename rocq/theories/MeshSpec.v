(** Specification vocabulary for the multiparty theorems: what the logs of the roles should look
    like. Independent of the machine. *)
From Coq Require Import List Arith Bool.
From Verif Require Import Types WiringProofs Session Mesh.
Import ListNotations.

(** The session of role p with role q in a family of MeshedChannels types. *)
Definition sess (T : nat -> mty) (p q : nat) : sty := nth (field_pos p q) (fst (T p)) End.

(** One session per other role, and any two roles have dual sessions with each other. *)
Definition dual_mesh (n : nat) (T : nat -> mty) : Prop :=
  (forall p, 1 <= p <= n -> length (fst (T p)) = n - 1) /\
  forall p q, 1 <= p <= n -> 1 <= q <= n -> p <> q -> sess T p q = co (sess T q p).

(** What a role did with role x in round g: [(true, v)] for a send, [(false, v)] for a recv. *)
Definition with_role (g x : nat) (e : event) : list (bool * value) :=
  match e with
  | EvSend g' x' v => if (g' =? g) && (x' =? x) then [(true, v)] else []
  | EvRecv g' x' v => if (g' =? g) && (x' =? x) then [(false, v)] else []
  | EvClose => []
  end.
Definition evs (g x : nat) (log : list event) : list (bool * value) := flat_map (with_role g x) log.

(** The values sent and the values received. *)
Definition outs (l : list (bool * value)) : list value := map snd (filter fst l).
Definition ins (l : list (bool * value)) : list value := map snd (filter (fun x => negb (fst x)) l).

(** A value of a payload type. *)
Definition has (labels : nat -> nat) (v : value) (P : pty) : bool :=
  match v, P with
  | VData t _, PVal t' => t =? t'
  | VLabel b l j, PChoice b' j' => (b =? b') && (j =? j') && (l <? labels b)
  | _, _ => false
  end.

(** What remains of a session type after a list of actions; [None]: the actions are not allowed. *)
Fixpoint after (labels : nat -> nat) (s : sty) (l : list (bool * value)) {struct l} : option sty :=
  match l with
  | [] => Some s
  | (d, v) :: l' =>
      match s with
      | Snd P s' => if d && has labels v P then after labels s' l' else None
      | Rcv P s' => if negb d && has labels v P then after labels s' l' else None
      | End => None
      end
  end.

Definition is_prefix (a b : list value) : Prop := exists c, b = a ++ c.

(** The session of p with q in round g, when the choices made so far are [hist] (chooser, choice,
    label): [T] before the first choice, the variant chosen after it. *)
Definition round_types (branch : nat -> nat -> nat -> mty) (T : nat -> mty) (hist : list (nat * nat * nat)) (g : nat)
  : nat -> mty :=
  match g with
  | 0 => T
  | S g' => match nth_error hist g' with Some (_, b, l) => branch b l | None => T end
  end.

(** What the roles did makes sense: it follows one list [hist] of choices (chooser, choice, label).
    - what p received from q is what q sent to p, in order, so far;
    - the sends and recvs of p with q follow the session of p with q of that round;
    - every label sent or received is the one of [hist]. *)
Record faithful (n : nat) (branch : nat -> nat -> nat -> mty) (labels : nat -> nat) (T : nat -> mty)
       (hist : list (nat * nat * nat)) (log : nat -> list event) : Prop := Faithful {
  received_was_sent : forall g p q, 1 <= p <= n -> 1 <= q <= n -> p <> q ->
    is_prefix (ins (evs g q (log p))) (outs (evs g p (log q)));
  follows_type : forall g p q, 1 <= p <= n -> 1 <= q <= n -> p <> q ->
    after labels (sess (round_types branch T hist g) p q) (evs g q (log p)) <> None;
  label_sent : forall g p x b l j, 1 <= p <= n -> In (EvSend g x (VLabel b l j)) (log p) ->
    j = x /\ nth_error hist g = Some (p, b, l);
  label_received : forall g p x b l j, 1 <= p <= n -> In (EvRecv g x (VLabel b l j)) (log p) ->
    j = p /\ nth_error hist g = Some (x, b, l)
}.
