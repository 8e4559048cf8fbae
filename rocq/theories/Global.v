(** Global protocols and their projections, the hypothesis of the deadlock-freedom theorems. Nothing
    here is code of the library: it is the global description from which the top-down approach
    generates the endpoint types (src/top_down_nuscr; README.md:219). A protocol is cut into rounds: a list of messages followed by the
    end or by one choice, which one role makes and announces to all others (the only kind of choice
    choose_mpst_multi_to_all offers). Recursion goes through choices: [body b l] may mention b again. *)
From Coq Require Import List Arith Bool.
From Verif Require Import Types Session Mesh.
Import ListNotations.

Record message := Msg3 { from : nat; into : nat; what : nat }.
Inductive finale := GEnd | GChoose (c b : nat).
Definition round : Type := (list message * finale)%type.

(** The session of p with q. *)
Definition last_sess (p q : nat) (e : finale) : sty :=
  match e with
  | GEnd => End
  | GChoose c b => if p =? c then Snd (PChoice b q) End
                   else if q =? c then Rcv (PChoice b p) End else End
  end.
Fixpoint sess_of (p q : nat) (ms : list message) (e : finale) : sty :=
  match ms with
  | [] => last_sess p q e
  | m :: ms' =>
      if (from m =? p) && (into m =? q) then Snd (PVal (what m)) (sess_of p q ms' e)
      else if (from m =? q) && (into m =? p) then Rcv (PVal (what m)) (sess_of p q ms' e)
      else sess_of p q ms' e
  end.

(** The role stack of p. *)
Definition last_stack (p : nat) (e : finale) : stack :=
  match e with
  | GEnd => SEnd
  | GChoose c b => if p =? c then SBroadcast else SRole c SEnd
  end.
Fixpoint stack_of (p : nat) (ms : list message) (e : finale) : stack :=
  match ms with
  | [] => last_stack p e
  | m :: ms' =>
      if from m =? p then SRole (into m) (stack_of p ms' e)
      else if into m =? p then SRole (from m) (stack_of p ms' e)
      else stack_of p ms' e
  end.

(** The MeshedChannels type of role p. *)
Definition sessions_of (n p : nat) (ms : list message) (e : finale) : list sty :=
  map (fun i => sess_of p (other p i) ms e) (seq 1 (n - 1)).
Definition proj (n : nat) (G : round) (p : nat) : mty :=
  (sessions_of n p (fst G) (snd G), stack_of p (fst G) (snd G)).

(** Messages go from one role to another; choosers are roles and have something to choose. *)
Definition wf_message (n : nat) (m : message) : Prop :=
  1 <= from m <= n /\ 1 <= into m <= n /\ from m <> into m.
Definition wf_round (n : nat) (labels : nat -> nat) (G : round) : Prop :=
  Forall (wf_message n) (fst G) /\
  match snd G with GEnd => True | GChoose c b => 1 <= c <= n /\ 0 < labels b end.

(** A protocol: its first round and the round that starts when label l of choice b is chosen. *)
Record protocol := Protocol { first_round : round; body : nat -> nat -> round }.
Definition wf_protocol (n : nat) (labels : nat -> nat) (P : protocol) : Prop :=
  2 <= n /\ wf_round n labels (first_round P) /\
  forall b l, l < labels b -> wf_round n labels (body P b l).

(** Finite protocols: there is a bound [size b] on what can follow choice b. *)
Definition weight (n : nat) (size : nat -> nat) (G : round) : nat :=
  length (fst G) + match snd G with GEnd => 2 * n | GChoose _ b => size b + n + 2 end.
Definition finite_protocol (n : nat) (labels : nat -> nat) (P : protocol) (size : nat -> nat) : Prop :=
  forall b l, l < labels b -> weight n size (body P b l) <= size b.
