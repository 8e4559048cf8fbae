(** Specification vocabulary for the independence of the schedule. Independent of the machine. *)
From Coq Require Import List Arith Bool.
From Verif Require Import Types WiringProofs Session Mesh.
Import ListNotations.

(** A role with these sessions and this stack that comes to an offer has nothing left to do with the other
    roles: all its other sessions are [End] by then. [offer_mpst!] does not ask for it (src/macros_multiple/offer.rs:159-184). *)
Fixpoint tidy (p : nat) (ss : list sty) (r : stack) : Prop :=
  match r with
  | SRole x r' =>
      let f := field_pos p x in
      match nth_error ss f with
      | Some (Snd (PVal _) k) | Some (Rcv (PVal _) k) => tidy p (set_nth f k ss) r'
      | Some (Rcv (PChoice _ _) End) => forall f' s, f' <> f -> nth_error ss f' = Some s -> s = End
      | _ => True
      end
  | _ => True
  end.
Definition tidy_mesh (n : nat) (T : nat -> mty) : Prop := forall p, 1 <= p <= n -> tidy p (fst (T p)) (snd (T p)).

(** Deterministic programs: what role p sends, or which label it chooses, depends on what it has done so far. *)
Definition programs : Type := nat -> list event -> nat.
(** The program of p decides i after this log; nobody crashes. *)
Definition decides (f : programs) (p : nat) (log : list event) (i : inp) : Prop :=
  match i with
  | ITau => True
  | IVal v => v = f p log
  | ILabel l => l = f p log
  | ICrash => False
  end.

Section Runs.
  Context {S H : Type}.
  Variable O : ops S H.
  Variables (n : nat) (branch : nat -> nat -> nat -> mty) (labels : nat -> nat) (strict : bool) (start : @state S H).

  (** The executions of the programs f. *)
  Inductive runs (f : programs) : list (nat * inp) -> @state S H -> Prop :=
  | runs_nil : runs f [] start
  | runs_snoc : forall tr st p i st', runs f tr st -> decides f p (t_log (st_thr st p)) i ->
      exec O n branch labels strict p i st = Some st' -> runs f (tr ++ [(p, i)]) st'.

  (** Nothing is left to do. *)
  Definition complete (f : programs) (st : @state S H) : Prop :=
    forall p i, decides f p (t_log (st_thr st p)) i -> exec O n branch labels strict p i st = None.
End Runs.

(** The steps of role p, and how many they are. *)
Definition own (p : nat) (tr : list (nat * inp)) : list (nat * inp) := filter (fun e => fst e =? p) tr.
Definition count (p : nat) (tr : list (nat * inp)) : nat := length (own p tr).

(** What can be seen of a role from outside: its round, what it has sent and received, what its type still
    asks for, its result, and how many dropped ends it still has to clean up. *)
Definition visible {H} (th : @thread H) : nat * list event * option (list sty * stack) * option result * nat :=
  (t_round th, t_log th,
   match t_prog th with PRun ss r _ => Some (ss, r) | _ => None end,
   match t_prog th with PFin r => Some r | _ => None end,
   length (t_trash th)).

Definition starts_with {A} (b a : list A) : Prop := exists c, b = a ++ c.

(** Everybody has closed and returned Ok. *)
Definition all_ok {S H} (n : nat) (st : @state S H) : Prop :=
  forall p, 1 <= p <= n -> t_prog (st_thr st p) = PFin ROk /\ t_trash (st_thr st p) = [].
