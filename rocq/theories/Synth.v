(** Finding the global protocol of which given endpoint types are the projections. Definitions only: nothing here is code of the
    library, which leaves this direction ("bottom-up", README.md:219-225) to the programmer. *)
From Coq Require Import List Arith Bool.
From Verif Require Import Types WiringProofs Session Mesh MeshSpec Global Proto.
Import ListNotations.

(** The types of the roles while their messages are played, role 1 first. *)
Definition type_of (Ts : list mty) (p : nat) : mty := of_list Ts p.
(** Role p is to send to the role that is to receive from it. *)
Definition meeting (n : nat) (Ts : list mty) (p : nat) : option message :=
  match snd (type_of Ts p) with
  | SRole x _ =>
      if negb (x =? p) && (1 <=? x) && (x <=? n) then
        match nth_error (fst (type_of Ts p)) (field_pos p x), snd (type_of Ts x), nth_error (fst (type_of Ts x)) (field_pos x p) with
        | Some (Snd (PVal t) _), SRole y _, Some (Rcv (PVal t') _) => if (y =? p) && (t' =? t) then Some (Msg3 p x t) else None
        | _, _, _ => None
        end
      else None
  | _ => None
  end.
Fixpoint first_meeting (n : nat) (Ts : list mty) (ps : list nat) : option message :=
  match ps with
  | [] => None
  | p :: ps' => match meeting n Ts p with Some m => Some m | None => first_meeting n Ts ps' end
  end.
(** Role p has done its next communication, which is one with x. *)
Definition past (p x : nat) (T : mty) : mty :=
  let f := field_pos p x in
  (match nth_error (fst T) f with Some (Snd _ k) | Some (Rcv _ k) => set_nth f k (fst T) | _ => fst T end,
   match snd T with SRole _ r => r | r => r end).
Definition play (m : message) (Ts : list mty) : list mty :=
  set_nth (into m - 1) (past (into m) (from m) (type_of Ts (into m)))
    (set_nth (from m - 1) (past (from m) (into m) (type_of Ts (from m))) Ts).

(** What is left when no two roles meet: the end, or the choice of the role whose turn it is. *)
Fixpoint last_of (Ts : list mty) (ps : list nat) : finale :=
  match ps with
  | [] => GEnd
  | p :: ps' => match snd (type_of Ts p), choice_of p (fst (type_of Ts p)) with
                | SBroadcast, Some b => GChoose p b
                | _, _ => last_of Ts ps'
                end
  end.
Fixpoint gather (n fuel : nat) (Ts : list mty) : round :=
  match fuel with
  | 0 => ([], last_of Ts (seq 1 n))
  | S k => match first_meeting n Ts (seq 1 n) with
           | Some m => let G := gather n k (play m Ts) in (m :: fst G, snd G)
           | None => ([], last_of Ts (seq 1 n))
           end
  end.

(** The types of the roles are those of the round. *)
Fixpoint stack_eqb (r s : stack) : bool :=
  match r, s with
  | SEnd, SEnd | SBroadcast, SBroadcast => true
  | SRole x r', SRole y s' => (x =? y) && stack_eqb r' s'
  | _, _ => false
  end.
Fixpoint stys_eqb (a b : list sty) : bool :=
  match a, b with
  | [], [] => true
  | s :: a', t :: b' => sty_eqb s t && stys_eqb a' b'
  | _, _ => false
  end.
Definition mty_eqb (a b : mty) : bool := stys_eqb (fst a) (fst b) && stack_eqb (snd a) (snd b).
Definition fits (n : nat) (labels : nat -> nat) (Ts : list mty) (G : round) : bool :=
  forallb (fun p => mty_eqb (type_of Ts p) (proj n G p)) (seq 1 n) &&
  forallb (fun m => (1 <=? from m) && (from m <=? n) && (1 <=? into m) && (into m <=? n) && negb (from m =? into m)) (fst G) &&
  match snd G with GEnd => true | GChoose c b => (1 <=? c) && (c <=? n) && (0 <? labels b) end.

(** How many messages there can be. *)
Fixpoint depth (r : stack) : nat := match r with SRole _ r' => S (depth r') | _ => 0 end.
Definition effort (Ts : list mty) : nat := list_sum (map (fun T => depth (snd T)) Ts).
Definition recover (n : nat) (labels : nat -> nat) (Ts : list mty) : option round :=
  let G := gather n (effort Ts) Ts in if fits n labels Ts G then Some G else None.

(** The same for a whole table. *)
Definition found (P : proto) (Ts : list mty) : round :=
  match recover (p_roles P) (p_labels P) Ts with Some G => G | None => ([], GEnd) end.
Definition global_of (P : proto) : protocol :=
  Protocol (found P (p_start P)) (fun b l => found P (nth l (nth b (p_choices P) []) [])).
Definition is_global (P : proto) : bool :=
  (2 <=? p_roles P) &&
  forallb (fun Ts => match recover (p_roles P) (p_labels P) Ts with Some _ => true | None => false end) (p_start P :: concat (p_choices P)).
