(** * Regular expressions

    The part of the [regex] crate that src/top_down_nuscr uses: [is_match],
    [captures], [captures_iter] for expressions made of literals, classes,
    repetitions, alternatives and named groups
    (auxiliary_objects/regex_nuscr.rs:3-79, auxiliary_objects/process_line.rs:160,
    171).  The crate documents the leftmost-first rule of Perl: the leftmost
    start, and there the first match that a backtracking search finds.
    Simplified: ASCII text only; groups without a name are not kept. *)

From Coq Require Import Ascii String Bool Arith List.
From Verif Require Import Checker Nuscr.
Import ListNotations.

Inductive re : Type :=
| Eps
| Chr (p : ascii -> bool)
| Seq (a b : re)
| Alt (a b : re)
| Star (a : re)
| Cap (name : str) (a : re).

(** "a+" and "a?" (regex_nuscr.rs:3-34). *)
Definition Plus (a : re) : re := Seq a (Star a).
Definition Opt (a : re) : re := Alt a Eps.
(** A literal, followed by an expression (regex_nuscr.rs:3-34). *)
Fixpoint Lit (w : str) (k : re) : re :=
  match w with [] => k | c :: w' => Seq (Chr (Ascii.eqb c)) (Lit w' k) end.

(** [a*], greedy: as many rounds as possible first; a round that reads nothing
    is not made (regex_nuscr.rs:3-34). *)
Fixpoint rounds (one : hmap str -> str -> list (hmap str * str)) (fuel : nat) (e : hmap str) (s : str)
  : list (hmap str * str) :=
  match fuel with
  | O => [(e, s)]
  | S f =>
      flat_map (fun x => if (length (snd x) <? length s)%nat then rounds one f (fst x) (snd x) else [])
        (one e s) ++ [(e, s)]
  end.

(** All the ways to match a prefix, in the order of the search: the groups and
    what is left (regex_nuscr.rs:3-34). *)
Fixpoint ways (r : re) (e : hmap str) (s : str) : list (hmap str * str) :=
  match r with
  | Eps => [(e, s)]
  | Chr p => match s with c :: s' => if p c then [(e, s')] else [] | [] => [] end
  | Seq a b => flat_map (fun x => ways b (fst x) (snd x)) (ways a e s)
  | Alt a b => ways a e s ++ ways b e s
  | Star a => rounds (ways a) (length s) e s
  | Cap n a =>
      map (fun x => (hset n (firstn (length s - length (snd x)) s) (fst x), snd x)) (ways a e s)
  end.

(** The leftmost start (regex_nuscr.rs:37-79). *)
Fixpoint search (r : re) (s : str) : option (hmap str * str) :=
  match ways r [] s with
  | x :: _ => Some x
  | [] => match s with [] => None | _ :: s' => search r s' end
  end.

(** [Regex::is_match] (regex_nuscr.rs:37-79). *)
Definition is_match (r : re) (s : str) : bool := match search r s with Some _ => true | None => false end.

(** [&Regex::captures(..).unwrap()[name]], empty if there is no such group (line_is_message.rs:21-30). *)
Definition capture (r : re) (name : str) (s : str) : str :=
  match search r s with
  | Some (e, _) => match hget e name with Some w => w | None => [] end
  | None => []
  end.

(** [Regex::captures_iter], one group of each match (process_line.rs:171). *)
Fixpoint captures_iter (r : re) (name : str) (fuel : nat) (s : str) : list str :=
  match fuel with
  | O => []
  | S f =>
      match search r s with
      | Some (e, s') => (match hget e name with Some w => w | None => [] end) :: captures_iter r name f s'
      | None => []
      end
  end.
