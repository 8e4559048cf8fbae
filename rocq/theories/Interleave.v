(** Several sessions at once: a thread may hold the MeshedChannels of several roles, of different sessions or of the
    same one, and use them in any order. Model only. Each session is the machine of Mesh.v with channels of its own
    (mpst_seq_proc/src/common_functions/expand/fork.rs:522-567: one list of [Session::new()] per protocol,
    Wiring.il_env; no channel is shared between the two). *)
From Coq Require Import List Arith Bool.
From Verif Require Import Types Diag Wiring Session Mesh.
Import ListNotations.

(** One session: number of roles, declared types, contents and sizes of the enums, kind of sends
    (the parameters of the machine of Mesh.v; expand/fork.rs:392-496 for the declared types). *)
Record session := Sess {
  s_roles : nat;
  s_types : nat -> mty;
  s_branch : nat -> nat -> nat -> mty;
  s_labels : nat -> nat;
  s_strict : bool }.

(** The thread of a role has returned or panicked, and dropped all that belongs to the session (Mesh.v, [PFin];
    fork.rs:674-677). *)
Definition returned (th : @thread ep) : bool :=
  match t_prog th, t_trash th with PFin _, [] => true | _, _ => false end.
(** It ended with an error or a panic (fork.rs:674-677: [Err(e) => panic!]). *)
Definition fails (th : @thread ep) : bool :=
  match t_prog th with PFin RErr | PFin RCrash => true | _ => false end.

(** Helpers: is it a crash, is a list empty, are two endpoints the same (the endpoints are the variables
    [meshedchannels_k] of fork.rs:569-652). *)
Definition is_crash (i : inp) : bool := match i with ICrash => true | _ => false end.
Definition is_nil {A} (l : list A) : bool := match l with [] => true | _ => false end.
Definition place_eqb (a b : nat * nat) : bool := (fst a =? fst b) && (snd a =? snd b).

Section Interleaved.
  (** Sessions 0..k-1. *)
  Variable k : nat.
  Variable D : nat -> session.
  (** The thread that holds the MeshedChannels of role p of session s. *)
  Variable owner : nat -> nat -> nat.
  (** When an operation of a thread fails, does the thread stop all it is doing ([?], [unwrap], panic: all its
      MeshedChannels are dropped; fork.rs:697-708) or only leave the session of that operation? *)
  Variable unwind : bool.

  (** The sessions, and for each thread the endpoint (session, role) on which its program works now
      (fork.rs:683-691: the interleaved function is given both MeshedChannels). *)
  Record sys := Sys { y_sess : nat -> @state heap ep; y_at : nat -> nat * nat }.

  Definition thr_of (st : sys) (sp : nat * nat) : @thread ep := st_thr (y_sess st (fst sp)) (snd sp).

  (** The endpoints of a thread (fork.rs:683-691: two for the interleaved thread, 654-665: one for the others;
      mpst_seq_proc/src/interleaved/fork_mpst_multi_solo.rs:244-264: all of them for one thread). *)
  Definition all_roles : list (nat * nat) := flat_map (fun s => map (pair s) (seq 1 (s_roles (D s)))) (seq 0 k).
  Definition roles_of (t : nat) : list (nat * nat) := filter (fun sp => owner (fst sp) (snd sp) =? t) all_roles.
  (** Those with which it has something left to do (closing or dropping included) (fork.rs:683-691). *)
  Definition open_roles (st : sys) (t : nat) : list (nat * nat) :=
    filter (fun sp => negb (returned (thr_of st sp))) (roles_of t).
  (** One of its operations has failed (fork.rs:697-708). *)
  Definition failed (st : sys) (t : nat) : bool := existsb (fun sp => fails (thr_of st sp)) (roles_of t).

  (** A thread that has something left to do works on an endpoint with which it has something left to do
      (fork.rs:683-691). *)
  Definition may_be_at (st : sys) (t : nat) (w : nat * nat) : bool :=
    is_nil (open_roles st t) || existsb (place_eqb w) (open_roles st t).

  (** One step: role p of session s does i (Mesh.exec), which is possible only if its thread works on this endpoint; then
      the program of this thread goes on with endpoint w. A thread that stops everything only drops
      (fork.rs:654-711). *)
  Definition yexec (s p : nat) (i : inp) (w : nat * nat) (st : sys) : option sys :=
    let t := owner s p in
    if (s <? k) && place_eqb (y_at st t) (s, p) &&
       (negb (unwind && failed st t) || is_crash i || negb (is_nil (t_trash (thr_of st (s, p))))) then
      match exec heap_ops (s_roles (D s)) (s_branch (D s)) (s_labels (D s)) (s_strict (D s)) p i (y_sess st s) with
      | Some m =>
          let st' := Sys (fun s' => if s' =? s then m else y_sess st s')
                         (fun t' => if t' =? t then w else y_at st t') in
          if may_be_at st' t w then Some st' else None
      | None => None
      end
    else None.

  (** All threads are spawned, thread t starts with endpoint [w t] (fork.rs:654-711: one spawn per function). *)
  Definition ystart (w : nat -> nat * nat) : sys :=
    Sys (fun s => init heap_ops (s_roles (D s)) (s_types (D s)) empty_heap) w.

  (** Executions: session, role, input and next endpoint of each step (fork.rs:654-711). *)
  Inductive yruns : sys -> list (nat * (nat * inp) * (nat * nat)) -> sys -> Prop :=
  | yruns_nil : forall st, yruns st [] st
  | yruns_cons : forall st s p i w st1 tr st2,
      yexec s p i w st = Some st1 -> yruns st1 tr st2 -> yruns st ((s, (p, i), w) :: tr) st2.
End Interleaved.

(** The thread that runs role p of protocol s (0 for the first, 1 for the second) after [fork_interleaved_mpst]:
    0 is the interleaved thread, f is the thread of function [f{f}] (fork.rs:654-691, Wiring.il_thread and
    il_interleaved). *)
Definition il_owner (n1 n2 idx1 idx2 : nat) (s p : nat) : nat :=
  let v := match s with 0 => il_mesh_one p | _ => il_mesh_two n1 p end in
  if (v =? fst (il_interleaved n1 idx1 idx2)) || (v =? snd (il_interleaved n1 idx1 idx2)) then 0
  else match find (fun f => il_thread n1 idx1 idx2 f =? v) (seq 1 (n1 + n2 - 2)) with Some f => f | None => 0 end.
