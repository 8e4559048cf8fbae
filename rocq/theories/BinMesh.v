(** n roles that use binary choices: the methods [choose_left], [choose_right] and [offer] of a MeshedChannels, with
    the stacks RoleXtoAll and RoleAlltoX. Model only. Send, recv, close and the drops are those of Mesh.v; roles are
    numbered 1..n. A choice [b] stands for the [Either] of every receiver ([PChoice b j] is the type of the one of role
    j) and for the two stacks of the chooser: label 0 is [Left], label 1 is [Right]. *)
From Coq Require Import List Arith Bool.
From Verif Require Import Types Diag Wiring Session Mesh.
Import ListNotations.

(** Equality of two stacks, as the compiler checks it ([R1] and [R2] of RoleXtoAll,
    mpst_seq_proc/src/common_functions/expand/choose.rs:173-178, 469-474). *)
Fixpoint stack_eqb (a b : stack) : bool :=
  match a, b with
  | SEnd, SEnd | SBroadcast, SBroadcast => true
  | SRole x r, SRole y q | SRoleDual x r, SRoleDual y q => (x =? y) && stack_eqb r q
  | SToAll x r1 r2, SToAll y q1 q2 | SAllTo x r1 r2, SAllTo y q1 q2 =>
      (x =? y) && stack_eqb r1 q1 && stack_eqb r2 q2
  | _, _ => false
  end.

(** [offer] wants all other sessions to be [End] (mpst_seq_proc/src/common_functions/expand/offer.rs:47-72). *)
Fixpoint rest_end (f : nat) (ss : list sty) : bool :=
  match ss, f with
  | [], _ => true
  | _ :: rest, 0 => forallb is_end rest
  | s :: rest, S f' => is_end s && rest_end f' rest
  end.

Section Machine.
  Context {S H : Type}.
  Variable O : ops S H.
  Variable n : nat.
  (** The type of the MeshedChannels of role j on side l of the choice b, and the number of variants of b
      (choose.rs:43-171: the two MeshedChannels of each [Either]; those of the chooser: 181-219). *)
  Variable branch : nat -> nat -> nat -> mty.
  Variable labels : nat -> nat.
  (** As in Mesh.v, for the ordinary sends only: the sends of a binary choice are always [send]
      (choose.rs:376-408, 933-974). *)
  Variable strict : bool.

  (** A thread of Mesh.v, and the ends of the old MeshedChannels of a choice under way: [new_session_0], ... in
      choose.rs:376-425. *)
  Record bthread := BThread { b_th : @thread H; b_late : list H }.

  (** The end bound to field f of the MeshedChannels kept by the chooser: choose.rs:425-446 (a struct expression: the
      order of its fields does not matter). *)
  Definition own_field (own : list (nat * endp)) (f : nat) : option endp :=
    option_map snd (find (fun e => fst e =? f) own).

  (** choose.rs:221-268 (the channels; S_k is the session of the role of the first variable), 312-374 (the MeshedChannels
      of the receivers), 376-408 ([choice_i] goes by [session_i]), 425-446 (that of the chooser). *)
  Definition bmake_choice (p b l : nat) (hs : list H) (s : S) : option (@prog H * S) :=
    let '(pairs, s1) := alloc O (pair_types n (bchoose_vars n p) (branch b l)) s in
    match bchoose_sender n p with
    | Some own =>
        match all_some (map (fun j =>
                               match nth_error hs (bchoose_choice p j - 1), bchoose_receiver n p j with
                               | Some h, Some es => option_map (fun m => (j, h, m)) (pick_all pairs es)
                               | _, _ => None
                               end) (filter (fun j => negb (p =? j)) (seq 1 n))),
              all_some (map (own_field own) (seq 1 (n - 1))) with
        | Some pend, Some es =>
            match pick_all pairs es with
            | Some mine => Some (PChoose b l pend mine, s1)
            | None => None
            end
        | _, _ => None
        end
    | None => None
    end.

  (** The method exists: the chooser is x, and RoleXtoAll has the stacks of the two sides (choose.rs:455-474). *)
  Definition may_choose (p x b : nat) (r1 r2 : stack) : bool :=
    (x =? p) && (labels b =? 2) && stack_eqb r1 (snd (branch b 0 p)) && stack_eqb r2 (snd (branch b 1 p)).

  (** What [choose_left] and [choose_right] do before they send: [bmake_choice], or the hand-written code for three roles
      (ThreeMesh.v; src/functionmpst/choose.rs:58-239); and whether [offer] is the function form, which takes any other session
      (src/functionmpst/offer.rs:22-56). *)
  Variable make : nat -> nat -> nat -> list H -> S -> option (@prog H * S).
  Variable any_rest : bool.

  (** One step of the thread of role p; [None]: not possible now. The cases not written here are those of
      Mesh.v: drops, send, recv, close (send.rs:72-84, recv.rs:72-90, close.rs:13-60). [offer]: offer.rs:74-108: recv,
      cancel the old MeshedChannels, go on with the side received. Inside [choose_left] nothing can panic: no crash there.
      Enum choices (RoleBroadcast) and a [recv] of an [Either] by hand are left out. *)
  Definition btstep (p : nat) (i : inp) (bt : bthread) (s : S) : option (bthread * S) :=
    let th := b_th bt in
    let as_mesh :=
      option_map (fun '(th', s') => (BThread th' (b_late bt), s')) (tstep O n branch labels strict p i th s) in
    match t_trash th, t_prog th with
    | [], PRun ss r hs =>
        match r, i with
        | _, ICrash => as_mesh
        | SToAll x r1 r2, ILabel l =>
            match choice_of p ss with
            | Some b =>
                if may_choose p x b r1 r2 && (l <? 2) then
                  match make p b l hs s with
                  | Some (pr, s1) => Some (BThread (Thread pr [] (t_round th) (t_log th)) [], s1)
                  | None => Some (BThread (stuck th) [], s)
                  end
                else None
            | None => None
            end
        | SAllTo x SEnd SEnd, ITau =>
            let f := comm_field p x - 1 in
            if callable n p x && (any_rest || rest_end f ss) then
              match nth_error ss f, nth_error hs f with
              | Some (Rcv (PChoice b j) End), Some h =>
                  if j =? p then
                    option_map (fun '(th', s') => (BThread th' [], s')) (do_offer O branch labels p th x hs f b h s)
                  else None
              | _, _ => None
              end
            else None
        | SRole x _, _ =>
            match nth_error ss (comm_field p x - 1) with
            | Some (Snd (PVal _) _) | Some (Rcv (PVal _) _) => as_mesh
            | _ => None
            end
        | SEnd, _ => as_mesh
        | _, _ => None
        end
    | [], PChoose b l pend own =>
        match i, pend with
        | ITau, (x, h, m) :: pend' =>
            (* choose.rs:376-408: [let new_session_i = send(Either::Left(choice_i), self.session_i)] *)
            let ev := t_log th ++ [EvSend (t_round th) x (VLabel b l x)] in
            match op_send O h (VLabel b l x) m End s with
            | SentOk here s1 =>
                Some (BThread (Thread (PChoose b l pend' own) [] (t_round th) ev) (b_late bt ++ [here]), s1)
            | SentLost here lost s1 =>
                Some (BThread (Thread (PChoose b l pend' own) lost (t_round th) ev) (b_late bt ++ [here]), s1)
            | SentWait => None
            | SentBad => Some (BThread (stuck th) [], s)
            end
        | ITau, [] =>
            (* choose.rs:507-525: [s.cancel()] drops the old MeshedChannels, field by field *)
            Some (BThread (Thread (PRun (fst (branch b l p)) (snd (branch b l p)) own) (b_late bt)
                                  (Datatypes.S (t_round th)) (t_log th)) [], s)
        | _, _ => None
        end
    | _, _ => as_mesh
    end.

  (** The whole session (mpst_seq_proc/src/common_functions/expand/fork.rs:17-169). *)
  Record bstate := BState { bs_store : S; bs_thr : nat -> bthread }.
  Definition bset (f : nat -> bthread) (p : nat) (t : bthread) : nat -> bthread :=
    fun q => if q =? p then t else f q.

  (** One step: role p (1..n) does i (threads of expand/fork.rs:85-107). *)
  Definition bexec (p : nat) (i : inp) (st : bstate) : option bstate :=
    if (1 <=? p) && (p <=? n) then
      match btstep p i (bs_thr st p) (bs_store st) with
      | Some (t, s1) => Some (BState s1 (bset (bs_thr st) p t))
      | None => None
      end
    else None.

  (** [fork_mpst]: as in Mesh.v (expand/fork.rs:82-107). *)
  Definition binit (T : nat -> mty) (s : S) : bstate :=
    let st := init O n T s in BState (st_store st) (fun p => BThread (st_thr st p) []).

  (** Executions (threads of expand/fork.rs:85-107). *)
  Inductive bsteps : bstate -> list (nat * inp) -> bstate -> Prop :=
  | bsteps_nil : forall st, bsteps st [] st
  | bsteps_cons : forall st p i st1 tr st2,
      bexec p i st = Some st1 -> bsteps st1 tr st2 -> bsteps st ((p, i) :: tr) st2.
End Machine.
