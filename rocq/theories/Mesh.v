(** n roles, each a thread with a MeshedChannels, running the most general program of its type.
    Model only. The machine is written once for any store of sessions ([ops]); the concrete one
    is [heap_ops] (Session.v). The wiring of fork and choice and the field numbers of send and recv
    are the generated ones (Wiring.v). Roles are numbered 1..n. *)
From Coq Require Import List Arith Bool.
From Verif Require Import Types Diag Wiring Session.
Import ListNotations.

(** The type of a MeshedChannels: its n-1 sessions and its role stack
    (src/meshedchannels/mod.rs:77-92; mpst_seq_proc/src/common_functions/expand/meshedchannels.rs:103-119). *)
Definition mty : Type := (list sty * stack)%type.

(** [other p i]: the role faced by field i of role p:
    mpst_seq_proc/src/choose_mpst_multi_to_all.rs:111 ([if i >= exclusion { i + 1 } else { i }]). *)
Definition other (p i : nat) : nat := if p <=? i then i + 1 else i.

Definition pty_eqb (a b : pty) : bool :=
  match a, b with
  | PVal x, PVal y => x =? y
  | PChoice b j, PChoice c k => (b =? c) && (j =? k)
  | _, _ => false
  end.

(** Is every session [Send<enum of the other role for choice b, End>]? This is what the [send]s
    of choose_mpst_multi_to_all.rs:140-153 ask for. *)
Fixpoint all_send_choice (p b i : nat) (ss : list sty) : bool :=
  match ss with
  | [] => true
  | Snd q End :: rest => pty_eqb q (PChoice b (other p i)) && all_send_choice p b (S i) rest
  | _ => false
  end.
Definition choice_of (p : nat) (ss : list sty) : option nat :=
  match ss with
  | Snd (PChoice b _) End :: _ => if all_send_choice p b 1 ss then Some b else None
  | _ => None
  end.

Definition is_end (s : sty) : bool := match s with End => true | _ => false end.

(** Replacing one field of a MeshedChannels (expand/send.rs:42-54). *)
Fixpoint set_nth {A} (k : nat) (x : A) (l : list A) : list A :=
  match l, k with
  | [], _ => []
  | _ :: l', 0 => x :: l'
  | y :: l', S k' => y :: set_nth k' x l'
  end.

(** How a thread ended: [Ok]; an error or a panic caused by an error of an operation; a panic, early
    return or cancel of its own accord (mpst_seq_proc/src/common_functions/expand/fork.rs:97-100). *)
Inductive result := ROk | RErr | RCrash.

(** What a thread did (observations only, never read by the machine): direction and value of a
    communication with role x in round g (the number of choices made before it), and the call of
    close (nothing in /repo: an observation of src/binary/send.rs:13-21, recv.rs:12-19, close.rs:10-18). *)
Inductive event := EvSend (g x : nat) (v : value) | EvRecv (g x : nat) (v : value) | EvClose.

(** What the environment decides: a value to send, a branch to choose, a crash; or nothing
    (user code between the calls, e.g. examples/mpst/o_auth.rs:99-121). *)
Inductive inp := ITau | IVal (x : nat) | ILabel (l : nat) | ICrash.

Section Machine.
  Context {S H : Type}.
  Variable O : ops S H.
  (** Number of roles. *)
  Variable n : nat.
  (** Contents of the enums: the type of the MeshedChannels of role j in branch l of choice b,
      and the number of variants of b. *)
  Variable branch : nat -> nat -> nat -> mty.
  Variable labels : nat -> nat.
  (** Sends are [send_canceled] (panic when the receiver is gone, src/binary/send.rs:25-38) or
      [send] (ignore it, src/binary/send.rs:13-21). *)
  Variable strict : bool.

  (** Where a thread is in its program. [PRun]: holds a MeshedChannels of sessions ss and stack r;
      [PChoose]: inside choose_mpst_multi_to_all (receiver, old session and new MeshedChannels for each
      send still to do; the MeshedChannels the chooser keeps); [PClose a r]: inside close, a
      signals sent and r received; [PFin]: returned; [PStuck]: a message or an end that does not
      have the type the Rust types announce (user code, e.g. examples/mpst/o_auth.rs:99-164). *)
  Inductive prog :=
  | PRun (ss : list sty) (r : stack) (hs : list H)
  | PChoose (b l : nat) (pend : list (nat * H * list H)) (own : list H)
  | PClose (a r : nat) (hs : list H)
  | PFin (res : result)
  | PStuck (hs : list H).

  (** A thread: program, ends being dropped (nothing else happens until this is empty), round, log
      (mpst_seq_proc/src/common_functions/expand/fork.rs:85-107). *)
  Record thread := Thread { t_prog : prog; t_trash : list H; t_round : nat; t_log : list event }.

  (** All the ends a program holds (mpst_seq_proc/src/common_functions/expand/meshedchannels.rs:103-119). *)
  Definition held (pr : prog) : list H :=
    match pr with
    | PRun _ _ hs => hs
    | PChoose _ _ pend own => flat_map (fun '(_, h, m) => h :: m) pend ++ own
    | PClose _ _ hs => hs
    | PFin _ => []
    | PStuck hs => hs
    end.

  (** Successive [Session::new()] calls (mpst_seq_proc/src/common_functions/expand/aux_fork.rs:142-162). *)
  Fixpoint alloc (tys : list sty) (s : S) : list (H * H) * S :=
    match tys with
    | [] => ([], s)
    | t :: rest =>
        let '(a, b, s1) := op_new O t s in
        let '(l, s2) := alloc rest s1 in
        ((a, b) :: l, s2)
    end.

  (** The type of the first component of each [Session::new()]: the session of role [line] with role
      [column] (fork.rs:41-78 for fork; inferred from the enum for a choice). *)
  Definition pair_types (vars : nat -> option (var * var)) (T : nat -> mty) : list sty :=
    map (fun k =>
           match vars k with
           | Some ((line, column), _) => nth (comm_field line column - 1) (fst (T line)) End
           | None => End
           end) (seq 1 (npairs n)).

  (** The end bound to a variable, given the results of the [new]s
      (mpst_seq_proc/src/common_functions/expand/aux_fork.rs:164-206). *)
  Definition pick (pairs : list (H * H)) (e : endp) : option H :=
    match nth_error pairs (fst e - 1) with
    | Some (a, b) => Some (if snd e then a else b)
    | None => None
    end.
  Definition pick_all (pairs : list (H * H)) (es : list endp) : option (list H) :=
    all_some (map (pick pairs) es).

  (** choose_mpst_multi_to_all.rs:71-83, 107-175: the channels, the sends to do and the MeshedChannels
      kept. *)
  Definition make_choice (p b l : nat) (hs : list H) (s : S) : option (prog * S) :=
    let '(pairs, s1) := alloc (pair_types (choose_vars n) (branch b l)) s in
    match choose_sends n p, choose_own n p with
    | Some sends, Some own =>
        match all_some (map (fun '(i, es) =>
                               match nth_error hs (i - 1), pick_all pairs es with
                               | Some h, Some m => Some (other p i, h, m)
                               | _, _ => None
                               end) sends), pick_all pairs own with
        | Some pend, Some mine => Some (PChoose b l pend mine, s1)
        | _, _ => None
        end
    | _, _ => None
    end.

  (** The thread is stuck (proved unreachable in MeshSafe.v) (no counterpart in fork.rs:85-107). *)
  Definition stuck (th : thread) : thread :=
    Thread (PStuck (held (t_prog th))) [] (t_round th) (t_log th).

  (** The thread ends with result r and drops xs
      (mpst_seq_proc/src/common_functions/expand/fork.rs:97-100; the drops of a Rust scope). *)
  Definition fin (th : thread) (r : result) (xs : list H) : thread :=
    Thread (PFin r) xs (t_round th) (t_log th).

  (** Generated send: expand/send.rs:72-84 (send_basic), and send_canceled. *)
  Definition do_send (th : thread) (x : nat) (ss : list sty) (r : stack) (hs : list H)
             (f : nat) (t v : nat) (k : sty) (h : H) (s : S) : option (thread * S) :=
    let ev := t_log th ++ [EvSend (t_round th) x (VData t v)] in
    match op_send O h (VData t v) [] k s with
    | SentOk here s1 =>
        Some (Thread (PRun (set_nth f k ss) r (set_nth f here hs)) [] (t_round th) ev, s1)
    | SentLost here lost s1 =>
        if strict then Some (fin th RErr (lost ++ set_nth f here hs), s1)
        else Some (Thread (PRun (set_nth f k ss) r (set_nth f here hs)) lost (t_round th) ev, s1)
    | SentWait => None
    | SentBad => Some (stuck th, s)
    end.

  (** Removing one field (the end consumed by a failed recv) (src/binary/recv.rs:17). *)
  Definition without (f : nat) (hs : list H) : list H := firstn f hs ++ skipn (f + 1) hs.

  (** Generated recv: expand/recv.rs:72-90 (recv_basic, unwrap) and 159-176 (recv, [?]): an error
      ends the thread and drops the rest of the MeshedChannels. *)
  Definition do_recv (th : thread) (x : nat) (ss : list sty) (r : stack) (hs : list H)
             (f : nat) (t : nat) (k : sty) (h : H) (s : S) : option (thread * S) :=
    match op_recv O h s with
    | Got (VData t' v) [] h' s1 =>
        if t' =? t then
          Some (Thread (PRun (set_nth f k ss) r (set_nth f h' hs)) [] (t_round th)
                       (t_log th ++ [EvRecv (t_round th) x (VData t v)]), s1)
        else Some (stuck th, s)
    | Got _ _ _ _ => Some (stuck th, s)
    | GotErr s1 => Some (fin th RErr (without f hs), s1)
    | GotWait => None
    | GotBad => Some (stuck th, s)
    end.

  (** [offer_mpst!]: src/macros_multiple/offer.rs:159-184: recv, cancel the old MeshedChannels, match
      on the variant. *)
  Definition do_offer (p : nat) (th : thread) (x : nat) (hs : list H) (f b : nat) (h : H) (s : S)
    : option (thread * S) :=
    match op_recv O h s with
    | Got (VLabel b' l j) m h' s1 =>
        if (b' =? b) && (j =? p) && (l <? labels b) then
          Some (Thread (PRun (fst (branch b l p)) (snd (branch b l p)) m) (set_nth f h' hs)
                       (Datatypes.S (t_round th))
                       (t_log th ++ [EvRecv (t_round th) x (VLabel b l p)]), s1)
        else Some (stuck th, s)
    | Got _ _ _ _ => Some (stuck th, s)
    | GotErr s1 => Some (fin th RErr (without f hs), s1)
    | GotWait => None
    | GotBad => Some (stuck th, s)
    end.

  (** One send of choose_mpst_multi_to_all.rs:140-153; the returned [End] is dropped at once
      ([let _ =]). *)
  Definition do_choose_send (th : thread) (b l : nat) (x : nat) (h : H) (m : list H)
             (pend : list (nat * H * list H)) (own : list H) (s : S) : option (thread * S) :=
    let v := VLabel b l x in
    let ev := t_log th ++ [EvSend (t_round th) x v] in
    match op_send O h v m End s with
    | SentOk here s1 => Some (Thread (PChoose b l pend own) [here] (t_round th) ev, s1)
    | SentLost here lost s1 =>
        if strict then Some (fin th RErr (lost ++ [here] ++ held (PChoose b l pend own)), s1)
        else Some (Thread (PChoose b l pend own) (lost ++ [here]) (t_round th) ev, s1)
    | SentWait => None
    | SentBad => Some (stuck th, s)
    end.

  (** Generated close: mpst_seq_proc/src/common_functions/expand/close.rs:13-33 and 47-60: all Stop
      signals are sent, then one signal is received from each; [?] and panic end the thread. For
      n = 2 this is src/binary/close.rs:10-18. *)
  Definition do_close (th : thread) (a r : nat) (hs : list H) (s : S) : option (thread * S) :=
    match nth_error hs a with
    | Some h =>
        match op_tell O h Stop s with
        | TellOk s1 => Some (Thread (PClose (a + 1) r hs) [] (t_round th) (t_log th), s1)
        | TellErr => Some (fin th RErr hs, s)
        | TellWait => None
        | TellBad => Some (stuck th, s)
        end
    | None =>
        match nth_error hs r with
        | Some h =>
            match op_hear O h s with
            | Heard Stop s1 => Some (Thread (PClose a (r + 1) hs) [] (t_round th) (t_log th), s1)
            | Heard Cancel s1 => Some (fin th RErr hs, s1)
            | HearErr => Some (fin th RErr hs, s)
            | HearWait => None
            | HearBad => Some (stuck th, s)
            end
        | None => Some (fin th ROk hs, s)
        end
    end.

  (** The methods that exist: [send] and [recv] with role x are generated for role p only if x is
      another role (mpst_seq_proc/src/baking/baking_basic.rs:62-79; the same loop for recv). *)
  Definition callable (p x : nat) : bool := negb (x =? p) && (1 <=? x) && (x <=? n).

  (** One step of the thread of role p. [None]: not possible now
      (the functions cited at its parts; mpst_seq_proc/src/common_functions/expand/fork.rs:85-107 for the loop around them). *)
  Definition tstep (p : nat) (i : inp) (th : thread) (s : S) : option (thread * S) :=
    match t_trash th with
    | x :: rest =>
        match i with
        | ITau =>
            let '(out, s1) := op_drop O x s in
            Some (Thread (t_prog th) (out ++ rest) (t_round th) (t_log th), s1)
        | _ => None
        end
    | [] =>
        match t_prog th with
        | PFin _ | PStuck _ => None
        | PRun ss r hs =>
            match i with
            | ICrash => Some (fin th RCrash hs, s)
            | IVal v =>
                match r with
                | SRole x r' =>
                    let f := comm_field p x - 1 in
                    if callable p x then
                      match nth_error ss f, nth_error hs f with
                      | Some (Snd (PVal t) k), Some h => do_send th x ss r' hs f t v k h s
                      | _, _ => None
                      end
                    else None
                | _ => None
                end
            | ILabel l =>
                match r, choice_of p ss with
                | SBroadcast, Some b =>
                    if l <? labels b then
                      match make_choice p b l hs s with
                      | Some (pr, s1) => Some (Thread pr [] (t_round th) (t_log th), s1)
                      | None => Some (stuck th, s)
                      end
                    else None
                | _, _ => None
                end
            | ITau =>
                match r with
                | SRole x r' =>
                    let f := comm_field p x - 1 in
                    if callable p x then
                      match nth_error ss f, nth_error hs f with
                      | Some (Rcv (PVal t) k), Some h => do_recv th x ss r' hs f t k h s
                      | Some (Rcv (PChoice b j) End), Some h =>
                          if j =? p then do_offer p th x hs f b h s else None
                      | _, _ => None
                      end
                    else None
                | SEnd =>
                    if forallb is_end ss
                    then Some (Thread (PClose 0 0 hs) [] (t_round th) (t_log th ++ [EvClose]), s)
                    else None
                | _ => None
                end
            end
        | PChoose b l pend own =>
            match i, pend with
            | ICrash, _ => Some (fin th RCrash (held (PChoose b l pend own)), s)
            | ITau, (x, h, m) :: pend' => do_choose_send th b l x h m pend' own s
            | ITau, [] =>
                Some (Thread (PRun (fst (branch b l p)) (snd (branch b l p)) own) []
                             (Datatypes.S (t_round th)) (t_log th), s)
            | _, _ => None
            end
        | PClose a r hs =>
            match i with
            | ICrash => Some (fin th RCrash hs, s)
            | ITau => do_close th a r hs s
            | _ => None
            end
        end
    end.

  (** The whole session (mpst_seq_proc/src/common_functions/expand/fork.rs:17-169). *)
  Record state := State { st_store : S; st_thr : nat -> thread }.

  Definition set_thr (f : nat -> thread) (p : nat) (th : thread) : nat -> thread :=
    fun q => if q =? p then th else f q.

  (** One step: role p (1..n) does i (threads of mpst_seq_proc/src/common_functions/expand/fork.rs:85-107). *)
  Definition exec (p : nat) (i : inp) (st : state) : option state :=
    if (1 <=? p) && (p <=? n) then
      match tstep p i (st_thr st p) (st_store st) with
      | Some (th, s1) => Some (State s1 (set_thr (st_thr st) p th))
      | None => None
      end
    else None.

  (** [fork_mpst]: fork.rs:82-107: the channels, one MeshedChannels per role, one thread per role. *)
  Definition init (T : nat -> mty) (s : S) : state :=
    let '(pairs, s1) := alloc (pair_types (fork_vars n) T) s in
    State s1 (fun p =>
      match fork_mesh n p with
      | Some es =>
          match pick_all pairs es with
          | Some hs => Thread (PRun (fst (T p)) (snd (T p)) hs) [] 0 []
          | None => Thread (PStuck []) [] 0 []
          end
      | None => Thread (PStuck []) [] 0 []
      end).

  (** Executions (threads of mpst_seq_proc/src/common_functions/expand/fork.rs:85-107). *)
  Inductive steps : state -> list (nat * inp) -> state -> Prop :=
  | steps_nil : forall st, steps st [] st
  | steps_cons : forall st p i st1 tr st2,
      exec p i st = Some st1 -> steps st1 tr st2 -> steps st ((p, i) :: tr) st2.
End Machine.
