(** n roles with timed operations: the machine of Mesh.v where every send and receive of a role goes
    through the window tests of Timed.v. Model only; proofs are in TimedMeshProofs.v.

    A thread has its own clocks and its own readings of the system clock ([now p k] is the k-th reading
    made by role p; nothing is assumed about them here). The window tests, the resets and the readings
    are local; the channel action is the corresponding step of Mesh.v, and the step of the timed
    machine happens at the moment of the channel action. *)
From Coq Require Import List Arith ZArith Bool.
From Verif Require Import Types Wiring Session Mesh Timed.
Import ListNotations.
Open Scope nat_scope.

(** What a thread may do: as in Mesh.v; give up waiting; or start a clock
    ([all_clocks.insert(c, Instant::now())], user code, e.g. examples/atmp/calculator.rs:79; the
    generated functions do it too,
    src/top_down_nuscr/auxiliary_objects/code_generate/fn_endpoints.rs:43). *)
Inductive tinp := TIn (i : inp) | TTimeout | TClock (c : nat).

Section TimedMachine.
  Context {S H : Type}.
  Variable O : ops S H.
  Variable n : nat.
  Variable branch : nat -> nat -> nat -> mty.
  (** The windows of the sessions of a MeshedChannels, field by field, in order: the const parameters
      of SendTimed and RecvTimed (src/binary_atmp/struct_trait/send.rs:24-52, recv.rs:24-51). *)
  Variable branchw : nat -> nat -> nat -> list (list window).
  Variable labels : nat -> nat.
  Variable now : nat -> nat -> Z.

  (** A thread: as in Mesh.v, the windows of its sessions, its clocks
      (mpst_seq_proc/src/common_functions/expand/fork.rs:244-266), the number of its next reading, the
      clocks to reset after a choice (mpst_seq_proc/src/choose_atmp_mpst_multi_to_all.rs:217), and
      whether it is panicking (it drops what it holds and does nothing else). *)
  Record tthread := TThread {
    tm_thr : @thread H;
    tm_wins : list (list window);
    tm_clocks : clocks;
    tm_next : nat;
    tm_todo : list nat;
    tm_dead : bool
  }.

  (** The window [' ', -2, false, -1, false, ' '] that the generator gives to choices
      (src/top_down_nuscr/auxiliary_objects/process_line.rs:258, 280): no bound. It also stands for windows that are missing
      from [branchw]. *)
  Definition free_window : window := Window no_reset (-2) false (-1) false no_reset.
  Definition head_window (f : nat) (wins : list (list window)) : window := hd free_window (nth f wins []).
  Definition pop_window (f : nat) (wins : list (list window)) : list (list window) :=
    set_nth f (tl (nth f wins [])) wins.

  (** The channel action is done by Mesh.v; the tests are run with a channel that answers at once
      (src/binary_atmp/send.rs:53-68, 164-177). *)
  Definition ready_timeout : Z -> Z -> bool * Z := fun _ t => (true, t).
  Definition ready_block : Z -> option (bool * Z) := fun t => Some (true, t).

  (** A step of Mesh.v; sends that fail panic (src/binary_atmp/send.rs:64-67). *)
  Definition mesh (p : nat) (i : inp) (tt : tthread) (s : S) : option (@thread H * S) :=
    tstep O n branch labels true p i (tm_thr tt) s.
  Definition lift (tt : tthread) (r : option (@thread H * S)) : option (tthread * S) :=
    match r with
    | Some (th, s1) => Some (TThread th (tm_wins tt) (tm_clocks tt) (tm_next tt) (tm_todo tt) (tm_dead tt), s1)
    | None => None
    end.

  (** A timed operation with result r if the channel answers: tests refused (the thread drops all and
      ends); the channel action [i] fails; it works, and then the reset may panic
      (src/binary_atmp/send.rs:50-89, recv.rs:48-85). *)
  Definition timed_op (r : Timed.result) (p : nat) (i : inp) (tt : tthread) (s : S)
             (wins : list (list window)) (todo : list nat) : option (tthread * S) :=
    if r_handed r then
      match mesh p i tt s with
      | None => None
      | Some (th, s1) =>
          match t_prog th with
          | PFin _ | PStuck _ => lift tt (Some (th, s1))
          | _ =>
              match r_out r with
              | Timed.Ok => Some (TThread th wins (r_clocks r) (r_next r) todo false, s1)
              | _ => Some (TThread th wins (r_clocks r) (r_next r) todo true, s1)
              end
          end
      end
    else lift tt (mesh p ICrash tt s).

  (** The label that an offer is about to receive
      (mpst_seq_proc/src/baking_atmp/baking_atmp_with_enum_and_cancel.rs:203-217). *)
  Definition label_of (hs : list H) (f : nat) (s : S) : nat :=
    match nth_error hs f with
    | Some h => match op_recv O h s with Got (VLabel _ l _) _ _ _ => l | _ => 0 end
    | None => 0
    end.

  (** One step of role p. Generated timed send and recv:
      mpst_seq_proc/src/common_functions/expand/send.rs:246-291, recv.rs:437-482; offer_mpst! with clocks:
      mpst_seq_proc/src/baking_atmp/baking_atmp_with_enum_and_cancel.rs:203-218 (recv, then [s.cancel()],
      which drops the rest: expand/cancel.rs:37-40); the sends of a timed choice and the
      resets after them: choose_atmp_mpst_multi_to_all.rs:148-166, 217-229; close is the untimed one:
      expand/close_atmp.rs:6-65. [recv_timeout] gives up only while the channel is empty; a
      [send_timeout] never waits on these channels (C14), so no step gives up a send. *)
  Definition ttstep (p : nat) (i : tinp) (tt : tthread) (s : S) : option (tthread * S) :=
    let th := tm_thr tt in
    let m := tm_clocks tt in
    let k := tm_next tt in
    match t_trash th with
    | _ :: _ => match i with TIn ITau => lift tt (mesh p ITau tt s) | _ => None end
    | [] =>
        if tm_dead tt then
          match i with TIn ITau => lift tt (mesh p ICrash tt s) | _ => None end
        else
          match i with
          | TIn ICrash => lift tt (mesh p ICrash tt s)
          | TClock c =>
              match t_prog th with
              | PFin _ | PStuck _ => None
              | _ => Some (TThread th (tm_wins tt) (set_clock m c (now p k)) (Datatypes.S k) (tm_todo tt) false, s)
              end
          | _ =>
              match t_prog th with
              | PRun ss (SRole x r') hs =>
                  let f := comm_field p x - 1 in
                  let w := head_window f (tm_wins tt) in
                  if callable n p x then
                    match nth_error ss f, i with
                    | Some (Snd (PVal _) _), TIn (IVal v) =>
                        timed_op (tsend (now p) ready_timeout ready_block w m k) p (IVal v) tt s
                                 (pop_window f (tm_wins tt)) []
                    | Some (Rcv (PVal _) _), TIn ITau =>
                        timed_op (trecv (now p) ready_timeout ready_block w m k) p ITau tt s
                                 (pop_window f (tm_wins tt)) []
                    | Some (Rcv (PChoice b j) End), TIn ITau =>
                        if j =? p then
                          timed_op (trecv (now p) ready_timeout ready_block w m k) p ITau tt s
                                   (branchw b (label_of hs f s) p) []
                        else None
                    | Some (Rcv _ _), TTimeout =>
                        if r_handed (trecv (now p) ready_timeout ready_block w m k) && (0 <=? w_end w)%Z then
                          match mesh p ITau tt s with
                          | None => lift tt (mesh p ICrash tt s)
                          | Some _ => None
                          end
                        else None
                    | _, _ => None
                    end
                  else None
              | PRun _ SEnd _ =>
                  match i with TIn ITau => lift tt (mesh p ITau tt s) | _ => None end
              | PRun _ SBroadcast _ =>
                  match i with TIn (ILabel l) => lift tt (mesh p (ILabel l) tt s) | _ => None end
              | PChoose b l ((x, h, ms) :: pend) own =>
                  let w := head_window 0 (tm_wins tt) in
                  match i with
                  | TIn ITau =>
                      timed_op (tsend_without_reset (now p) ready_timeout ready_block w m k) p ITau tt s
                               (tl (tm_wins tt))
                               (if Nat.eqb (w_reset w) no_reset then tm_todo tt else tm_todo tt ++ [w_reset w])
                  | _ => None
                  end
              | PChoose b l [] own =>
                  match i with
                  | TIn ITau =>
                      match reset_all (now p) (tm_todo tt) m k with
                      | (Timed.Ok, m', k') =>
                          match mesh p ITau tt s with
                          | Some (th', s1) => Some (TThread th' (branchw b l p) m' k' [] false, s1)
                          | None => None
                          end
                      | _ => lift tt (mesh p ICrash tt s)
                      end
                  | _ => None
                  end
              | PClose _ _ _ =>
                  match i with TIn ITau => lift tt (mesh p ITau tt s) | _ => None end
              | _ => None
              end
          end
    end.

  (** The whole session (mpst_seq_proc/src/common_functions/expand/fork.rs:244-266). *)
  Record tstate := TState { ts_store : S; ts_thr : nat -> tthread }.

  Definition texec (p : nat) (i : tinp) (st : tstate) : option tstate :=
    if (1 <=? p) && (p <=? n) then
      match ttstep p i (ts_thr st p) (ts_store st) with
      | Some (th, s1) => Some (TState s1 (fun q => if q =? p then th else ts_thr st q))
      | None => None
      end
    else None.

  (** fork_mpst with timed types: expand/fork.rs:172-328; no clock exists at the start (fork.rs:258). *)
  Definition tinit (T : nat -> mty) (W : nat -> list (list window)) (s : S) : tstate :=
    let st := init O n T s in
    TState (st_store st) (fun p => TThread (st_thr st p) (W p) (fun _ => None) 0 [] false).

  Inductive tsteps : tstate -> list (nat * tinp) -> tstate -> Prop :=
  | tsteps_nil : forall st, tsteps st [] st
  | tsteps_cons : forall st p i st1 tr st2,
      texec p i st = Some st1 -> tsteps st1 tr st2 -> tsteps st ((p, i) :: tr) st2.
End TimedMachine.
Arguments tm_thr {H}. Arguments tm_wins {H}. Arguments tm_clocks {H}. Arguments tm_next {H}. Arguments tm_todo {H}.
Arguments tm_dead {H}. Arguments TThread {H}. Arguments ts_store {S H}. Arguments ts_thr {S H}. Arguments TState {S H}.
