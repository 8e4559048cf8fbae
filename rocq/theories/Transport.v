(** * Binary sessions with a TCP stream or a UDP socket beside the channel

    Model of src/transport/tcp and src/transport/udp.  [fork_tcp] connects to a
    server and gives each of its two threads a clone of the same stream;
    [send_tcp] passes the value through the channel of the session and then
    writes 128 bytes to the stream; [recv_tcp] takes the value from the channel
    and then reads 128 bytes from the stream, that is, from the server.  The
    channels are those of the binary machine (Binary.v, Mesh.v with two roles);
    the functions [choose_tcp!] and [offer_tcp!] only use the channel
    (src/transport/tcp/choose.rs:18-26, offer.rs:18-33).  Model only. *)
From Coq Require Import List Arith Bool.
From Verif Require Import Types Session Mesh MeshSpec Global Binary.
Import ListNotations.

(** [type TcpData = \[u8; 128\]]: src/transport/tcp/send.rs:15, recv.rs:14; [UdpData]:
    src/transport/udp/send.rs:14, recv.rs:13. *)
Definition bytes : Type := list nat.
Definition size : nat := 128.
(** [let mut data = \[0_u8; 128\]]: tcp/recv.rs:38, udp/recv.rs:37. *)
Definition zeros : bytes := repeat 0 size.

(** The communications of data in a log: [true] for a send, [false] for a receive
    (specification only; src/transport/tcp/send.rs:38-52, recv.rs:36-47). *)
Definition data_op (e : event) : list bool :=
  match e with
  | EvSend _ _ (VData _ _) => [true]
  | EvRecv _ _ (VData _ _) => [false]
  | _ => []
  end.
Definition data_ops (log : list event) : list bool := flat_map data_op log.

(** Where a thread is in [send_tcp] or [recv_tcp]: not in the part about the stream; in
    [stream.write_all(data)] with these bytes left (tcp/send.rs:45); in [stream.read_exact(&mut data)]
    with these bytes read (tcp/recv.rs:42). *)
Inductive io := IoNone | IoWrite (rest : bytes) | IoRead (got : bytes).

(** The connection: all bytes that the threads wrote, all bytes that the server sent, how many of these
    were read (by either thread: the clones of [try_clone], tcp/fork.rs:34, share the socket), and
    whether it is shut down. *)
Record net := Net { n_up : bytes; n_down : bytes; n_pos : nat; n_shut : bool }.

Record xstate := XState {
  x_st : @state heap ep;
  x_net : net;
  x_io : nat -> io;
  x_data : nat -> list bytes   (* observations: the data of each operation, as given to send or as returned by recv *)
}.

(** One of the two threads (tcp/fork.rs:28-49) changes. *)
Definition set_at {A} (f : nat -> A) (p : nat) (x : A) : nat -> A := fun q => if q =? p then x else f q.

(** A role does a step of the binary machine (with these data if it sends); it writes or reads m bytes;
    its write or read fails; the server sends bytes; the connection breaks
    (tcp/send.rs:38-52, recv.rs:36-47; what the operating system does behind tcp/fork.rs:28-49). *)
Inductive xinp :=
| XDo (p : nat) (i : inp) (d : bytes)
| XWrite (p m : nat)
| XRead (p m : nat)
| XFail (p : nat)
| XServer (bs : bytes)
| XBreak.

Section Machine.
  Variable branch : nat -> nat -> nat -> mty.
  Variable labels : nat -> nat.
  (** The argument [tcp] of the k-th communication of role p, and of its close. *)
  Variable tcp : nat -> nat -> bool.
  Variable close_flag : nat -> bool.

  (** [send_tcp] panics if the channel is closed (tcp/send.rs:51): the strict machine. *)
  Definition step2 (p : nat) (i : inp) (st : @state heap ep) : option (@state heap ep) :=
    exec heap_ops 2 branch labels true p i st.

  (** The thread has left [close_tcp] with Ok (tcp/close.rs:24-25). *)
  Definition finished_ok (st : @state heap ep) (p : nat) : bool :=
    match t_prog (st_thr st p) with PFin ROk => true | _ => false end.

  (** The part of [send_tcp], [recv_tcp] and [close_tcp] in the thread that just made a step of the
      channel: tcp/send.rs:39-50, recv.rs:37-46, close.rs:23-34 (shutdown of both directions after the
      signals). *)
  Definition begin_io (p : nat) (d : bytes) (st' : @state heap ep) (x : xstate) : option xstate :=
    let old := data_ops (t_log (st_thr (x_st x) p)) in
    let new := data_ops (t_log (st_thr st' p)) in
    let k := length old in
    match skipn k new with
    | [] =>
        let net' := if finished_ok st' p && close_flag p
                    then Net (n_up (x_net x)) (n_down (x_net x)) (n_pos (x_net x)) true
                    else x_net x in
        Some (XState st' net' (x_io x) (x_data x))
    | true :: _ =>
        if length d =? size then
          Some (XState st' (x_net x) (set_at (x_io x) p (if tcp p k then IoWrite d else IoNone))
                       (set_at (x_data x) p (x_data x p ++ [d])))
        else None
    | false :: _ =>
        if tcp p k
        then Some (XState st' (x_net x) (set_at (x_io x) p (IoRead [])) (x_data x))
        else Some (XState st' (x_net x) (x_io x) (set_at (x_data x) p (x_data x p ++ [zeros])))
    end.

  (** Bytes k to k+m-1: what a read takes from the stream (tcp/recv.rs:42). *)
  Definition slice (k m : nat) (l : bytes) : bytes := firstn m (skipn k l).

  (** One step: tcp/send.rs:38-52, recv.rs:36-47, close.rs:23-34, cancel.rs:40-44. *)
  Definition xexec (a : xinp) (x : xstate) : option xstate :=
    let n := x_net x in
    match a with
    | XDo p i d =>
        match x_io x p, step2 p i (x_st x) with
        | IoNone, Some st' => begin_io p d st' x
        | _, _ => None
        end
    (* [write_all]: as many bytes at a time as the socket accepts *)
    | XWrite p m =>
        match x_io x p with
        | IoWrite rest =>
            if negb (n_shut n) && (1 <=? m) && (m <=? length rest) then
              let left := skipn m rest in
              Some (XState (x_st x) (Net (n_up n ++ firstn m rest) (n_down n) (n_pos n) (n_shut n))
                           (set_at (x_io x) p (match left with [] => IoNone | _ => IoWrite left end)) (x_data x))
            else None
        | _ => None
        end
    (* [read_exact]: as many bytes at a time as the socket has, until there are 128 *)
    | XRead p m =>
        match x_io x p with
        | IoRead got =>
            if negb (n_shut n) && (1 <=? m) && (length got + m <=? size) && (n_pos n + m <=? length (n_down n)) then
              let got' := got ++ slice (n_pos n) m (n_down n) in
              let n' := Net (n_up n) (n_down n) (n_pos n + m) (n_shut n) in
              if length got' =? size
              then Some (XState (x_st x) n' (set_at (x_io x) p IoNone) (set_at (x_data x) p (x_data x p ++ [got'])))
              else Some (XState (x_st x) n' (set_at (x_io x) p (IoRead got')) (x_data x))
            else None
        | _ => None
        end
    (* an error of [write_all] or [read_exact] leaves the function ([?]) and the thread *)
    | XFail p =>
        match x_io x p with
        | IoNone => None
        | _ =>
            if n_shut n then
              match step2 p ICrash (x_st x) with
              | Some st' => Some (XState st' n (set_at (x_io x) p IoNone) (x_data x))
              | None => None
              end
            else None
        end
    | XServer bs =>
        match bs with
        | [] => None
        | _ => Some (XState (x_st x) (Net (n_up n) (n_down n ++ bs) (n_pos n) (n_shut n)) (x_io x) (x_data x))
        end
    (* the server closes, the network fails, or a thread calls [cancel_tcp] (tcp/cancel.rs:40-44) after
       its step [ICrash] *)
    | XBreak => Some (XState (x_st x) (Net (n_up n) (n_down n) (n_pos n) true) (x_io x) (x_data x))
    end.

  (** [fork_tcp]: tcp/fork.rs:28-49, after a successful [connect]. *)
  Definition xstart (T : nat -> mty) : xstate :=
    XState (init heap_ops 2 T empty_heap) (Net [] [] 0 false) (fun _ => IoNone) (fun _ => []).

  (** Runs in which the server keeps a condition (tcp/fork.rs:28-49). *)
  Inductive xruns (srv : net -> Prop) : xstate -> list xinp -> xstate -> Prop :=
  | xruns_nil : forall x, xruns srv x [] x
  | xruns_cons : forall x a x1 tr x2,
      xexec a x = Some x1 -> srv (x_net x1) -> xruns srv x1 tr x2 -> xruns srv x (a :: tr) x2.
End Machine.

(** A server that sends back what it gets (as in tests/tcp/binary.rs, [handle_client]); what it has not sent
    back yet is still under way. *)
Definition echo (n : net) : Prop := exists rest, n_up n = n_down n ++ rest.

(** ** UDP *)

(** The socket: all datagrams that the threads sent, all datagrams that arrived from the server, and how
    many of these were taken (the clones of [try_clone], udp/fork.rs:37, share the socket). *)
Record unet := UNet { u_up : list bytes; u_down : list bytes; u_pos : nat }.
(** Where a thread is: not in the part about the socket; before [socket.send(data)] (udp/send.rs:40);
    in [socket.recv(&mut data)] (udp/recv.rs:39). *)
Inductive uio := UNone | USend (d : bytes) | URecv.
Record ustate := UState {
  u_st : @state heap ep;
  u_net : unet;
  u_io : nat -> uio;
  u_data : nat -> list bytes   (* as [x_data] *)
}.
(** A role does a step of the binary machine (with these data if it sends); it sends or takes a datagram
    (udp/send.rs:40, recv.rs:39); the server sends one. *)
Inductive uinp :=
| UDo (p : nat) (i : inp) (d : bytes)
| USent (p : nat)
| UTake (p : nat)
| UServer (dg : bytes).

(** [socket.recv(&mut data)] with [data] of 128 zeros: a longer datagram is cut, a shorter one leaves the rest
    as it was (udp/recv.rs:37-41). *)
Definition into_data (dg : bytes) : bytes := firstn size dg ++ repeat 0 (size - length dg).

Section Udp.
  Variable branch : nat -> nat -> nat -> mty.
  Variable labels : nat -> nat.
  (** The argument [udp] of the k-th communication of role p. *)
  Variable udp : nat -> nat -> bool.

  (** udp/send.rs:36-47, recv.rs:36-42 after the step of the channel; sessions end with [close] of
      src/binary/close.rs. Errors of the socket are not modelled. *)
  Definition begin_uio (p : nat) (d : bytes) (st' : @state heap ep) (u : ustate) : option ustate :=
    let old := data_ops (t_log (st_thr (u_st u) p)) in
    let new := data_ops (t_log (st_thr st' p)) in
    let k := length old in
    match skipn k new with
    | [] => Some (UState st' (u_net u) (u_io u) (u_data u))
    | true :: _ =>
        if length d =? size then
          Some (UState st' (u_net u) (set_at (u_io u) p (if udp p k then USend d else UNone))
                       (set_at (u_data u) p (u_data u p ++ [d])))
        else None
    | false :: _ =>
        if udp p k
        then Some (UState st' (u_net u) (set_at (u_io u) p URecv) (u_data u))
        else Some (UState st' (u_net u) (u_io u) (set_at (u_data u) p (u_data u p ++ [zeros])))
    end.

  (** One step: udp/send.rs:35-47, recv.rs:36-42. *)
  Definition uexec (a : uinp) (u : ustate) : option ustate :=
    let n := u_net u in
    match a with
    | UDo p i d =>
        match u_io u p, step2 branch labels p i (u_st u) with
        | UNone, Some st' => begin_uio p d st' u
        | _, _ => None
        end
    | USent p =>
        match u_io u p with
        | USend d => Some (UState (u_st u) (UNet (u_up n ++ [d]) (u_down n) (u_pos n)) (set_at (u_io u) p UNone) (u_data u))
        | _ => None
        end
    | UTake p =>
        match u_io u p, nth_error (u_down n) (u_pos n) with
        | URecv, Some dg => Some (UState (u_st u) (UNet (u_up n) (u_down n) (u_pos n + 1)) (set_at (u_io u) p UNone)
                                         (set_at (u_data u) p (u_data u p ++ [into_data dg])))
        | _, _ => None
        end
    | UServer dg => Some (UState (u_st u) (UNet (u_up n) (u_down n ++ [dg]) (u_pos n)) (u_io u) (u_data u))
    end.

  (** [fork_udp]: udp/fork.rs:30-53, after a successful [bind] and [connect]. *)
  Definition ustart (T : nat -> mty) : ustate :=
    UState (init heap_ops 2 T empty_heap) (UNet [] [] 0) (fun _ => UNone) (fun _ => []).

  Inductive uruns (srv : unet -> Prop) : ustate -> list uinp -> ustate -> Prop :=
  | uruns_nil : forall u, uruns srv u [] u
  | uruns_cons : forall u a u1 tr u2,
      uexec a u = Some u1 -> srv (u_net u1) -> uruns srv u1 tr u2 -> uruns srv u (a :: tr) u2.
End Udp.

(** Every datagram comes back, in order; every datagram that comes back was sent (it may be lost,
    repeated or overtaken) (specification only; the server of udp/fork.rs:30-53). *)
Definition uecho (n : unet) : Prop := exists rest, u_up n = u_down n ++ rest.
Definition ulossy (n : unet) : Prop := forall dg, In dg (u_down n) -> In dg (u_up n).
