(** Timed send and recv (src/binary_atmp/send.rs, recv.rs) and timed choices. Model only.

    Time is measured in nanoseconds (Z). The code reads the system clock several times during one
    operation ([Instant::now] inside [elapsed], inside [send_timeout]/[recv_timeout] and when a
    clock is reset). [now k] is the value returned by the k-th reading; every operation gets the
    number of the next reading and returns the next unused number. *)
From Coq Require Import List ZArith Bool.
From Verif Require Import Types.
Import ListNotations.
Open Scope Z_scope.

Definition second : Z := 1000000000.

(** [HashMap<char, Instant>]: src/binary_atmp/send.rs:30. *)
Definition clocks := nat -> option Z.
Definition set_clock (m : clocks) (c : nat) (t : Z) : clocks :=
  fun x => if Nat.eqb x c then Some t else m x.

(** The blank char, "no reset": [s.reset != ' '], send.rs:52. *)
Definition no_reset : nat := 32%nat.

(** [u64::try_from(i128)]: send.rs:52; an error leaves the function through [?]. *)
Definition u64_max : Z := 18446744073709551615.
Definition u64_of (z : Z) : option Z :=
  if (0 <=? z) && (z <=? u64_max) then Some z else None.

(** [Instant::elapsed] (saturating) and [Duration::as_secs]: send.rs:52. *)
Definition elapsed (t c : Z) : Z := Z.max 0 (t - c).
Definition as_secs (d : Z) : Z := d / second.

Inductive reason :=
| WindowOrder       (* start after end: send.rs:38-41, recv.rs:37-39, send.rs:237-242 *)
| OutOfWindow       (* "Timeout for clock": send.rs:84 *)
| NoClock           (* "The clock .. is not available": send.rs:88 *)
| Underflow         (* Duration - Duration below zero: send.rs:56 *)
| BothNegative      (* "None of the bounds must be included ..": send.rs:147-151 *)
| ChannelFailed     (* error of the channel turned into a panic: send.rs:64-67 *)
| NoResetClock.     (* all_clocks.get_mut(&s.reset).unwrap(): send.rs:59 *)

Inductive err :=
| TryFrom           (* u64::try_from failed *)
| ChannelErr.       (* error of the channel returned: recv.rs:61-64 *)

Inductive outcome :=
| Ok
| Err (e : err)
| Panic (r : reason)
| Waiting.          (* a blocking send/recv that never returns *)

(** Result: outcome, clocks, was the message handed over (sent/taken from the channel), instant of
    the hand-over, next reading (src/binary_atmp/send.rs:19-424, recv.rs:19-409). *)
Record result := Result {
  r_out : outcome;
  r_clocks : clocks;
  r_handed : bool;
  r_at : Z;
  r_next : nat
}.

Section Operation.
  (** Readings of the system clock. *)
  Variable now : nat -> Z.
  (** Channel: [send_timeout d]/[recv_timeout d] called at instant t: success? and when it returns. *)
  Variable ch_timeout : Z -> Z -> bool * Z.
  (** [send]/[recv] called at instant t; [None]: never returns. *)
  Variable ch_block : Z -> option (bool * Z).

  (** Result of a window test: it may also leave through [?] (src/binary_atmp/send.rs:52). *)
  Inductive verdict := Yes | No | Bad.

  (** [u64::try_from(s.start)? <= own_clock.elapsed().as_secs()] (or [<]): send.rs:163, 201. *)
  Definition test_lo (w : window) (c : Z) (k : nat) : verdict * nat :=
    match u64_of (w_start w) with
    | None => (Bad, k)
    | Some a =>
        let e := as_secs (elapsed (now k) c) in
        (if (if w_incl_start w then a <=? e else a <? e) then Yes else No, S k)
    end.

  (** [own_clock.elapsed().as_secs() <= u64::try_from(s.end)?] (or [<]): send.rs:52, 96. *)
  Definition test_hi (w : window) (c : Z) (k : nat) : verdict * nat :=
    let e := as_secs (elapsed (now k) c) in
    match u64_of (w_end w) with
    | None => (Bad, S k)
    | Some b => (if (if w_incl_end w then e <=? b else e <? b) then Yes else No, S k)
    end.

  (** [lo && hi], short-circuit: send.rs:248-249. *)
  Definition test_both (w : window) (c : Z) (k : nat) : verdict * nat :=
    match test_lo w c k with
    | (Yes, k1) => test_hi w c k1
    | r => r
    end.

  Definition stop (o : outcome) (m : clocks) (k : nat) : result := Result o m false 0 k.

  (** After a successful hand-over: send.rs:58-63 (reset) or send.rs:76 (no reset). *)
  Definition finish (do_reset : bool) (w : window) (m : clocks) (at_ : Z) (k : nat) : result :=
    if do_reset then
      match m (w_reset w) with
      | None => Result (Panic NoResetClock) m true at_ k
      | Some _ => Result Ok (set_clock m (w_reset w) (now k)) true at_ (S k)
      end
    else Result Ok m true at_ k.

  (** An error of the channel: a send panics (send.rs:64-67), a recv returns it (recv.rs:61-64). *)
  Definition failed (sending : bool) (m : clocks) (k : nat) : result :=
    stop (if sending then Panic ChannelFailed else Err ChannelErr) m k.

  (** Transfer with timeout: [S::new] then [send_timeout(.., Duration::from_secs(end) - elapsed)]:
      send.rs:53-68; recv.rs:51-65. *)
  Definition transfer_timeout (sending do_reset : bool) (w : window) (m : clocks) (c : Z) (k : nat)
    : result :=
    match u64_of (w_end w) with
    | None => stop (Err TryFrom) m k
    | Some b =>
        let d := b * second - elapsed (now k) c in
        if d <? 0 then stop (Panic Underflow) m (S k)
        else match ch_timeout d (now (S k)) with
             | (true, t) => finish do_reset w m t (S (S k))
             | (false, _) => failed sending m (S (S k))
             end
    end.

  (** Blocking transfer: send.rs:164-177; recv.rs:157-169. *)
  Definition transfer_block (sending do_reset : bool) (w : window) (m : clocks) (k : nat) : result :=
    match ch_block (now k) with
    | None => stop Waiting m (S k)
    | Some (true, t) => finish do_reset w m t (S k)
    | Some (false, _) => failed sending m (S k)
    end.

  (** [if test && s.reset != ' ' { .. reset .. } else if test { .. } else { panic }] inside
      [if let Some(own_clock) = ..]: e.g. send.rs:50-89. *)
  Definition guarded (w : window) (m : clocks) (k : nat)
             (test : Z -> nat -> verdict * nat) (transfer : bool -> Z -> nat -> result) : result :=
    match m (w_clock w) with
    | None => stop (Panic NoClock) m k
    | Some c =>
        match test c k with
        | (Bad, k1) => stop (Err TryFrom) m k1
        | (v1, k1) =>
            if (match v1 with Yes => true | _ => false end) && negb (Nat.eqb (w_reset w) no_reset)
            then transfer true c k1
            else match test c k1 with
                 | (Bad, k2) => stop (Err TryFrom) m k2
                 | (Yes, k2) => transfer false c k2
                 | (No, k2) => stop (Panic OutOfWindow) m k2
                 end
        end
    end.

  (** [if test { .. } else { panic }] of send_without_reset: e.g. send.rs:454-474. *)
  Definition guarded_nr (w : window) (m : clocks) (k : nat)
             (test : Z -> nat -> verdict * nat) (transfer : bool -> Z -> nat -> result) : result :=
    match m (w_clock w) with
    | None => stop (Panic NoClock) m k
    | Some c =>
        match test c k with
        | (Bad, k1) => stop (Err TryFrom) m k1
        | (Yes, k1) => transfer false c k1
        | (No, k1) => stop (Panic OutOfWindow) m k1
        end
    end.

  (** Common shape of the three functions below the first check. [sending] distinguishes the error
      handling; [g] is [guarded] or [guarded_nr].
      send.rs:43-424, send.rs:447-679, recv.rs:41-409. With both bounds negative an error of the
      channel is a panic in recv too (recv.rs:134-137). *)
  Definition body (sending : bool)
             (g : (Z -> nat -> verdict * nat) -> (bool -> Z -> nat -> result) -> result)
             (w : window) (m : clocks) (k : nat) : result :=
    if w_start w <? 0 then
      if 0 <=? w_end w then
        g (test_hi w) (fun rst c k' => transfer_timeout sending rst w m c k')
      else
        if negb (w_incl_start w) && negb (w_incl_end w)
        then transfer_block true false w m k
        else stop (Panic BothNegative) m k
    else
      if w_end w <? 0 then
        g (test_lo w) (fun rst c k' => transfer_block sending rst w m k')
      else
        if w_end w <? w_start w then stop (Panic WindowOrder) m k
        else g (test_both w) (fun rst c k' => transfer_timeout sending rst w m c k').

  (** src/binary_atmp/send.rs:19-424 *)
  Definition tsend (w : window) (m : clocks) (k : nat) : result :=
    if w_end w <? w_start w then stop (Panic WindowOrder) m k
    else body true (guarded w m k) w m k.

  (** src/binary_atmp/send.rs:429-679 *)
  Definition tsend_without_reset (w : window) (m : clocks) (k : nat) : result :=
    body true (guarded_nr w m k) w m k.

  (** src/binary_atmp/recv.rs:19-409 *)
  Definition trecv (w : window) (m : clocks) (k : nat) : result :=
    if w_end w <? w_start w then stop (Panic WindowOrder) m k
    else body false (guarded w m k) w m k.
End Operation.

(** ** Timed choices *)

Section Choice.
  Variable now : nat -> Z.
  (** The channel to the i-th served receiver. *)
  Variable ch_timeout : nat -> Z -> Z -> bool * Z.
  Variable ch_block : nat -> Z -> option (bool * Z).

  (** Result of a choice: outcome, clocks, how many receivers were served, next reading
      (mpst_seq_proc/src/choose_atmp_mpst_multi_to_all.rs:217-229). *)
  Definition choice_result : Type := outcome * clocks * nat * nat.

  (** [for clock in clocks_to_reset]: mpst_seq_proc/src/choose_atmp_mpst_multi_to_all.rs:223-229. *)
  Fixpoint reset_all (cs : list nat) (m : clocks) (k : nat) : outcome * clocks * nat :=
    match cs with
    | [] => (Ok, m, k)
    | c :: rest =>
        match m c with
        | None => (Panic NoResetClock, m, k)
        | Some _ => reset_all rest (set_clock m c (now k)) (S k)
        end
    end.

  (** The sends of [choose_atmp_mpst_multi_to_all!]: one window per passive role, in order;
      choose_atmp_mpst_multi_to_all.rs:148-166. *)
  Fixpoint multi_sends (ws : list window) (i : nat) (m : clocks) (k : nat) : choice_result :=
    match ws with
    | [] => (Ok, m, i, k)
    | w :: rest =>
        let r := tsend_without_reset now (ch_timeout i) (ch_block i) w m k in
        match r_out r with
        | Ok => multi_sends rest (S i) (r_clocks r) (r_next r)
        | o => (o, r_clocks r, i, r_next r)
        end
    end.

  (** choose_atmp_mpst_multi_to_all.rs:190-238 *)
  Definition choose_multi (ws : list window) (m : clocks) (k : nat) : choice_result :=
    match multi_sends ws 0 m k with
    | (Ok, m1, i, k1) =>
        let '(o, m2, k2) :=
          reset_all (filter (fun c => negb (Nat.eqb c no_reset)) (map w_reset ws)) m1 k1 in
        (o, m2, i, k2)
    | r => r
    end.

  (** The sends of the generated timed choose_left/choose_right: ordinary [send], with reset, one
      receiver after the other; mpst_seq_proc/src/common_functions/expand/choose.rs:1567-1603. *)
  Fixpoint choose_baked_from (ws : list window) (i : nat) (m : clocks) (k : nat) : choice_result :=
    match ws with
    | [] => (Ok, m, i, k)
    | w :: rest =>
        let r := tsend now (ch_timeout i) (ch_block i) w m k in
        match r_out r with
        | Ok => choose_baked_from rest (S i) (r_clocks r) (r_next r)
        | o => (o, r_clocks r, i, r_next r)
        end
    end.
  Definition choose_baked (ws : list window) (m : clocks) (k : nat) : choice_result :=
    choose_baked_from ws 0 m k.
End Choice.
