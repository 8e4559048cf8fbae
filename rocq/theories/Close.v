(** The close functions, all variants, and [close_mpst_interleaved]. Model only.
    Every one of them first sends Stop on each of its [End]s, in order, and then receives on each, in the same order;
    they differ in what they do with errors and with signals other than Stop. *)
From Coq Require Import List Arith Bool.
From Verif Require Import Broadcast Wiring.
Import ListNotations.

(** [bounded::<Signal>(1)]: src/binary/struct_trait/end.rs:33-34. *)
Record chan := Chan { place1 : option bsig; tx : bool; rx : bool }.
Definition chans := nat -> chan.
Definition set_chan (h : chans) (c : nat) (x : chan) : chans := fun d => if d =? c then x else h d.

(** [End { sender, receiver }] (end.rs:11-16): the channels it sends on and receives from. *)
Definition ending : Type := (nat * nat)%type.

(** [Ok(())], [Err(_)], panic (src/binary/close.rs:10-18). *)
Inductive outcome := Fine | Error | Panic.

(** What distinguishes the variants: is a failing [send] ignored ([unwrap_or(())]) or returned ([?]);
    which signals are accepted (the others panic); what happens when [recv] fails
    (src/binary/close.rs:11-15 and the files cited at the four variants below). *)
Record variant := Variant { ignores : bool; accepts : bsig -> bool; on_recv_err : outcome }.

(** mpst_seq_proc/src/common_functions/expand/close.rs:13-33, close_atmp.rs:13-35; src/functionmpst/close.rs:62-72;
    src/binary/close.rs:11-15; src/interleaved/close.rs:26-56. *)
Definition close_method : variant :=
  Variant false (fun g => match g with Stop => true | _ => false end) Error.
(** mpst_seq_proc/src/macros_multiple/multiple/close/close_mpst.rs:44-61;
    mpst_seq_proc/src/interleaved/close_mpst_interleaved.rs:83-125. *)
Definition close_macro : variant := Variant true (fun _ => true) Error.
(** mpst_seq_proc/src/macros_multiple/multiple/close/close_mpst_cancel.rs:44-60; src/transport/tcp/close.rs:24-25. *)
Definition close_macro_cancel : variant := Variant false (fun _ => true) Error.
(** mpst_seq_proc/src/macros_multiple/multiple/close/close_mpst_check_cancel.rs:44-67. *)
Definition close_macro_check : variant :=
  Variant true (fun g => match g with Cancel => false | _ => true end) Panic.

(** Where the call is: before the [send] on end k, before the [recv] on end k, returned
    (src/binary/close.rs:11-12). *)
Inductive point := Sending (k : nat) | Receiving (k : nat) | Ended (o : outcome).

(** The channels, where the call is, the signals it received (newest first), and the number of sends that
    were delivered (src/binary/close.rs:10-18). *)
Record cstate := CState { heap_ : chans; pt : point; seen : list bsig; sent : nat }.

(** The [End]s are dropped when the call returns or unwinds ([drop(self)], close.rs:57; the macros at the end
    of the function body). *)
Definition drop_end (h : chans) (e : ending) : chans :=
  let h1 := set_chan h (fst e) (Chan (place1 (h (fst e))) false (rx (h (fst e)))) in
  set_chan h1 (snd e) (Chan None (tx (h1 (snd e))) false).
Definition drop_ends (es : list ending) (h : chans) : chans := fold_left drop_end es h.

(** One step; [None]: the call blocks, or it has ended
    (mpst_seq_proc/src/common_functions/expand/close.rs:13-33 and the files cited at the variants). *)
Definition cstep (v : variant) (es : list ending) (s : cstate) : option cstate :=
  let '(CState h p g m) := s in
  match p with
  | Sending k =>
      match nth_error es k with
      | None => Some (CState h (Receiving 0) g m)
      | Some (t, _) =>
          if rx (h t) then
            match place1 (h t) with
            | Some _ => None
            | None => Some (CState (set_chan h t (Chan (Some Stop) (tx (h t)) (rx (h t)))) (Sending (S k)) g (S m))
            end
          else if ignores v then Some (CState h (Sending (S k)) g m)
          else Some (CState (drop_ends es h) (Ended Error) g m)
      end
  | Receiving k =>
      match nth_error es k with
      | None => Some (CState (drop_ends es h) (Ended Fine) g m)
      | Some (_, r) =>
          match place1 (h r) with
          | Some x =>
              let h1 := set_chan h r (Chan None (tx (h r)) (rx (h r))) in
              if accepts v x then Some (CState h1 (Receiving (S k)) (x :: g) m)
              else Some (CState (drop_ends es h1) (Ended Panic) (x :: g) m)
          | None => if tx (h r) then None else Some (CState (drop_ends es h) (Ended (on_recv_err v)) g m)
          end
      end
  | Ended _ => None
  end.

(** The peers, on the other ends: send a signal into a free place, receive, drop
    (another [End], src/binary/struct_trait/end.rs:11-16, used by src/binary/close.rs:11-12, cancel.rs or any other code). *)
Inductive peers (es : list ending) : cstate -> cstate -> Prop :=
| PPut h p g m t r x : In (t, r) es -> place1 (h r) = None -> tx (h r) = true -> rx (h r) = true ->
    peers es (CState h p g m) (CState (set_chan h r (Chan (Some x) true true)) p g m)
| PDropTx h p g m t r : In (t, r) es ->
    peers es (CState h p g m) (CState (set_chan h r (Chan (place1 (h r)) false (rx (h r)))) p g m)
| PGet h p g m t r x : In (t, r) es -> place1 (h t) = Some x -> rx (h t) = true ->
    peers es (CState h p g m) (CState (set_chan h t (Chan None (tx (h t)) true)) p g m)
| PDropRx h p g m t r : In (t, r) es ->
    peers es (CState h p g m) (CState (set_chan h t (Chan None (tx (h t)) false)) p g m).

Inductive crun (v : variant) (es : list ending) (s : cstate) : cstate -> Prop :=
| CRStart : crun v es s s
| CRPeer s1 s2 : crun v es s s1 -> peers es s1 s2 -> crun v es s s2
| CROwn s1 s2 : crun v es s s1 -> cstep v es s1 = Some s2 -> crun v es s s2.

(** The call alone: at most fuel steps (src/binary/close.rs:10-18). *)
Fixpoint calone (v : variant) (es : list ending) (fuel : nat) (s : cstate) : cstate :=
  match fuel with
  | 0 => s
  | S f => match cstep v es s with Some s' => calone v es f s' | None => s end
  end.

(** The call begins (src/binary/close.rs:10-11). *)
Definition begin (h : chans) : cstate := CState h (Sending 0) [] 0.

(** ** The endpoints of one session with all types [End], in one thread

    Call number k of [End::new()] makes channels 2k and 2k+1 (end.rs:32-46). *)
Definition end_of (e : endp) : ending :=
  let '(k, b) := e in if b then (2 * k, 2 * k + 1) else (2 * k + 1, 2 * k).
Definition all_free : chans := fun _ => Chan None true true.

(** [fork_mpst_multi_solo]: mpst_seq_proc/src/interleaved/fork_mpst_multi_solo.rs:151-199, 244-264: the same channels and
    MeshedChannels as the ordinary fork, all given to one function. *)
Definition solo (n : nat) : option (list (list ending)) := option_map (map (map end_of)) (fork_threads n).

(** [close_mpst_interleaved]: all sends of s_1, s_2, ..., then all receptions (close_mpst_interleaved.rs:142-148). *)
Definition close_interleaved (v : variant) (ms : list (list ending)) (fuel : nat) (h : chans) : cstate :=
  calone v (concat ms) fuel (begin h).

(** The ordinary close of one endpoint after the other, in one thread ([?] between them)
    (mpst_seq_proc/src/common_functions/expand/close.rs:47-60, called once per endpoint). *)
Fixpoint close_in_turn (v : variant) (ms : list (list ending)) (fuel : nat) (h : chans) : cstate :=
  match ms with
  | [] => CState h (Ended Fine) [] 0
  | es :: ms' =>
      let s := calone v es fuel (begin h) in
      match pt s with Ended Fine => close_in_turn v ms' fuel (heap_ s) | _ => s end
  end.
