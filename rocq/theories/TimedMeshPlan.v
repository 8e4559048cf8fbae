(** Timetables of a global protocol and runs that keep them: specification of C51.

    A timetable says, for one way through the protocol, when every message is sent and when it is
    received. The windows are those of the types, the clocks those of each role
    (mpst_seq_proc/src/common_functions/expand/fork.rs:248-263; fn_endpoints.rs:43 starts them at the beginning of
    every function). *)
From Coq Require Import List Arith ZArith Bool.
From Verif Require Import Types Wiring Session Mesh Timed TimedProofs TimedMesh Global.
Import ListNotations.
Open Scope nat_scope.

(** ** Runs with one real time *)

Definition put_at {A} (f : nat -> A) (r : nat) (v : A) : nat -> A := fun x => if x =? r then v else f x.

Section OnClock.
  Context {S H : Type}.
  Variable O : ops S H.
  Variable n : nat.
  Variable branch : nat -> nat -> nat -> mty.
  Variable branchw : nat -> nat -> nat -> list (list window).
  Variable labels : nat -> nat.
  Variable now : nat -> nat -> Z.
  (** The clocks that the functions of a role start. *)
  Variable cs : nat -> list nat.

  (** When a role enters a round it starts its clocks, in the order of [cs], before anything else, and it never
      starts a clock otherwise; [left] are the clocks each role has still to start. *)
  Definition turn (p : nat) (i : tinp) (st : @tstate S H) (left : nat -> list nat) : Prop :=
    match i with
    | TClock c => hd_error (left p) = Some c
    | _ => t_trash (tm_thr (ts_thr st p)) = [] -> left p = []
    end.
  Definition left_after (p : nat) (i : tinp) (st st1 : @tstate S H) (left : nat -> list nat) : nat -> list nat :=
    put_at left p
      match i with
      | TClock _ => tl (left p)
      | _ => if t_round (tm_thr (ts_thr st1 p)) =? t_round (tm_thr (ts_thr st p)) then left p else cs p
      end.

  (** Every step happens at one instant, not before the step before it; all readings of the system clock that
      it makes return that instant. The run starts at [v] and the last step happens at [v']. *)
  Inductive on_clock : (nat -> list nat) -> Z -> @tstate S H -> list (nat * tinp) -> @tstate S H -> Z -> Prop :=
  | on_clock_nil left v st : on_clock left v st [] st v
  | on_clock_cons left v u st p i st1 tr st2 v' :
      (v <= u)%Z -> texec O n branch branchw labels now p i st = Some st1 ->
      (forall k, tm_next (ts_thr st p) <= k < tm_next (ts_thr st1 p) -> now p k = u) ->
      turn p i st left ->
      on_clock (left_after p i st st1 left) u st1 tr st2 v' -> on_clock left v st ((p, i) :: tr) st2 v'.
End OnClock.

(** ** Timetables *)

(** A message, its window, when it is sent and when it is received. *)
Record entry := Entry { e_msg : message; e_win : window; e_sent : Z; e_got : Z }.

(** The clocks of a role after it has done something with window w at instant v. *)
Definition again (w : window) (v : Z) (start : nat -> Z) : nat -> Z :=
  fun c => if negb (w_reset w =? no_reset) && (c =? w_reset w) then v else start c.

(** The messages are done in time: no role does something before what it did last, nothing is received
    before it was sent, and both sides pass the tests of the window on their own clock. [last r] is when
    role r did something last, [start r c] when its clock c was started. *)
Fixpoint keeps (last : nat -> Z) (start : nat -> nat -> Z) (es : list entry) : Prop :=
  match es with
  | [] => True
  | e :: es' =>
      let a := from (e_msg e) in let b := into (e_msg e) in let w := e_win e in
      (last a <= e_sent e)%Z /\ (last b <= e_got e)%Z /\ (e_sent e <= e_got e)%Z /\
      well_inside w (elapsed (e_sent e) (start a (w_clock w))) /\
      well_inside w (elapsed (e_got e) (start b (w_clock w))) /\
      keeps (put_at (put_at last a (e_sent e)) b (e_got e))
            (put_at (put_at start a (again w (e_sent e) (start a))) b (again w (e_got e) (start b))) es'
  end.

(** The windows of role p, field by field: those of its messages with the other role, in order, and no
    bound for a choice. *)
Definition concerns (p q : nat) (m : message) : bool :=
  (from m =? p) && (into m =? q) || (from m =? q) && (into m =? p).
Definition field_windows (p q : nat) (es : list entry) (e : finale) : list window :=
  map e_win (filter (fun x => concerns p q (e_msg x)) es) ++
  match e with GEnd => [] | GChoose c _ => if (p =? c) || (q =? c) then [free_window] else [] end.
Definition windows_of (n p : nat) (es : list entry) (e : finale) : list (list window) :=
  map (fun i => field_windows p (other p i) es e) (seq 1 (n - 1)).

(** The rounds of a protocol when the choices are [pick 0], [pick 1], ... *)
Fixpoint path (P : protocol) (pick : nat -> nat) (g : nat) : round :=
  match g with
  | 0 => first_round P
  | S g' => match snd (path P pick g') with GEnd => ([], GEnd) | GChoose _ b => body P b (pick g') end
  end.

(** A timetable for the rounds 0 .. last of the path: round g starts at [base g], when all roles start
    their clocks [cs p], and ends at [base (g + 1)]. Both bounds of every window are natural numbers that
    fit in u64; the clocks are started. *)
Record timetable (n : nat) (labels : nat -> nat) (P : protocol) (W : nat -> list (list window))
    (BW : nat -> nat -> nat -> list (list window)) (cs : nat -> list nat) (last : nat) (pick : nat -> nat)
    (base : nat -> Z) (plan : nat -> list entry) : Prop := Timetable {
  ti_end : snd (path P pick last) = GEnd;
  ti_pick : forall g, g < last -> exists c b, snd (path P pick g) = GChoose c b /\ pick g < labels b;
  ti_messages : forall g, g <= last -> map e_msg (plan g) = fst (path P pick g);
  ti_base : forall g, g <= last -> (base g <= base (S g))%Z;
  ti_keeps : forall g, g <= last -> keeps (fun _ => base g) (fun _ _ => base g) (plan g);
  ti_in : forall g e, g <= last -> In e (plan g) -> (e_sent e <= base (S g))%Z /\ (e_got e <= base (S g))%Z;
  ti_bounds : forall g e, g <= last -> In e (plan g) -> (0 <= w_start (e_win e) <= w_end (e_win e))%Z /\ (w_end (e_win e) <= u64_max)%Z;
  ti_clocks : forall g e p, g <= last -> In e (plan g) -> p = from (e_msg e) \/ p = into (e_msg e) ->
    In (w_clock (e_win e)) (cs p) /\ (w_reset (e_win e) = no_reset \/ In (w_reset (e_win e)) (cs p));
  ti_first : forall p, 1 <= p <= n -> W p = windows_of n p (plan 0) (snd (path P pick 0));
  ti_next : forall g p c b, g < last -> 1 <= p <= n -> snd (path P pick g) = GChoose c b ->
    BW b (pick g) p = windows_of n p (plan (S g)) (snd (path P pick (S g)))
}.
