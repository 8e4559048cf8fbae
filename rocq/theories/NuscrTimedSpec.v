(** * A generated file as a timed system: specification of C48

    How the windows of the types of a generated file are read for the machine
    of TimedMesh.v.  Independent of the generator: only names and declarations
    of the file are used. *)

From Coq Require Import Ascii String ZArith Bool List.
From Verif Require Types Timed Session Mesh.
From Verif Require Import Checker Nuscr NuscrSpec NuscrGlobalSpec.
Import ListNotations.
Open Scope nat_scope.
Open Scope list_scope.

(** The value of a decimal text, and of the text of a const parameter. *)
Fixpoint decimal (v : Z) (w : str) : option Z :=
  match w with
  | [] => Some v
  | c :: w =>
      let n := nat_of_ascii c in
      if (48 <=? n) && (n <=? 57) then decimal (10 * v + Z.of_nat (n - 48)) w else None
  end.
Inductive const_as : str -> Z -> Prop :=
| ca_plus c w z : decimal 0 (c :: w) = Some z -> const_as (c :: w) z
| ca_minus c w z : decimal 0 (c :: w) = Some z -> const_as ("-"%char :: c :: w) (- z).

(** The windows of a session in order.  Clocks are [char]s
    (src/binary_atmp/struct_trait/send.rs:24-52, recv.rs:24-51). *)
Inductive windows_as : styp -> list Types.window -> Prop :=
| wa_end : windows_as SEnd []
| wa_timed d P c lo zlo loi hi zhi hii r k ws :
    const_as lo zlo -> const_as hi zhi -> windows_as k ws ->
    windows_as (STimed d P [c] lo loi hi hii [r] k)
      (Types.Window (nat_of_ascii c) zlo loi zhi hii (nat_of_ascii r) :: ws).

Section Read.
  Variable f : rust_file.
  Variable code : str -> nat.

  (** The windows of an endpoint, field by field. *)
  Definition endpoint_windows (e : endpoint) (W : list (list Types.window)) : Prop :=
    Forall2 (fun nm ws => exists y, session_is (types f) nm y /\ windows_as y ws) (ep_sessions e) W.

  Record timed_system_as (labels : nat -> nat) (T : nat -> Mesh.mty) (B : nat -> nat -> nat -> Mesh.mty)
    (W : nat -> list (list Types.window)) (BW : nat -> nat -> nat -> list (list Types.window)) : Prop :=
    TimedSystem {
    tsys_types : system_as f code labels T B;
    tsys_start : forall k a, role_number f k a ->
      exists e, In e (endpoint_types f) /\ ep_name e = endpoint_name (lit "0") a /\ endpoint_windows e (W k);
    tsys_branches : forall l k a, l < labels 0 -> role_number f k a ->
      exists e, In e (endpoint_types f) /\ ep_name e = endpoint_name (lit "0_" ++ num l) a /\
        endpoint_windows e (BW 0 l k)
  }.
End Read.

(** ** The windows a protocol asks for *)

(** The clocks and the clocks to reset are letters. *)
Definition letter_clocks (p : proto) : Prop :=
  forall i m, part p i -> In m (part_messages p i) ->
    (exists c, clock m = [c]) /\ (forall r, reset m = Some r -> exists c, r = [c]).

(** The window of a message. *)
Definition letter (w : str) : nat := match w with c :: _ => nat_of_ascii c | [] => 0 end.
Definition bound (w : str) : Z := match decimal 0 w with Some z => z | None => 0 end.
Definition window_of (m : msg) : Types.window :=
  Types.Window (letter (clock m)) (bound (lb m)) (li m) (bound (rb m)) (ri m)
    (match reset m with Some r => letter r | None => Timed.no_reset end).
(** No bound, no clock to reset: the window of a choice. *)
Definition no_window : Types.window := Types.Window 32 (-2) false (-1) false 32.

(** The windows of the session of [a] with [b]. *)
Definition between (a b : str) (m : msg) : bool :=
  (seqb (sender m) a && seqb (receiver m) b) || (seqb (sender m) b && seqb (receiver m) a).
Definition wanted_windows (a b : str) (ms : list msg) (choice : option str) : list Types.window :=
  map window_of (filter (between a b) ms) ++
  match choice with Some s => if seqb a s || seqb b s then [no_window] else [] | None => [] end.
(** The windows of the role of number [k] in a part, field by field. *)
Definition role_windows (rs : list str) (p : proto) (i : option nat) (k : nat) : list (list Types.window) :=
  match nth_error rs (k - 1) with
  | Some a => map (fun b => wanted_windows a b (part_messages p i) (part_choice p i))
                (filter (fun b => negb (seqb b a)) rs)
  | None => []
  end.
