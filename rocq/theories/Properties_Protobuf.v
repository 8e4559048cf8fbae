(** C74: the protobuf messages of a global type: written messages are read back, sizes, merging; what
    the function that reads a file gets out of it. *)
From Coq Require Import List NArith ZArith Bool Lia.
From Verif Require Import Protobuf ProtobufProofs.
Import ListNotations.
Open Scope N_scope.

(** Specification only: two actions with a choice, a negative bound, and the window of a clock. *)
Definition ex_action : action :=
  Action 1 0 [65] [66] [Index [104; 105] 2; Index [98; 121; 101] (-1)] [120] (-2) false 5000000000 true true.
(** Specification only. *)
Definition ex_global : global := Global 1 [ex_action; Action 2 1 [66] [65] [] [] 0 true 0 false false].
(** Specification only: ASCII. *)
Definition ascii (b : list N) : bool := forallb (fun x => x <? 128) b.

(** What is written is read back. *)
Theorem pb_round_trip : forall utf8 g, held_global utf8 g -> global_size g < 2 ^ 32 ->
  parse_global utf8 (write_global g) = Some g.
Proof. exact global_trip. Qed.
Print Assumptions pb_round_trip.

Theorem pb_round_trip_action : forall utf8 a, held_action utf8 a -> action_size a < 2 ^ 32 ->
  parse_action utf8 (write_action a) = Some a.
Proof. exact action_trip. Qed.
Print Assumptions pb_round_trip_action.

Example ex_held : held_global ascii ex_global /\ global_size ex_global = 76.
Proof.
  assert (R : forall bits z, ((- 2 ^ (bits - 1) <=? z) && (z <? 2 ^ (bits - 1)) = true)%Z -> ranged bits z).
  { intros bits z E. apply andb_prop in E. destruct E as [E1 E2]. apply Z.leb_le in E1. apply Z.ltb_lt in E2. split; assumption. }
  split; [|reflexivity]. split; [apply R; reflexivity|].
  constructor; [|constructor; [|constructor]].
  - split; [apply R; reflexivity|]. split; [apply R; reflexivity|]. split; [reflexivity|]. split; [reflexivity|].
    split; [|split; [reflexivity|split; apply R; reflexivity]].
    constructor; [split; [reflexivity|apply R; reflexivity]|]. constructor; [split; [reflexivity|apply R; reflexivity]|constructor].
  - split; [apply R; reflexivity|]. split; [apply R; reflexivity|]. split; [reflexivity|]. split; [reflexivity|].
    split; [constructor|split; [reflexivity|split; apply R; reflexivity]].
Qed.
Example ex_trip : parse_global ascii (write_global ex_global) = Some ex_global.
Proof. reflexivity. Qed.

(** The bound is needed: a label of 2^32 bytes is written with the length 0, and what is written is refused
    (unless the crate refuses to write it, which is outside of the generated code). *)
Theorem pb_large_refuted : exists i, held_index (fun _ => true) i /\ N.of_nat (length (i_label i)) = 2 ^ 32 /\
  parse_index (fun _ => true) (write_index i) = None.
Proof.
  assert (K : exists k, N.of_nat k = 2 ^ 32 - 2) by (eexists; apply Nnat.N2Nat.id). destruct K as [k K].
  assert (L : N.of_nat (length (0 :: 0 :: repeat 0 k)) = 2 ^ 32).
  { cbn [length]. rewrite repeat_length, !Nnat.Nat2N.inj_succ, K. reflexivity. }
  exists (Index (0 :: 0 :: repeat 0 k) 0).
  split; [split; [reflexivity|split; [discriminate|reflexivity]]|]. split; [exact L|]. apply cut_label, L.
Qed.
Print Assumptions pb_large_refuted.

(** Two messages with the same bytes are equal. *)
Theorem pb_injective : forall (utf8 : list N -> bool) g g', held_global utf8 g -> held_global utf8 g' ->
  global_size g < 2 ^ 32 -> global_size g' < 2 ^ 32 -> write_global g = write_global g' -> g = g'.
Proof.
  intros utf8 g g' H H' S S' E. pose proof (global_trip utf8 g H S) as T. rewrite E, (global_trip utf8 g' H' S') in T.
  injection T as T. symmetry. exact T.
Qed.
Print Assumptions pb_injective.
Example ex_differ : write_global ex_global <> write_global (Global 1 [ex_action]).
Proof. intros E. apply (f_equal (@length N)) in E. vm_compute in E. discriminate. Qed.

(** [compute_size] is the number of bytes written, and they are bytes. *)
Theorem pb_size : forall g, global_size g < 2 ^ 32 -> N.of_nat (length (write_global g)) = global_size g.
Proof. exact global_sized. Qed.
Print Assumptions pb_size.
Example ex_size : length (write_global ex_global) = 76%nat.
Proof. reflexivity. Qed.
Theorem pb_bytes : forall g,
  (forall a, In a (g_actions g) -> bytes (a_from a) /\ bytes (a_to a) /\ bytes (a_clock a) /\ Forall (fun i => bytes (i_label i)) (a_conts a)) ->
  bytes (write_global g).
Proof. intros g H. apply global_bytes. apply Forall_forall. exact H. Qed.
Print Assumptions pb_bytes.
Example ex_bytes : firstn 12 (write_global ex_global) = [8; 1; 18; 58; 8; 1; 26; 1; 65; 34; 1; 66].
Proof. reflexivity. Qed.

(** Two messages one after the other are read as one: the later start if it is not 0, all the actions. *)
Theorem pb_concat : forall utf8 g g', held_global utf8 g -> held_global utf8 g' -> global_size g < 2 ^ 32 -> global_size g' < 2 ^ 32 ->
  parse_global utf8 (write_global g ++ write_global g') =
  Some (Global (if (g_start g' =? 0)%Z then g_start g else g_start g') (g_actions g ++ g_actions g')).
Proof.
  intros utf8 g g' H H' S S'. pose proof (global_trip utf8 g H S) as T. unfold parse_global in *.
  rewrite (merge_app _ _ _ _ _ T). pose proof (actions_sized g' S') as Sa. destruct H' as [R Ha]. destruct g as [s l], g' as [s' l'].
  cbn [g_start g_actions] in *. unfold write_global. cbn [g_start g_actions].
  destruct (Z.eqb_spec s' 0) as [-> |E]; [apply merge_actions; assumption|].
  rewrite (merge_int _ _ (Global s' l)); [apply merge_actions; assumption|reflexivity|contradiction|].
  cbn. rewrite signed_u64 by (auto; lia). reflexivity.
Qed.
Print Assumptions pb_concat.
Example ex_concat : parse_global ascii (write_global ex_global ++ write_global (Global 0 [ex_action])) =
  Some (Global 1 (g_actions ex_global ++ [ex_action])).
Proof. reflexivity. Qed.

(** An integer field that an action does not have changes nothing: files with later fields are read. *)
Theorem pb_later_field : forall utf8 a f v, held_action utf8 a -> action_size a < 2 ^ 32 -> 12 <= f < 2 ^ 29 -> v < 2 ^ 64 ->
  parse_action utf8 (write_action a ++ enc (8 * f) ++ enc v) = Some a.
Proof.
  intros utf8 a f v H S Hf Hv. unfold parse_action. rewrite (merge_app _ _ _ _ _ (action_trip utf8 a H S)). apply other_field; assumption.
Qed.
Print Assumptions pb_later_field.
Example ex_later : parse_action ascii (write_action ex_action ++ enc (8 * 12) ++ enc 300) = Some ex_action.
Proof. reflexivity. Qed.

(** ** The function that reads a file *)
(** Whatever the file holds, if the function does not panic, the GlobalType that it prints is the default
    one: the Action before it has read the file to its end. *)
Theorem pb_file_default : forall utf8 file a g, read_file utf8 file = Some (a, g) -> g_start g = 0%Z /\ g_actions g = [].
Proof.
  intros utf8 file a g H. unfold read_file in H. rewrite merge_all in H.
  destruct (merge (set_action utf8) action0 file); [|discriminate]. cbn in H.
  injection H as _ <-. split; reflexivity.
Qed.
Print Assumptions pb_file_default.
(** For the file of a GlobalType it prints an Action with the start of the GlobalType as its [idx] and
    nothing else of the file. *)
Theorem pb_file_global : forall utf8 g, held_global utf8 g -> global_size g < 2 ^ 32 ->
  read_file utf8 (write_global g) = Some (Action (g_start g) 0 [] [] [] [] 0 false 0 false false, Global 0 []).
Proof. intros utf8 g [H _] S. unfold read_file. rewrite merge_all. fold (parse_action utf8 (write_global g)). rewrite global_as_action by assumption. reflexivity. Qed.
Print Assumptions pb_file_global.
(** For the file of an action the Action is right. *)
Theorem pb_file_action : forall utf8 a, held_action utf8 a -> action_size a < 2 ^ 32 ->
  read_file utf8 (write_action a) = Some (a, Global 0 []).
Proof. intros utf8 a H S. unfold read_file. rewrite merge_all. fold (parse_action utf8 (write_action a)). rewrite action_trip by assumption. reflexivity. Qed.
Print Assumptions pb_file_action.
(** No file, in particular not an Action followed by a GlobalType, makes it print that GlobalType. *)
Theorem pb_file_refuted : exists a g, held_action ascii a /\ held_global ascii g /\
  read_file ascii (write_action a ++ write_global g) <> Some (a, g) /\
  read_file ascii (write_global g) <> Some (action0, g) /\ forall file a', read_file ascii file <> Some (a', g).
Proof.
  exists ex_action, ex_global. destruct ex_held as [H _]. pose proof H as [_ Ha]. inversion_clear Ha as [|? ? H1 _].
  assert (N : forall file a', read_file ascii file <> Some (a', ex_global)).
  { intros file a' E. apply pb_file_default in E. destruct E as [E _]. discriminate. }
  split; [exact H1|]. split; [exact H|]. split; [apply N|]. split; [apply N|exact N].
Qed.
Print Assumptions pb_file_refuted.
Example ex_file : read_file ascii (write_action ex_action ++ write_global ex_global) = Some (ex_action, Global 0 []).
Proof. vm_compute. reflexivity. Qed.
