(** The protobuf messages of a timed global type: src/protobuf/generated/globaltype.rs and the function
    that reads a file of them, src/protobuf/mod.rs. Model only; proofs are in ProtobufProofs.v.

    The reading and writing of single values is done by the protobuf crate, which is not in /repo: it is
    modelled after the wire format (base-128 varints, keys [8 * field + wire type], lengths before strings
    and messages). A byte is an [N]; the stream is the list of the bytes left. [None] is an [Err].
    Simplified: unknown fields are read and forgotten ([special_fields] is left out), and a group (wire
    types 3 and 4), which the crate skips, is an error here. *)
From Coq Require Import List NArith ZArith Bool.
Import ListNotations.
Open Scope N_scope.

(** ** The values of the wire format *)
(** [u64] as a varint; [k] bounds the bytes after the first one (the crate behind
    src/protobuf/generated/globaltype.rs:230-266). *)
Fixpoint enc_from (k : nat) (v : N) : list N :=
  match k with
  | O => [v]
  | S k' => if v <? 128 then [v] else (v mod 128 + 128) :: enc_from k' (v / 128)
  end.
Definition enc (v : N) : list N := enc_from 9 v.
(** [read_raw_varint64]: at most ten bytes (the crate behind src/protobuf/generated/globaltype.rs:143-185). *)
Fixpoint dec_from (k : nat) (bs : list N) : option (N * list N) :=
  match k, bs with
  | S k', b :: bs' =>
      if b <? 128 then Some (b, bs')
      else match dec_from k' bs' with Some (v, r) => Some (b - 128 + 128 * v, r) | None => None end
  | _, _ => None
  end.
Definition dec (bs : list N) : option (N * list N) :=
  match dec_from 10 bs with Some (v, r) => Some (v mod 2 ^ 64, r) | None => None end.
(** [compute_raw_varint64_size] (called in src/protobuf/generated/globaltype.rs:205). *)
Fixpoint size_from (k : nat) (v : N) : N :=
  match k with O => 1 | S k' => if v <? 128 then 1 else 1 + size_from k' (v / 128) end.
Definition varint_size (v : N) : N := size_from 9 v.

(** A signed integer is sign-extended to 64 bits ([write_int32], [write_int64], [write_enum]:
    src/protobuf/generated/globaltype.rs:232, 235, 250). *)
Definition to_u64 (z : Z) : N := Z.to_N (z mod 2 ^ 64).
(** [as i32], [as i64] after the varint ([read_int32], [read_int64], [read_enum_or_unknown]:
    src/protobuf/generated/globaltype.rs:147, 150, 165). *)
Definition signed (bits : Z) (v : N) : Z :=
  let r := (Z.of_N v mod 2 ^ bits)%Z in if (r <? 2 ^ (bits - 1))%Z then r else (r - 2 ^ bits)%Z.

(** The value after a key, by wire type: varint, 64 bits, length and bytes, 32 bits ([read_string],
    [read_message], [read_unknown_or_skip_group]: src/protobuf/generated/globaltype.rs:146-180). The readers chosen by a known tag are those of its
    wire type, so the value can be read before the tag is looked at. *)
Inductive value := VVarint (v : N) | VBytes (b : list N) | VFixed (b : list N).
Definition take (k : N) (bs : list N) : option (list N * list N) :=
  if k <=? N.of_nat (length bs) then Some (firstn (N.to_nat k) bs, skipn (N.to_nat k) bs) else None.
Definition read_value (wire : N) (bs : list N) : option (value * list N) :=
  match wire with
  | 0 => match dec bs with Some (v, r) => Some (VVarint v, r) | None => None end
  | 1 => match take 8 bs with Some (b, r) => Some (VFixed b, r) | None => None end
  | 2 => match dec bs with
         | Some (k, r) => match take k r with Some (b, r') => Some (VBytes b, r') | None => None end
         | None => None
         end
  | 5 => match take 4 bs with Some (b, r) => Some (VFixed b, r) | None => None end
  | _ => None
  end.
(** [read_raw_tag_or_eof] when there is a byte left (src/protobuf/generated/globaltype.rs:144). *)
Definition read_tag (bs : list N) : option (N * list N) :=
  match dec bs with Some (v, r) => Some (v mod 2 ^ 32, r) | None => None end.

(** The loop of a [merge_from]: read a tag, read the value, store it, until the end of the stream
    (src/protobuf/generated/globaltype.rs:143-185, 385-400, 580-595). [k] bounds the number of fields. The
    result is the message and the bytes left. *)
Fixpoint merge_upto {A} (set : N -> value -> A -> option A) (k : nat) (a : A) (bs : list N) : option (A * list N) :=
  match bs, k with
  | [], _ => Some (a, bs)
  | _ :: _, O => None
  | _ :: _, S k' =>
      match read_tag bs with
      | None => None
      | Some (tag, r) =>
          match read_value (tag mod 8) r with
          | None => None
          | Some (v, r') => match set tag v a with None => None | Some a' => merge_upto set k' a' r' end
          end
      end
  end.
Definition merge_rest {A} (set : N -> value -> A -> option A) (a : A) (bs : list N) : option (A * list N) :=
  merge_upto set (length bs) a bs.
Definition merge {A} (set : N -> value -> A -> option A) (a : A) (bs : list N) : option A :=
  option_map fst (merge_rest set a bs).
(** A tag that the message does not have: refused if its field number is 0, else read and forgotten
    (src/protobuf/generated/globaltype.rs:179-181). *)
Definition unknown {A} (tag : N) (a : A) : option A := if tag / 8 =? 0 then None else Some a.

(** ** The messages *)
(** src/protobuf/generated/globaltype.rs:335-344, 30-57, 530-539. A String is the list of its bytes; an
    [EnumOrUnknown] is its [i32] (0 is SEND, 475-480). *)
Record index := Index { i_label : list N; i_next : Z }.
Record action := Action {
  a_idx : Z; a_type : Z; a_from : list N; a_to : list N; a_conts : list index; a_clock : list N;
  a_lower : Z; a_inc_lb : bool; a_upper : Z; a_inc_ub : bool; a_reset : bool }.
Record global := Global { g_start : Z; g_actions : list action }.
(** [default_instance]: src/protobuf/generated/globaltype.rs:446-453, 295-311, 642-649. *)
Definition index0 : index := Index [] 0.
Definition action0 : action := Action 0 0 [] [] [] [] 0 false 0 false false.
Definition global0 : global := Global 0 [].

Section Reading.
  (** Whether bytes are UTF-8, which [read_string] checks (src/protobuf/generated/globaltype.rs:153). *)
  Variable utf8 : list N -> bool.

  (** One turn of the loop of [Index::merge_from]: src/protobuf/generated/globaltype.rs:387-397. *)
  Definition set_index (tag : N) (v : value) (i : index) : option index :=
    match tag, v with
    | 10, VBytes b => if utf8 b then Some (Index b (i_next i)) else None
    | 16, VVarint n => Some (Index (i_label i) (signed 32 n))
    | _, _ => unknown tag i
    end.
  (** One turn of the loop of [Action::merge_from]: src/protobuf/generated/globaltype.rs:145-182. *)
  Definition set_action (tag : N) (v : value) (a : action) : option action :=
    let '(Action x t f g c k l il u iu r) := a in
    match tag, v with
    | 8, VVarint n => Some (Action (signed 32 n) t f g c k l il u iu r)
    | 16, VVarint n => Some (Action x (signed 32 n) f g c k l il u iu r)
    | 26, VBytes b => if utf8 b then Some (Action x t b g c k l il u iu r) else None
    | 34, VBytes b => if utf8 b then Some (Action x t f b c k l il u iu r) else None
    | 42, VBytes b =>
        match merge set_index index0 b with Some i => Some (Action x t f g (c ++ [i]) k l il u iu r) | None => None end
    | 50, VBytes b => if utf8 b then Some (Action x t f g c b l il u iu r) else None
    | 56, VVarint n => Some (Action x t f g c k (signed 64 n) il u iu r)
    | 64, VVarint n => Some (Action x t f g c k l (negb (n =? 0)) u iu r)
    | 72, VVarint n => Some (Action x t f g c k l il (signed 64 n) iu r)
    | 80, VVarint n => Some (Action x t f g c k l il u (negb (n =? 0)) r)
    | 88, VVarint n => Some (Action x t f g c k l il u iu (negb (n =? 0)))
    | _, _ => unknown tag a
    end.
  (** One turn of the loop of [GlobalType::merge_from]: src/protobuf/generated/globaltype.rs:582-592. *)
  Definition set_global (tag : N) (v : value) (g : global) : option global :=
    match tag, v with
    | 8, VVarint n => Some (Global (signed 32 n) (g_actions g))
    | 18, VBytes b =>
        match merge set_action action0 b with Some a => Some (Global (g_start g) (g_actions g ++ [a])) | None => None end
    | _, _ => unknown tag g
    end.

  (** [parse_from_reader]: [merge_from] on a new message, on all the bytes that are left
      (src/protobuf/mod.rs:38, 54; src/protobuf/generated/globaltype.rs:143-185, 385-400, 580-595). *)
  Definition parse_index (bs : list N) : option index := merge set_index index0 bs.
  Definition parse_action (bs : list N) : option action := merge set_action action0 bs.
  Definition parse_global (bs : list N) : option global := merge set_global global0 bs.

  (** [read_global_protocol_file]: an Action, then a GlobalType from what the first has left of the same
      reader; [None] is a panic ([unwrap]). It prints both and returns nothing: the
      model returns what it prints (src/protobuf/mod.rs:34-63). *)
  Definition read_file (bs : list N) : option (action * global) :=
    match merge_rest set_action action0 bs with
    | None => None
    | Some (a, rest) => match parse_global rest with None => None | Some g => Some (a, g) end
    end.
End Reading.

(** ** Writing *)
(** The key of a field, and the fields (the crate; called in
    src/protobuf/generated/globaltype.rs:230-266, 417-426, 613-622). The length of a string and the cached
    size of a message are [u32] (226). *)
Definition key (field wire : N) : list N := enc (8 * field + wire).
Definition write_int (field : N) (z : Z) : list N := if (z =? 0)%Z then [] else key field 0 ++ enc (to_u64 z).
Definition write_string (field : N) (s : list N) : list N :=
  match s with [] => [] | _ => key field 2 ++ enc (N.of_nat (length s) mod 2 ^ 32) ++ s end.
Definition write_bool (field : N) (b : bool) : list N := if b then key field 0 ++ [1] else [].
Definition write_message (field size : N) (body : list N) : list N := key field 2 ++ enc (size mod 2 ^ 32) ++ body.

(** [int32_size], [int64_size], [string_size] with their tests; a field below 16 has a key of one byte
    (src/protobuf/generated/globaltype.rs:191-222). *)
Definition int_size (z : Z) : N := if (z =? 0)%Z then 0 else 1 + varint_size (to_u64 z).
Definition string_size (s : list N) : N :=
  match s with [] => 0 | _ => 1 + varint_size (N.of_nat (length s)) + N.of_nat (length s) end.
Definition bool_size (b : bool) : N := if b then 2 else 0.
Fixpoint sizes (l : list N) : N := match l with [] => 0 | len :: l' => 1 + varint_size len + len + sizes l' end.

(** [compute_size]: src/protobuf/generated/globaltype.rs:404-415, 189-228, 599-611. *)
Definition index_size (i : index) : N := string_size (i_label i) + int_size (i_next i).
Definition action_size (a : action) : N :=
  int_size (a_idx a) + int_size (a_type a) + string_size (a_from a) + string_size (a_to a) +
  sizes (map index_size (a_conts a)) + string_size (a_clock a) + int_size (a_lower a) + bool_size (a_inc_lb a) +
  int_size (a_upper a) + bool_size (a_inc_ub a) + bool_size (a_reset a).
Definition global_size (g : global) : N := int_size (g_start g) + sizes (map action_size (g_actions g)).

(** [write_to_with_cached_sizes]: src/protobuf/generated/globaltype.rs:417-426, 230-266, 613-622. *)
Definition write_index (i : index) : list N := write_string 1 (i_label i) ++ write_int 2 (i_next i).
Definition write_action (a : action) : list N :=
  write_int 1 (a_idx a) ++ write_int 2 (a_type a) ++ write_string 3 (a_from a) ++ write_string 4 (a_to a) ++
  concat (map (fun i => write_message 5 (index_size i) (write_index i)) (a_conts a)) ++
  write_string 6 (a_clock a) ++ write_int 7 (a_lower a) ++ write_bool 8 (a_inc_lb a) ++
  write_int 9 (a_upper a) ++ write_bool 10 (a_inc_ub a) ++ write_bool 11 (a_reset a).
Definition write_global (g : global) : list N :=
  write_int 1 (g_start g) ++ concat (map (fun a => write_message 2 (action_size a) (write_action a)) (g_actions g)).
