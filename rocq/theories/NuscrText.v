(** * The text of a nuscr file

    src/top_down_nuscr/auxiliary_objects/regex_nuscr.rs: the regular
    expressions; how process_line.rs and line_is_message.rs read a line with
    them; src/top_down_nuscr/generate_regular_protocol.rs: the protocol without
    time.  Simplified: ASCII text (Regex.v); reading and writing files does not
    fail; in [check_fsm] (generate_regular_protocol.rs:79-124) the temporary
    file and the call of the external [nuscr] are left out. *)

From Coq Require Import Ascii String Bool Arith List.
From Verif Require Import Checker Nuscr Regex.
Import ListNotations.

(** [\d] and [\w], on ASCII (regex_nuscr.rs:15-34). *)
Definition is_digit (c : ascii) : bool :=
  let n := nat_of_ascii c in (48 <=? n)%nat && (n <=? 57)%nat.
Definition is_word (c : ascii) : bool := is_alpha c || is_digit c || Ascii.eqb c "_".

(** Spaces, any number or at least one; word characters, any number or at
    least one (regex_nuscr.rs:3-34). *)
Definition spaces : re := Star (Chr (Ascii.eqb " ")).
Definition spaces1 : re := Plus (Chr (Ascii.eqb " ")).
Definition wordchars : re := Star (Chr is_word).
Definition wordchars1 : re := Plus (Chr is_word).

Local Notation "a ;; b" := (Seq a b) (at level 60, right associativity).
Local Notation "w >> b" := (Lit (lit w) b) (at level 60, right associativity).

(** [GLOBAL_PROTOCOL] (regex_nuscr.rs:3-6). *)
Definition role_item : re :=
  "role" >> spaces1 ;; wordchars1 ;; spaces ;; Opt (Chr (Ascii.eqb ",")) ;; spaces.
Definition GLOBAL : re :=
  "timed" >> spaces1 ;; "global" >> spaces1 ;; "protocol" >> spaces1 ;; Cap (lit "name") wordchars1 ;;
  "(" >> Plus role_item ;; ")" >> spaces ;; Opt (Chr (Ascii.eqb "{")).

(** [ROLE] (regex_nuscr.rs:8). *)
Definition ROLE : re := "role " >> Cap (lit "name") wordchars1.

(** [CHOICE] (regex_nuscr.rs:10-11). *)
Definition CHOICE : re :=
  "choice" >> spaces1 ;; "at" >> spaces1 ;; Cap (lit "choice") wordchars1 ;; spaces ;; Opt (Chr (Ascii.eqb "{")).

(** [OR] (regex_nuscr.rs:13). *)
Definition OR : re := "}" >> spaces ;; "or" >> spaces ;; Chr (Ascii.eqb "{").

(** One of the two square brackets (regex_nuscr.rs:16). *)
Definition bracket : re := Alt (Chr (Ascii.eqb "[")) (Chr (Ascii.eqb "]")).

(** What [MESSAGE] and its three variants share; [pay] and [rst] are what
    stands between their parentheses (regex_nuscr.rs:15-29). *)
Definition message_re (pay rst : re) : re :=
  Cap (lit "message") wordchars1 ;; "(" >> pay ;; ")" >> spaces1 ;;
  "from" >> spaces1 ;; Cap (lit "sender") wordchars1 ;; spaces1 ;;
  "to" >> spaces1 ;; Cap (lit "receiver") wordchars1 ;; spaces1 ;;
  "within" >> spaces1 ;; Cap (lit "left_bracket") bracket ;; spaces ;;
  Cap (lit "left_bound") (Plus (Chr is_digit)) ;; spaces ;; ";" >> spaces ;;
  Cap (lit "right_bound") (Plus (Chr is_digit)) ;; spaces ;;
  Cap (lit "right_bracket") bracket ;; spaces1 ;;
  "using" >> spaces1 ;; Cap (lit "clock") wordchars1 ;; spaces1 ;;
  "and" >> spaces1 ;; "resetting" >> spaces1 ;; "(" >> rst ;; ")" >> spaces ;; Chr (Ascii.eqb ";").

(** [MESSAGE], [MESSAGE_WITH_PAYLOAD], [MESSAGE_WITH_RESET],
    [MESSAGE_WITH_PAYLOAD_AND_RESET] (regex_nuscr.rs:15-17, 19-21, 23-25, 27-29). *)
Definition MESSAGE : re := message_re wordchars wordchars.
Definition MESSAGE_WITH_PAYLOAD : re := message_re (Cap (lit "payload") wordchars1) Eps.
Definition MESSAGE_WITH_RESET : re := message_re Eps (Cap (lit "reset") wordchars1).
Definition MESSAGE_WITH_PAYLOAD_AND_RESET : re :=
  message_re (Cap (lit "payload") wordchars1) (Cap (lit "reset") wordchars1).

(** [REC], [CONTINUE] (regex_nuscr.rs:31, 33-34). *)
Definition REC : re := "rec" >> spaces1 ;; Cap (lit "loop") wordchars1.
Definition CONTINUE : re :=
  "continue" >> spaces1 ;; Cap (lit "loop") wordchars1 ;; spaces ;; Chr (Ascii.eqb ";").

(** The payload and the reset clock of a message: the variants are tried in
    this order (line_is_message.rs:92-166). *)
Definition read_options (s : str) : option str * option str :=
  if is_match MESSAGE_WITH_PAYLOAD_AND_RESET s then
    (Some (capture MESSAGE_WITH_PAYLOAD_AND_RESET (lit "payload") s),
     Some (capture MESSAGE_WITH_PAYLOAD_AND_RESET (lit "reset") s))
  else if is_match MESSAGE_WITH_RESET s then (None, Some (capture MESSAGE_WITH_RESET (lit "reset") s))
  else if is_match MESSAGE_WITH_PAYLOAD s then (Some (capture MESSAGE_WITH_PAYLOAD (lit "payload") s), None)
  else (None, None).

(** The fields of a message (line_is_message.rs:21-30). *)
Definition read_message (s : str) : msg :=
  let field n := capture MESSAGE (lit n) s in
  Msg (field "message"%string) (fst (read_options s)) (field "sender"%string) (field "receiver"%string)
    (seqb (field "left_bracket"%string) (lit "[")) (field "left_bound"%string) (field "right_bound"%string)
    (seqb (field "right_bracket"%string) (lit "]")) (field "clock"%string) (snd (read_options s)).

(** What the line is, in the order of the tests of [process_line]
    (process_line.rs:159-162, 199, 212-219, 328, 368-376, 386-391; the roles
    of the first line: process_line.rs:171-181). *)
Definition read_kind (s : str) : kind :=
  if is_match GLOBAL s then KGlobal (capture GLOBAL (lit "name") s) (captures_iter ROLE (lit "name") (length s) s)
  else if is_match MESSAGE s then KMessage (read_message s)
  else if is_match CHOICE s then KChoice (capture CHOICE (lit "choice") s)
  else if is_match OR s then KOr
  else if is_match REC s then KRec (capture REC (lit "loop") s)
  else if is_match CONTINUE s then KContinue (capture CONTINUE (lit "loop") s)
  else KOther.

(** [line.matches(c).count()] (process_line.rs:123-124). *)
Definition count (c : ascii) (s : str) : nat := length (filter (Ascii.eqb c) s).

(** A line of the file (process_line.rs:122-157; the test [check_rec] on a
    saved line: process_line.rs:396-397). *)
Definition read_line (s : str) : line :=
  Line (count "{" s) (count "}" s) (match s with [] => true | _ => false end) (read_kind s)
    (if is_match REC s then Some s else None).

(** [generator] on the lines of a file (generator.rs:20-105). *)
Definition generator_text (title : str -> str) (ls : list str) : gres rust_file :=
  generator title (map read_line ls).

(** [take_while] (generate_regular_protocol.rs:25-29). *)
Fixpoint take_while (p : ascii -> bool) (s : str) : str :=
  match s with c :: s' => if p c then c :: take_while p s' else [] | [] => [] end.

(** The name in a first line (generate_regular_protocol.rs:19-21) and a line
    of the protocol without time (generate_regular_protocol.rs:18-72). *)
Definition regular_line (s : str) : str :=
  if is_match GLOBAL s then replace (lit "timed ") [] s
  else if is_match MESSAGE s then
    let m := read_message s in
    map (fun _ => " "%char) (take_while is_space s) ++ label m ++ lit "(" ++
      match payload m with Some p => p | None => [] end ++ lit ") from " ++ sender m ++ lit " to " ++
      receiver m ++ lit ";"
  else s.

(** [generate_regular_protocol]: the name of the protocol, that of the last
    first line, and the lines written (generate_regular_protocol.rs:10-77). *)
Fixpoint generate_regular_protocol (name : str) (ls : list str) : str * list str :=
  match ls with
  | [] => (name, [])
  | s :: ls =>
      let name := if is_match GLOBAL s then capture GLOBAL (lit "name") s else name in
      let (n, out) := generate_regular_protocol name ls in (n, regular_line s :: out)
  end.
