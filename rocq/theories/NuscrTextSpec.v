(** * The text of a nuscr protocol

    A specification of the text of a protocol that does not use the regular
    expressions: words, gaps, margins and the shape of each line, as in
    tests/nuscr_mod/correct/*.nuscr but with any spacing. *)

From Coq Require Import Ascii String Bool List.
From Verif Require Import Checker Nuscr NuscrSpec.
Import ListNotations.

(** A letter, a digit or "_"; a digit. *)
Definition digit (c : ascii) : Prop := (48 <= nat_of_ascii c <= 57)%nat.
Definition word_char (c : ascii) : Prop :=
  digit c \/ (65 <= nat_of_ascii c <= 90)%nat \/ (97 <= nat_of_ascii c <= 122)%nat \/ c = "_"%char.

(** A name, a natural number, some spaces, at least one space, blanks at an
    end of a line. *)
Definition word (w : str) : Prop := w <> [] /\ Forall word_char w.
Definition natural (w : str) : Prop := w <> [] /\ Forall digit w.
Definition pad (s : str) : Prop := Forall (eq " "%char) s.
Definition gap (s : str) : Prop := s <> [] /\ pad s.
Definition margin (s : str) : Prop := Forall (fun c => c = " "%char \/ c = "009"%char) s.

(** What stands between parentheses. *)
Definition option_text (o : option str) : str := match o with Some w => w | None => [] end.
Definition option_word (o : option str) : Prop := match o with Some w => word w | None => True end.
Definition left_text (closed : bool) : str := if closed then lit "[" else lit "]".
Definition right_text (closed : bool) : str := if closed then lit "]" else lit "[".

(** "Label(payload) from A to B within [0;1] using a and resetting (a);" *)
Inductive message_text (m : msg) : str -> Prop :=
| message_text_intro i g1 g2 g3 g4 g5 g6 g7 p1 p2 p3 p4 g8 g9 g10 g11 p5 t :
    word (label m) -> option_word (payload m) -> word (sender m) -> word (receiver m) ->
    natural (lb m) -> natural (rb m) -> word (clock m) -> option_word (reset m) ->
    margin i -> gap g1 -> gap g2 -> gap g3 -> gap g4 -> gap g5 -> gap g6 -> gap g7 ->
    pad p1 -> pad p2 -> pad p3 -> pad p4 -> gap g8 -> gap g9 -> gap g10 -> gap g11 ->
    pad p5 -> margin t ->
    message_text m (i ++ label m ++ lit "(" ++ option_text (payload m) ++ lit ")" ++ g1 ++
      lit "from" ++ g2 ++ sender m ++ g3 ++ lit "to" ++ g4 ++ receiver m ++ g5 ++
      lit "within" ++ g6 ++ left_text (li m) ++ p1 ++ lb m ++ p2 ++ lit ";" ++ p3 ++ rb m ++ p4 ++
      right_text (ri m) ++ g7 ++ lit "using" ++ g8 ++ clock m ++ g9 ++ lit "and" ++ g10 ++
      lit "resetting" ++ g11 ++ lit "(" ++ option_text (reset m) ++ lit ")" ++ p5 ++ lit ";" ++ t).

(** "role A, role B, role C" *)
Inductive roles_text : list str -> str -> Prop :=
| roles_one r p : word r -> pad p -> roles_text [r] (lit "role " ++ r ++ p)
| roles_more r p p' rs t : word r -> pad p -> pad p' -> roles_text rs t ->
    roles_text (r :: rs) (lit "role " ++ r ++ p ++ lit "," ++ p' ++ t).

(** "timed global protocol Name(role A, role B, role C) {" *)
Inductive header_text (name : str) (rs : list str) : str -> Prop :=
| header_text_intro i g1 g2 g3 t p t' :
    margin i -> gap g1 -> gap g2 -> gap g3 -> word name -> roles_text rs t -> pad p -> margin t' ->
    header_text name rs (i ++ lit "timed" ++ g1 ++ lit "global" ++ g2 ++ lit "protocol" ++ g3 ++ name ++
      lit "(" ++ t ++ lit ")" ++ p ++ lit "{" ++ t').

(** "choice at A", "{", "} or {", "}", "rec Loop {", "continue Loop;" *)
Inductive choice_text (a : str) : str -> Prop :=
| choice_text_intro i g1 g2 t : margin i -> gap g1 -> gap g2 -> word a -> margin t ->
    choice_text a (i ++ lit "choice" ++ g1 ++ lit "at" ++ g2 ++ a ++ t).
Inductive open_text : str -> Prop :=
| open_text_intro i t : margin i -> margin t -> open_text (i ++ lit "{" ++ t).
Inductive or_text : str -> Prop :=
| or_text_intro i p1 p2 t : margin i -> pad p1 -> pad p2 -> margin t ->
    or_text (i ++ lit "}" ++ p1 ++ lit "or" ++ p2 ++ lit "{" ++ t).
Inductive close_text : str -> Prop :=
| close_text_intro i t : margin i -> margin t -> close_text (i ++ lit "}" ++ t).
Inductive loop_text (x : str) : str -> Prop :=
| loop_text_intro i g p t : margin i -> gap g -> word x -> pad p -> margin t ->
    loop_text x (i ++ lit "rec" ++ g ++ x ++ p ++ lit "{" ++ t).
Inductive continue_text (x : str) : str -> Prop :=
| continue_text_intro i g p t : margin i -> gap g -> word x -> pad p -> margin t ->
    continue_text x (i ++ lit "continue" ++ g ++ x ++ p ++ lit ";" ++ t).

(** Messages, with empty lines among them. *)
Inductive messages_text : list msg -> list str -> Prop :=
| mt_nil : messages_text [] []
| mt_message m ms s ls : message_text m s -> messages_text ms ls -> messages_text (m :: ms) (s :: ls)
| mt_empty ms s ls : margin s -> messages_text ms ls -> messages_text ms (s :: ls).

(** A branch of a choice, the branches after the first, the end of a
    protocol. *)
Inductive branch_text (x : option str) (b : branch) : list str -> Prop :=
| bt_again y s ls : x = Some y -> again b = true -> messages_text (said b) ls -> continue_text y s ->
    branch_text x b (ls ++ [s])
| bt_end ls : x = None \/ again b = false -> messages_text (said b) ls -> branch_text x b ls.
Inductive branches_text (x : option str) : list branch -> list str -> Prop :=
| bst_nil : branches_text x [] []
| bst_cons b bs s ls ls' : or_text s -> branch_text x b ls -> branches_text x bs ls' ->
    branches_text x (b :: bs) (s :: ls ++ ls').
Inductive ending_text (x : option str) : option (str * branch * list branch) -> list str -> Prop :=
| et_none : ending_text x None []
| et_choice a b bs s1 s2 s3 ls ls' : choice_text a s1 -> open_text s2 -> close_text s3 ->
    branch_text x b ls -> branches_text x bs ls' ->
    ending_text x (Some (a, b, bs)) (s1 :: s2 :: ls ++ ls' ++ [s3]).

(** A protocol, with or without a loop. *)
Inductive protocol_text (name : str) (p : proto) : list str -> Prop :=
| pt_plain s1 s2 ls1 ls2 ls3 : loop p = None ->
    header_text name (p_roles p) s1 -> messages_text (before p) ls1 -> messages_text (inside p) ls2 ->
    ending_text None (ending p) ls3 -> close_text s2 ->
    protocol_text name p (s1 :: ls1 ++ ls2 ++ ls3 ++ [s2])
| pt_loop x s1 s2 s3 s4 ls1 ls2 ls3 : loop p = Some x ->
    header_text name (p_roles p) s1 -> messages_text (before p) ls1 -> loop_text x s2 ->
    messages_text (inside p) ls2 -> ending_text (Some x) (ending p) ls3 -> close_text s3 -> close_text s4 ->
    protocol_text name p (s1 :: ls1 ++ [s2] ++ ls2 ++ ls3 ++ [s3; s4]).

(** No role that speaks in the loop and no clock used there has a name ending
    with "rec". *)
Definition ends_with (e w : str) : Prop := exists u, w = u ++ e.
Definition no_rec (p : proto) : Prop :=
  loop p = None \/
  forall m, In m (inside p) ->
    ~ ends_with (lit "rec") (sender m) /\ ~ ends_with (lit "rec") (receiver m) /\ ~ ends_with (lit "rec") (clock m).
