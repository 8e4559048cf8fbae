(** The tests of the nuscr reader: the assertions of regex_nuscr.rs on lines with random words, the protocols of
    tests/nuscr_mod, and the files in the repository that the generator wrote for them. Written by tools/nuscrtests_emit.py. *)
From Coq Require Import String List.
From Verif Require Import Checker Nuscr Regex NuscrText.
Import ListNotations.
Open Scope string_scope.

(** A piece of a format: its text, a random word, a random number (regex_nuscr.rs:89-99). *)
Inductive piece : Type := Txt (s : string) | Word (k : nat) | Number (k : nat).

(** An assertion: the regular expression, the format, whether it must match (regex_nuscr.rs:96-99). *)
Record line_test : Type := LineTest { lt_re : re; lt_text : list piece; lt_match : bool }.

(** The assertions of regex_nuscr.rs:84-626. Words: 0 the only one, 1 the message, 2 the payload, 3 the sender, 4 the receiver,
    5 the clock, 6 the reset clock; numbers: 0 the left bound, 1 the right bound. *)
Definition line_tests : list line_test := [
  LineTest GLOBAL [Txt "timed global protocol "; Word 0; Txt "(role A) {"] true;
  LineTest GLOBAL [Txt "timed global protocol "; Word 0; Txt "(role A, role B, role C) {"] true;
  LineTest GLOBAL [Txt "timed global protocol "; Word 0; Txt "(role A, role B, role C,) {"] true;
  LineTest GLOBAL [Txt "timed global protocol "; Word 0; Txt "(role A   , role B, role    C,  ) {"] true;
  LineTest GLOBAL [Txt "global protocol "; Word 0; Txt "(role A,) {"] false;
  LineTest GLOBAL [Txt "global protocol "; Word 0; Txt "(role A, role B, role C) {"] false;
  LineTest CHOICE [Txt "choice at "; Word 0] true;
  LineTest CHOICE [Txt "choice at "; Word 0; Txt "{"] true;
  LineTest CHOICE [Txt "choice at "; Word 0; Txt " {"] true;
  LineTest CHOICE [Txt "choice t "; Word 0; Txt " {"] false;
  LineTest CHOICE [Txt "offer at "; Word 0; Txt " {"] false;
  LineTest OR [Txt "}}or{{"] true;
  LineTest OR [Txt "}} or{{"] true;
  LineTest OR [Txt "}}or {{"] true;
  LineTest OR [Txt "}}   or   {{"] true;
  LineTest OR [Txt "   }} or   {{    "] true;
  LineTest OR [Txt "   } or "; Word 0; Txt "  {    "] false;
  LineTest MESSAGE [Word 1; Txt "() from "; Word 3; Txt " to "; Word 4; Txt " within ["; Number 0; Txt ";"; Number 1; Txt "] using "; Word 5; Txt " and resetting ();"] true;
  LineTest MESSAGE [Word 1; Txt "() from "; Word 3; Txt " to "; Word 4; Txt " within ]"; Number 0; Txt ";"; Number 1; Txt "] using "; Word 5; Txt " and resetting ();"] true;
  LineTest MESSAGE [Word 1; Txt "() from "; Word 3; Txt " to "; Word 4; Txt " within ["; Number 0; Txt ";"; Number 1; Txt "[ using "; Word 5; Txt " and resetting ();"] true;
  LineTest MESSAGE [Word 1; Txt "() from "; Word 3; Txt " to "; Word 4; Txt " within ]"; Number 0; Txt ";"; Number 1; Txt "[ using "; Word 5; Txt " and resetting ();"] true;
  LineTest MESSAGE [Word 1; Txt "("; Word 2; Txt ") from "; Word 3; Txt " to "; Word 4; Txt " within ["; Number 0; Txt ";"; Number 1; Txt "] using "; Word 5; Txt " and resetting ();"] true;
  LineTest MESSAGE [Word 1; Txt "() from "; Word 3; Txt " to "; Word 4; Txt " within ["; Number 0; Txt ";"; Number 1; Txt "] using "; Word 5; Txt " and resetting ("; Word 6; Txt ");"] true;
  LineTest MESSAGE [Word 1; Txt "("; Word 2; Txt ") from "; Word 3; Txt " to "; Word 4; Txt " within ["; Number 0; Txt ";"; Number 1; Txt "] using "; Word 5; Txt " and resetting ("; Word 6; Txt ");"] true;
  LineTest MESSAGE_WITH_PAYLOAD [Word 1; Txt "() from "; Word 3; Txt " to "; Word 4; Txt " within ["; Number 0; Txt ";"; Number 1; Txt "] using "; Word 5; Txt " and resetting ();"] false;
  LineTest MESSAGE_WITH_PAYLOAD [Word 1; Txt "("; Word 2; Txt ") from "; Word 3; Txt " to "; Word 4; Txt " within ["; Number 0; Txt ";"; Number 1; Txt "] using "; Word 5; Txt " and resetting ();"] true;
  LineTest MESSAGE_WITH_PAYLOAD [Word 1; Txt "("; Word 2; Txt ") from "; Word 3; Txt " to "; Word 4; Txt " within ]"; Number 0; Txt ";"; Number 1; Txt "] using "; Word 5; Txt " and resetting ();"] true;
  LineTest MESSAGE_WITH_PAYLOAD [Word 1; Txt "("; Word 2; Txt ") from "; Word 3; Txt " to "; Word 4; Txt " within ["; Number 0; Txt ";"; Number 1; Txt "[ using "; Word 5; Txt " and resetting ();"] true;
  LineTest MESSAGE_WITH_PAYLOAD [Word 1; Txt "("; Word 2; Txt ") from "; Word 3; Txt " to "; Word 4; Txt " within ]"; Number 0; Txt ";"; Number 1; Txt "[ using "; Word 5; Txt " and resetting ();"] true;
  LineTest MESSAGE_WITH_PAYLOAD [Word 1; Txt "() from "; Word 3; Txt " to "; Word 4; Txt " within ["; Number 0; Txt ";"; Number 1; Txt "] using "; Word 5; Txt " and resetting ("; Word 6; Txt ");"] false;
  LineTest MESSAGE_WITH_PAYLOAD [Word 1; Txt "("; Word 2; Txt ") from "; Word 3; Txt " to "; Word 4; Txt " within ["; Number 0; Txt ";"; Number 1; Txt "] using "; Word 5; Txt " and resetting ("; Word 6; Txt ");"] false;
  LineTest MESSAGE_WITH_RESET [Word 1; Txt "() from "; Word 3; Txt " to "; Word 4; Txt " within ["; Number 0; Txt ";"; Number 1; Txt "] using "; Word 5; Txt " and resetting ();"] false;
  LineTest MESSAGE_WITH_RESET [Word 1; Txt "("; Word 2; Txt ") from "; Word 3; Txt " to "; Word 4; Txt " within ["; Number 0; Txt ";"; Number 1; Txt "] using "; Word 5; Txt " and resetting ();"] false;
  LineTest MESSAGE_WITH_RESET [Word 1; Txt "() from "; Word 3; Txt " to "; Word 4; Txt " within ["; Number 0; Txt ";"; Number 1; Txt "] using "; Word 5; Txt " and resetting ("; Word 6; Txt ");"] true;
  LineTest MESSAGE_WITH_RESET [Word 1; Txt "() from "; Word 3; Txt " to "; Word 4; Txt " within ]"; Number 0; Txt ";"; Number 1; Txt "] using "; Word 5; Txt " and resetting ("; Word 6; Txt ");"] true;
  LineTest MESSAGE_WITH_RESET [Word 1; Txt "() from "; Word 3; Txt " to "; Word 4; Txt " within ["; Number 0; Txt ";"; Number 1; Txt "[ using "; Word 5; Txt " and resetting ("; Word 6; Txt ");"] true;
  LineTest MESSAGE_WITH_RESET [Word 1; Txt "() from "; Word 3; Txt " to "; Word 4; Txt " within ]"; Number 0; Txt ";"; Number 1; Txt "[ using "; Word 5; Txt " and resetting ("; Word 6; Txt ");"] true;
  LineTest MESSAGE_WITH_RESET [Word 1; Txt "("; Word 2; Txt ") from "; Word 3; Txt " to "; Word 4; Txt " within ["; Number 0; Txt ";"; Number 1; Txt "] using "; Word 5; Txt " and resetting ("; Word 6; Txt ");"] false;
  LineTest MESSAGE_WITH_PAYLOAD_AND_RESET [Word 1; Txt "() from "; Word 3; Txt " to "; Word 4; Txt " within ["; Number 0; Txt ";"; Number 1; Txt "] using "; Word 5; Txt " and resetting ();"] false;
  LineTest MESSAGE_WITH_PAYLOAD_AND_RESET [Word 1; Txt "("; Word 2; Txt ") from "; Word 3; Txt " to "; Word 4; Txt " within ["; Number 0; Txt ";"; Number 1; Txt "] using "; Word 5; Txt " and resetting ();"] false;
  LineTest MESSAGE_WITH_PAYLOAD_AND_RESET [Word 1; Txt "() from "; Word 3; Txt " to "; Word 4; Txt " within ["; Number 0; Txt ";"; Number 1; Txt "] using "; Word 5; Txt " and resetting ("; Word 6; Txt ");"] false;
  LineTest MESSAGE_WITH_PAYLOAD_AND_RESET [Word 1; Txt "("; Word 2; Txt ") from "; Word 3; Txt " to "; Word 4; Txt " within ["; Number 0; Txt ";"; Number 1; Txt "] using "; Word 5; Txt " and resetting ("; Word 6; Txt ");"] true;
  LineTest MESSAGE_WITH_PAYLOAD_AND_RESET [Word 1; Txt "("; Word 2; Txt ") from "; Word 3; Txt " to "; Word 4; Txt " within ]"; Number 0; Txt ";"; Number 1; Txt "] using "; Word 5; Txt " and resetting ("; Word 6; Txt ");"] true;
  LineTest MESSAGE_WITH_PAYLOAD_AND_RESET [Word 1; Txt "("; Word 2; Txt ") from "; Word 3; Txt " to "; Word 4; Txt " within ["; Number 0; Txt ";"; Number 1; Txt "[ using "; Word 5; Txt " and resetting ("; Word 6; Txt ");"] true;
  LineTest MESSAGE_WITH_PAYLOAD_AND_RESET [Word 1; Txt "("; Word 2; Txt ") from "; Word 3; Txt " to "; Word 4; Txt " within ]"; Number 0; Txt ";"; Number 1; Txt "[ using "; Word 5; Txt " and resetting ("; Word 6; Txt ");"] true;
  LineTest REC [Txt "rec "; Word 0] true;
  LineTest REC [Txt "rec "; Word 0; Txt " {"] true;
  LineTest REC [Txt "rece "; Word 0] false;
  LineTest REC [Txt "rec "; Word 0; Txt " }"] true;
  LineTest CONTINUE [Txt "continue "; Word 0; Txt ";"] true;
  LineTest CONTINUE [Txt "conti nue "; Word 0] false].

(** A function of a written file, an endpoint (fn_endpoints.rs:7-64, endpoints.rs:23-50). *)
Definition F (r : string) (ix : list nat) (n : nat) (ty : string) (cs : list string) :=
  (lit r, ix, n, lit ty, map lit cs).
Definition E (n : string) (fs : list string) (st r : string) : endpoint :=
  Endpoint (lit n) (map lit fs) (lit st) (lit r).
(** A struct, an enum, a declaration (structs.rs:13-77, enums.rs:9-66, sessions.rs:23-40). *)
Definition U (n : string) : str * option str := (lit n, None).
Definition S1 (n p : string) : str * option str := (lit n, Some (lit p)).
Definition C (n : string) (bs : list string) : str * list str := (lit n, map lit bs).
Definition D (n : string) (b : body) : decl := (lit n, b).
Definition M (snd : bool) (p c l : string) (li : bool) (r : string) (ri : bool) (rs nx : string) : body :=
  Timed snd (lit p) (lit c) (lit l) li (lit r) ri (lit rs) (lit nx).
Definition R (r nx : string) : body := RoleOf (lit r) (lit nx).
Definition A (nx : string) : body := Alias (lit nx).

(** tests/nuscr_mod/correct/basic.nuscr:1-10 *)
Definition basic_lines : list str := map lit [
  "timed global protocol Basic(role A, role B, role C) {";
  "    Test1() from A to B within [0;2] using a and resetting ();";
  "    Test1() from B to C within [0;2] using a and resetting ();";
  "    Test1() from A to B within [0;2] using a and resetting ();";
  "    Test1() from A to B within [0;2] using a and resetting ();";
  "    Test5(payload) from A to B within [0;2] using a and resetting ();";
  "    Test2(integer) from A to B within [0;2] using a and resetting ();";
  "    Test3(stri) from A to B within [0;2] using a and resetting ();";
  "    Test4(payload) from A to B within [0;2] using a and resetting ();";
  "}"].

(** tests/nuscr_mod/correct/Basic.rs:1-114 *)
Definition basic_file : rust_file := RustFile (map lit ["A"; "B"; "C"])
 [
  U "Payload";
  U "Integer";
  U "Stri";
  U "Test1";
  S1 "Test2" "Integer";
  S1 "Test4" "Payload";
  S1 "Test5" "Payload";
  S1 "Test3" "Stri"]
 [
  D "Message_0_v_0_FromBToC" (M true "Test1" "a" "0" true "2" true " " "Message_0_v_1_FromBToC");
  D "Message_0_v_1_FromBToC" (A "End");
  D "Message_0_v_0_FromBToA" (M false "Test1" "a" "0" true "2" true " " "Message_0_v_1_FromBToA");
  D "Message_0_v_1_FromBToA" (M false "Test1" "a" "0" true "2" true " " "Message_0_v_2_FromBToA");
  D "Message_0_v_2_FromBToA" (M false "Test1" "a" "0" true "2" true " " "Message_0_v_3_FromBToA");
  D "Message_0_v_3_FromBToA" (M false "Test5" "a" "0" true "2" true " " "Message_0_v_4_FromBToA");
  D "Message_0_v_4_FromBToA" (M false "Test2" "a" "0" true "2" true " " "Message_0_v_5_FromBToA");
  D "Message_0_v_5_FromBToA" (M false "Test3" "a" "0" true "2" true " " "Message_0_v_6_FromBToA");
  D "Message_0_v_6_FromBToA" (M false "Test4" "a" "0" true "2" true " " "Message_0_v_7_FromBToA");
  D "Message_0_v_7_FromBToA" (A "End");
  D "Message_0_v_0_FromAToB" (M true "Test1" "a" "0" true "2" true " " "Message_0_v_1_FromAToB");
  D "Message_0_v_1_FromAToB" (M true "Test1" "a" "0" true "2" true " " "Message_0_v_2_FromAToB");
  D "Message_0_v_2_FromAToB" (M true "Test1" "a" "0" true "2" true " " "Message_0_v_3_FromAToB");
  D "Message_0_v_3_FromAToB" (M true "Test5" "a" "0" true "2" true " " "Message_0_v_4_FromAToB");
  D "Message_0_v_4_FromAToB" (M true "Test2" "a" "0" true "2" true " " "Message_0_v_5_FromAToB");
  D "Message_0_v_5_FromAToB" (M true "Test3" "a" "0" true "2" true " " "Message_0_v_6_FromAToB");
  D "Message_0_v_6_FromAToB" (M true "Test4" "a" "0" true "2" true " " "Message_0_v_7_FromAToB");
  D "Message_0_v_7_FromAToB" (A "End");
  D "Message_0_v_0_FromAToC" (A "End");
  D "Message_0_v_0_FromCToA" (A "End");
  D "Message_0_v_0_FromCToB" (M false "Test1" "a" "0" true "2" true " " "Message_0_v_1_FromCToB");
  D "Message_0_v_1_FromCToB" (A "End");
  D "Ordering_0_v_0_ForA" (R "B" "Ordering_0_v_1_ForA");
  D "Ordering_0_v_1_ForA" (R "B" "Ordering_0_v_2_ForA");
  D "Ordering_0_v_2_ForA" (R "B" "Ordering_0_v_3_ForA");
  D "Ordering_0_v_3_ForA" (R "B" "Ordering_0_v_4_ForA");
  D "Ordering_0_v_4_ForA" (R "B" "Ordering_0_v_5_ForA");
  D "Ordering_0_v_5_ForA" (R "B" "Ordering_0_v_6_ForA");
  D "Ordering_0_v_6_ForA" (R "B" "Ordering_0_v_7_ForA");
  D "Ordering_0_v_7_ForA" (A "RoleEnd");
  D "Ordering_0_v_0_ForB" (R "A" "Ordering_0_v_1_ForB");
  D "Ordering_0_v_1_ForB" (R "C" "Ordering_0_v_2_ForB");
  D "Ordering_0_v_2_ForB" (R "A" "Ordering_0_v_3_ForB");
  D "Ordering_0_v_3_ForB" (R "A" "Ordering_0_v_4_ForB");
  D "Ordering_0_v_4_ForB" (R "A" "Ordering_0_v_5_ForB");
  D "Ordering_0_v_5_ForB" (R "A" "Ordering_0_v_6_ForB");
  D "Ordering_0_v_6_ForB" (R "A" "Ordering_0_v_7_ForB");
  D "Ordering_0_v_7_ForB" (R "A" "Ordering_0_v_8_ForB");
  D "Ordering_0_v_8_ForB" (A "RoleEnd");
  D "Ordering_0_v_0_ForC" (R "B" "Ordering_0_v_1_ForC");
  D "Ordering_0_v_1_ForC" (A "RoleEnd")]
 []
 [
  E "Endpoint_0_ForA" ["Message_0_v_0_FromAToB"; "Message_0_v_0_FromAToC"] "Ordering_0_v_0_ForA" "A";
  E "Endpoint_0_ForB" ["Message_0_v_0_FromBToA"; "Message_0_v_0_FromBToC"] "Ordering_0_v_0_ForB" "B";
  E "Endpoint_0_ForC" ["Message_0_v_0_FromCToA"; "Message_0_v_0_FromCToB"] "Ordering_0_v_0_ForC" "C"]
 [
  F "A" [0%nat] 0 "Endpoint_0_ForA" ["a"];
  F "B" [0%nat] 0 "Endpoint_0_ForB" ["a"];
  F "C" [0%nat] 0 "Endpoint_0_ForC" ["a"]].

(** tests/nuscr_mod/correct/choice.nuscr:1-22 *)
Definition choice_lines : list str := map lit [
  "timed global protocol Choice(role A, role B, role C) {";
  "    choice at A";
  "    {";
  "        Test1() from A to B within [0;1] using a and resetting ();";
  "        Test2(payload) from A to B within [0;1] using a and resetting ();";
  "        Test3() from A to B within [0;1] using a and resetting (a);";
  "        Test4(payload) from A to B within [0;1] using a and resetting (a);";
  "        Test5(payload) from A to C within [0;1] using a and resetting ();";
  "    } or {";
  "        Test5(payload) from A to B within [0;1] using a and resetting ();";
  "        Test6(payload) from A to B within [0;1] using a and resetting ();";
  "        Test7() from A to B within [0;1] using a and resetting (a);";
  "        Test8(payload) from A to B within [0;1] using a and resetting (a);";
  "        Test5(payload) from A to C within [0;1] using a and resetting ();";
  "    } or {";
  "        Test5(payload) from A to B within [0;1] using a and resetting ();";
  "        Test6(payload) from A to B within [0;1] using a and resetting ();";
  "        Test7() from A to B within [0;1] using a and resetting (a);";
  "        Test8(payload) from A to B within [0;1] using a and resetting (a);";
  "        Test5(payload) from A to C within [0;1] using a and resetting ();";
  "    }";
  "}"].

(** tests/nuscr_mod/correct/Choice.rs:1-370 *)
Definition choice_file : rust_file := RustFile (map lit ["A"; "B"; "C"])
 [
  U "Payload";
  U "Test7";
  S1 "Test5" "Payload";
  S1 "Test8" "Payload";
  S1 "Test6" "Payload";
  S1 "Test4" "Payload";
  U "Test1";
  S1 "Test2" "Payload";
  U "Test3"]
 [
  D "Message_0_v_0_FromCToB" (A "End");
  D "Message_0_v_0_FromCToA" (M false "Choice_0_FromAToC" " " "-2" false "-1" false " " "End");
  D "Message_0_v_0_FromAToC" (M true "Choice_0_FromAToC" " " "-2" false "-1" false " " "End");
  D "Message_0_v_0_FromAToB" (M true "Choice_0_FromAToB" " " "-2" false "-1" false " " "End");
  D "Message_0_v_0_FromBToA" (M false "Choice_0_FromAToB" " " "-2" false "-1" false " " "End");
  D "Message_0_v_0_FromBToC" (A "End");
  D "Message_0_2_v_0_FromCToA" (M false "Test5" "a" "0" true "1" true " " "Message_0_2_v_1_FromCToA");
  D "Message_0_2_v_1_FromCToA" (A "End");
  D "Message_0_2_v_0_FromCToB" (A "End");
  D "Message_0_2_v_0_FromBToC" (A "End");
  D "Message_0_2_v_0_FromBToA" (M false "Test5" "a" "0" true "1" true " " "Message_0_2_v_1_FromBToA");
  D "Message_0_2_v_1_FromBToA" (M false "Test6" "a" "0" true "1" true " " "Message_0_2_v_2_FromBToA");
  D "Message_0_2_v_2_FromBToA" (M false "Test7" "a" "0" true "1" true "a" "Message_0_2_v_3_FromBToA");
  D "Message_0_2_v_3_FromBToA" (M false "Test8" "a" "0" true "1" true "a" "Message_0_2_v_4_FromBToA");
  D "Message_0_2_v_4_FromBToA" (A "End");
  D "Message_0_2_v_0_FromAToB" (M true "Test5" "a" "0" true "1" true " " "Message_0_2_v_1_FromAToB");
  D "Message_0_2_v_1_FromAToB" (M true "Test6" "a" "0" true "1" true " " "Message_0_2_v_2_FromAToB");
  D "Message_0_2_v_2_FromAToB" (M true "Test7" "a" "0" true "1" true "a" "Message_0_2_v_3_FromAToB");
  D "Message_0_2_v_3_FromAToB" (M true "Test8" "a" "0" true "1" true "a" "Message_0_2_v_4_FromAToB");
  D "Message_0_2_v_4_FromAToB" (A "End");
  D "Message_0_2_v_0_FromAToC" (M true "Test5" "a" "0" true "1" true " " "Message_0_2_v_1_FromAToC");
  D "Message_0_2_v_1_FromAToC" (A "End");
  D "Message_0_1_v_0_FromAToC" (M true "Test5" "a" "0" true "1" true " " "Message_0_1_v_1_FromAToC");
  D "Message_0_1_v_1_FromAToC" (A "End");
  D "Message_0_1_v_0_FromAToB" (M true "Test5" "a" "0" true "1" true " " "Message_0_1_v_1_FromAToB");
  D "Message_0_1_v_1_FromAToB" (M true "Test6" "a" "0" true "1" true " " "Message_0_1_v_2_FromAToB");
  D "Message_0_1_v_2_FromAToB" (M true "Test7" "a" "0" true "1" true "a" "Message_0_1_v_3_FromAToB");
  D "Message_0_1_v_3_FromAToB" (M true "Test8" "a" "0" true "1" true "a" "Message_0_1_v_4_FromAToB");
  D "Message_0_1_v_4_FromAToB" (A "End");
  D "Message_0_1_v_0_FromCToB" (A "End");
  D "Message_0_1_v_0_FromCToA" (M false "Test5" "a" "0" true "1" true " " "Message_0_1_v_1_FromCToA");
  D "Message_0_1_v_1_FromCToA" (A "End");
  D "Message_0_1_v_0_FromBToC" (A "End");
  D "Message_0_1_v_0_FromBToA" (M false "Test5" "a" "0" true "1" true " " "Message_0_1_v_1_FromBToA");
  D "Message_0_1_v_1_FromBToA" (M false "Test6" "a" "0" true "1" true " " "Message_0_1_v_2_FromBToA");
  D "Message_0_1_v_2_FromBToA" (M false "Test7" "a" "0" true "1" true "a" "Message_0_1_v_3_FromBToA");
  D "Message_0_1_v_3_FromBToA" (M false "Test8" "a" "0" true "1" true "a" "Message_0_1_v_4_FromBToA");
  D "Message_0_1_v_4_FromBToA" (A "End");
  D "Message_0_0_v_0_FromBToA" (M false "Test1" "a" "0" true "1" true " " "Message_0_0_v_1_FromBToA");
  D "Message_0_0_v_1_FromBToA" (M false "Test2" "a" "0" true "1" true " " "Message_0_0_v_2_FromBToA");
  D "Message_0_0_v_2_FromBToA" (M false "Test3" "a" "0" true "1" true "a" "Message_0_0_v_3_FromBToA");
  D "Message_0_0_v_3_FromBToA" (M false "Test4" "a" "0" true "1" true "a" "Message_0_0_v_4_FromBToA");
  D "Message_0_0_v_4_FromBToA" (A "End");
  D "Message_0_0_v_0_FromBToC" (A "End");
  D "Message_0_0_v_0_FromAToB" (M true "Test1" "a" "0" true "1" true " " "Message_0_0_v_1_FromAToB");
  D "Message_0_0_v_1_FromAToB" (M true "Test2" "a" "0" true "1" true " " "Message_0_0_v_2_FromAToB");
  D "Message_0_0_v_2_FromAToB" (M true "Test3" "a" "0" true "1" true "a" "Message_0_0_v_3_FromAToB");
  D "Message_0_0_v_3_FromAToB" (M true "Test4" "a" "0" true "1" true "a" "Message_0_0_v_4_FromAToB");
  D "Message_0_0_v_4_FromAToB" (A "End");
  D "Message_0_0_v_0_FromAToC" (M true "Test5" "a" "0" true "1" true " " "Message_0_0_v_1_FromAToC");
  D "Message_0_0_v_1_FromAToC" (A "End");
  D "Message_0_0_v_0_FromCToA" (M false "Test5" "a" "0" true "1" true " " "Message_0_0_v_1_FromCToA");
  D "Message_0_0_v_1_FromCToA" (A "End");
  D "Message_0_0_v_0_FromCToB" (A "End");
  D "Ordering_0_v_0_ForA" Broadcast;
  D "Ordering_0_v_0_ForB" (R "A" "RoleEnd");
  D "Ordering_0_v_0_ForC" (R "A" "RoleEnd");
  D "Ordering_0_2_v_0_ForA" (R "B" "Ordering_0_2_v_1_ForA");
  D "Ordering_0_2_v_1_ForA" (R "B" "Ordering_0_2_v_2_ForA");
  D "Ordering_0_2_v_2_ForA" (R "B" "Ordering_0_2_v_3_ForA");
  D "Ordering_0_2_v_3_ForA" (R "B" "Ordering_0_2_v_4_ForA");
  D "Ordering_0_2_v_4_ForA" (R "C" "Ordering_0_2_v_5_ForA");
  D "Ordering_0_2_v_5_ForA" (A "RoleEnd");
  D "Ordering_0_2_v_0_ForB" (R "A" "Ordering_0_2_v_1_ForB");
  D "Ordering_0_2_v_1_ForB" (R "A" "Ordering_0_2_v_2_ForB");
  D "Ordering_0_2_v_2_ForB" (R "A" "Ordering_0_2_v_3_ForB");
  D "Ordering_0_2_v_3_ForB" (R "A" "Ordering_0_2_v_4_ForB");
  D "Ordering_0_2_v_4_ForB" (A "RoleEnd");
  D "Ordering_0_2_v_0_ForC" (R "A" "Ordering_0_2_v_1_ForC");
  D "Ordering_0_2_v_1_ForC" (A "RoleEnd");
  D "Ordering_0_1_v_0_ForA" (R "B" "Ordering_0_1_v_1_ForA");
  D "Ordering_0_1_v_1_ForA" (R "B" "Ordering_0_1_v_2_ForA");
  D "Ordering_0_1_v_2_ForA" (R "B" "Ordering_0_1_v_3_ForA");
  D "Ordering_0_1_v_3_ForA" (R "B" "Ordering_0_1_v_4_ForA");
  D "Ordering_0_1_v_4_ForA" (R "C" "Ordering_0_1_v_5_ForA");
  D "Ordering_0_1_v_5_ForA" (A "RoleEnd");
  D "Ordering_0_1_v_0_ForC" (R "A" "Ordering_0_1_v_1_ForC");
  D "Ordering_0_1_v_1_ForC" (A "RoleEnd");
  D "Ordering_0_1_v_0_ForB" (R "A" "Ordering_0_1_v_1_ForB");
  D "Ordering_0_1_v_1_ForB" (R "A" "Ordering_0_1_v_2_ForB");
  D "Ordering_0_1_v_2_ForB" (R "A" "Ordering_0_1_v_3_ForB");
  D "Ordering_0_1_v_3_ForB" (R "A" "Ordering_0_1_v_4_ForB");
  D "Ordering_0_1_v_4_ForB" (A "RoleEnd");
  D "Ordering_0_0_v_0_ForC" (R "A" "Ordering_0_0_v_1_ForC");
  D "Ordering_0_0_v_1_ForC" (A "RoleEnd");
  D "Ordering_0_0_v_0_ForA" (R "B" "Ordering_0_0_v_1_ForA");
  D "Ordering_0_0_v_1_ForA" (R "B" "Ordering_0_0_v_2_ForA");
  D "Ordering_0_0_v_2_ForA" (R "B" "Ordering_0_0_v_3_ForA");
  D "Ordering_0_0_v_3_ForA" (R "B" "Ordering_0_0_v_4_ForA");
  D "Ordering_0_0_v_4_ForA" (R "C" "Ordering_0_0_v_5_ForA");
  D "Ordering_0_0_v_5_ForA" (A "RoleEnd");
  D "Ordering_0_0_v_0_ForB" (R "A" "Ordering_0_0_v_1_ForB");
  D "Ordering_0_0_v_1_ForB" (R "A" "Ordering_0_0_v_2_ForB");
  D "Ordering_0_0_v_2_ForB" (R "A" "Ordering_0_0_v_3_ForB");
  D "Ordering_0_0_v_3_ForB" (R "A" "Ordering_0_0_v_4_ForB");
  D "Ordering_0_0_v_4_ForB" (A "RoleEnd")]
 [
  C "Choice_0_FromAToB" ["Endpoint_0_0_ForB"; "Endpoint_0_1_ForB"; "Endpoint_0_2_ForB"];
  C "Choice_0_FromAToC" ["Endpoint_0_0_ForC"; "Endpoint_0_1_ForC"; "Endpoint_0_2_ForC"]]
 [
  E "Endpoint_0_ForA" ["Message_0_v_0_FromAToB"; "Message_0_v_0_FromAToC"] "Ordering_0_v_0_ForA" "A";
  E "Endpoint_0_ForB" ["Message_0_v_0_FromBToA"; "Message_0_v_0_FromBToC"] "Ordering_0_v_0_ForB" "B";
  E "Endpoint_0_ForC" ["Message_0_v_0_FromCToA"; "Message_0_v_0_FromCToB"] "Ordering_0_v_0_ForC" "C";
  E "Endpoint_0_2_ForA" ["Message_0_2_v_0_FromAToB"; "Message_0_2_v_0_FromAToC"] "Ordering_0_2_v_0_ForA" "A";
  E "Endpoint_0_2_ForB" ["Message_0_2_v_0_FromBToA"; "Message_0_2_v_0_FromBToC"] "Ordering_0_2_v_0_ForB" "B";
  E "Endpoint_0_2_ForC" ["Message_0_2_v_0_FromCToA"; "Message_0_2_v_0_FromCToB"] "Ordering_0_2_v_0_ForC" "C";
  E "Endpoint_0_1_ForA" ["Message_0_1_v_0_FromAToB"; "Message_0_1_v_0_FromAToC"] "Ordering_0_1_v_0_ForA" "A";
  E "Endpoint_0_1_ForB" ["Message_0_1_v_0_FromBToA"; "Message_0_1_v_0_FromBToC"] "Ordering_0_1_v_0_ForB" "B";
  E "Endpoint_0_1_ForC" ["Message_0_1_v_0_FromCToA"; "Message_0_1_v_0_FromCToB"] "Ordering_0_1_v_0_ForC" "C";
  E "Endpoint_0_0_ForA" ["Message_0_0_v_0_FromAToB"; "Message_0_0_v_0_FromAToC"] "Ordering_0_0_v_0_ForA" "A";
  E "Endpoint_0_0_ForB" ["Message_0_0_v_0_FromBToA"; "Message_0_0_v_0_FromBToC"] "Ordering_0_0_v_0_ForB" "B";
  E "Endpoint_0_0_ForC" ["Message_0_0_v_0_FromCToA"; "Message_0_0_v_0_FromCToB"] "Ordering_0_0_v_0_ForC" "C"]
 [
  F "A" [0%nat] 0 "Endpoint_0_ForA" ["a"];
  F "B" [0%nat] 0 "Endpoint_0_ForB" ["a"];
  F "C" [0%nat] 0 "Endpoint_0_ForC" ["a"];
  F "A" [0%nat; 2%nat] 0 "Endpoint_0_2_ForA" ["a"];
  F "A" [0%nat; 2%nat] 1 "Endpoint_0_2_ForA" ["a"];
  F "A" [0%nat; 2%nat] 2 "Endpoint_0_2_ForA" ["a"];
  F "B" [0%nat; 2%nat] 0 "Endpoint_0_2_ForB" ["a"];
  F "B" [0%nat; 2%nat] 1 "Endpoint_0_2_ForB" ["a"];
  F "B" [0%nat; 2%nat] 2 "Endpoint_0_2_ForB" ["a"];
  F "C" [0%nat; 2%nat] 0 "Endpoint_0_2_ForC" ["a"];
  F "C" [0%nat; 2%nat] 1 "Endpoint_0_2_ForC" ["a"];
  F "C" [0%nat; 2%nat] 2 "Endpoint_0_2_ForC" ["a"];
  F "A" [0%nat; 1%nat] 0 "Endpoint_0_1_ForA" ["a"];
  F "A" [0%nat; 1%nat] 1 "Endpoint_0_1_ForA" ["a"];
  F "B" [0%nat; 1%nat] 0 "Endpoint_0_1_ForB" ["a"];
  F "B" [0%nat; 1%nat] 1 "Endpoint_0_1_ForB" ["a"];
  F "C" [0%nat; 1%nat] 0 "Endpoint_0_1_ForC" ["a"];
  F "C" [0%nat; 1%nat] 1 "Endpoint_0_1_ForC" ["a"];
  F "A" [0%nat; 0%nat] 0 "Endpoint_0_0_ForA" ["a"];
  F "B" [0%nat; 0%nat] 0 "Endpoint_0_0_ForB" ["a"];
  F "C" [0%nat; 0%nat] 0 "Endpoint_0_0_ForC" ["a"]].

(** tests/nuscr_mod/correct/recursion.nuscr:1-20 *)
Definition recursion_lines : list str := map lit [
  "timed global protocol Recursion(role A, role B, role C) {";
  "    TestInit() from A to B within [0;1] using a and resetting ();";
  "    rec Loop {";
  "        Test0() from A to B within [0;1] using a and resetting ();";
  "        choice at A";
  "        {";
  "            Test1() from A to B within [0;1] using a and resetting ();";
  "            Test2(payload) from A to B within [0;1] using a and resetting ();";
  "            Test3() from A to B within [0;1] using a and resetting (a);";
  "            Test4(payload) from A to B within [0;1] using a and resetting (a);";
  "";
  "            continue Loop;";
  "        } or {";
  "            Test1() from A to B within [0;1] using a and resetting ();";
  "            Test2(payload) from A to B within [0;1] using a and resetting ();";
  "            Test3() from A to B within [0;1] using a and resetting (a);";
  "            Test4(payload) from A to B within [0;1] using a and resetting (a);";
  "        }";
  "    }";
  "}"].

(** tests/nuscr_mod/correct/Recursion.rs:1-258 *)
Definition recursion_file : rust_file := RustFile (map lit ["A"; "B"; "C"])
 [
  U "Payload";
  U "Test0";
  U "TestInit";
  S1 "Test2" "Payload";
  U "Test3";
  U "Test1";
  S1 "Test4" "Payload"]
 [
  D "Message_0_v_0_FromAToC" (M true "Choice_0_FromAToC" " " "-2" false "-1" false " " "End");
  D "Message_0_v_0_FromAToB" (M true "TestInit" "a" "0" true "1" true " " "Message_0_v_1_FromAToB");
  D "Message_0_v_1_FromAToB" (M true "Test0" "a" "0" true "1" true " " "Message_0_v_2_FromAToB");
  D "Message_0_v_2_FromAToB" (M true "Choice_0_FromAToB" " " "-2" false "-1" false " " "End");
  D "Message_0_v_0_FromCToB" (A "End");
  D "Message_0_v_0_FromCToA" (M false "Choice_0_FromAToC" " " "-2" false "-1" false " " "End");
  D "Message_0_v_0_FromBToA" (M false "TestInit" "a" "0" true "1" true " " "Message_0_v_1_FromBToA");
  D "Message_0_v_1_FromBToA" (M false "Test0" "a" "0" true "1" true " " "Message_0_v_2_FromBToA");
  D "Message_0_v_2_FromBToA" (M false "Choice_0_FromAToB" " " "-2" false "-1" false " " "End");
  D "Message_0_v_0_FromBToC" (A "End");
  D "Message_0_1_v_0_FromAToB" (M true "Test1" "a" "0" true "1" true " " "Message_0_1_v_1_FromAToB");
  D "Message_0_1_v_1_FromAToB" (M true "Test2" "a" "0" true "1" true " " "Message_0_1_v_2_FromAToB");
  D "Message_0_1_v_2_FromAToB" (M true "Test3" "a" "0" true "1" true "a" "Message_0_1_v_3_FromAToB");
  D "Message_0_1_v_3_FromAToB" (M true "Test4" "a" "0" true "1" true "a" "Message_0_1_v_4_FromAToB");
  D "Message_0_1_v_4_FromAToB" (A "End");
  D "Message_0_1_v_0_FromAToC" (A "End");
  D "Message_0_1_v_0_FromBToA" (M false "Test1" "a" "0" true "1" true " " "Message_0_1_v_1_FromBToA");
  D "Message_0_1_v_1_FromBToA" (M false "Test2" "a" "0" true "1" true " " "Message_0_1_v_2_FromBToA");
  D "Message_0_1_v_2_FromBToA" (M false "Test3" "a" "0" true "1" true "a" "Message_0_1_v_3_FromBToA");
  D "Message_0_1_v_3_FromBToA" (M false "Test4" "a" "0" true "1" true "a" "Message_0_1_v_4_FromBToA");
  D "Message_0_1_v_4_FromBToA" (A "End");
  D "Message_0_1_v_0_FromBToC" (A "End");
  D "Message_0_1_v_0_FromCToB" (A "End");
  D "Message_0_1_v_0_FromCToA" (A "End");
  D "Message_0_0_v_0_FromCToA" (M false "Choice_0_FromAToC" " " "-2" false "-1" false " " "End");
  D "Message_0_0_v_0_FromCToB" (A "End");
  D "Message_0_0_v_0_FromAToB" (M true "Test1" "a" "0" true "1" true " " "Message_0_0_v_1_FromAToB");
  D "Message_0_0_v_1_FromAToB" (M true "Test2" "a" "0" true "1" true " " "Message_0_0_v_2_FromAToB");
  D "Message_0_0_v_2_FromAToB" (M true "Test3" "a" "0" true "1" true "a" "Message_0_0_v_3_FromAToB");
  D "Message_0_0_v_3_FromAToB" (M true "Test4" "a" "0" true "1" true "a" "Message_0_0_v_4_FromAToB");
  D "Message_0_0_v_4_FromAToB" (M true "Test0" "a" "0" true "1" true " " "Message_0_0_v_5_FromAToB");
  D "Message_0_0_v_5_FromAToB" (M true "Choice_0_FromAToB" " " "-2" false "-1" false " " "End");
  D "Message_0_0_v_0_FromAToC" (M true "Choice_0_FromAToC" " " "-2" false "-1" false " " "End");
  D "Message_0_0_v_0_FromBToC" (A "End");
  D "Message_0_0_v_0_FromBToA" (M false "Test1" "a" "0" true "1" true " " "Message_0_0_v_1_FromBToA");
  D "Message_0_0_v_1_FromBToA" (M false "Test2" "a" "0" true "1" true " " "Message_0_0_v_2_FromBToA");
  D "Message_0_0_v_2_FromBToA" (M false "Test3" "a" "0" true "1" true "a" "Message_0_0_v_3_FromBToA");
  D "Message_0_0_v_3_FromBToA" (M false "Test4" "a" "0" true "1" true "a" "Message_0_0_v_4_FromBToA");
  D "Message_0_0_v_4_FromBToA" (M false "Test0" "a" "0" true "1" true " " "Message_0_0_v_5_FromBToA");
  D "Message_0_0_v_5_FromBToA" (M false "Choice_0_FromAToB" " " "-2" false "-1" false " " "End");
  D "Ordering_0_v_0_ForA" (R "B" "Ordering_0_v_1_ForA");
  D "Ordering_0_v_1_ForA" (R "B" "Ordering_0_v_2_ForA");
  D "Ordering_0_v_2_ForA" Broadcast;
  D "Ordering_0_v_0_ForB" (R "A" "Ordering_0_v_1_ForB");
  D "Ordering_0_v_1_ForB" (R "A" "Ordering_0_v_2_ForB");
  D "Ordering_0_v_2_ForB" (R "A" "RoleEnd");
  D "Ordering_0_v_0_ForC" (R "A" "RoleEnd");
  D "Ordering_0_1_v_0_ForC" (A "RoleEnd");
  D "Ordering_0_1_v_0_ForA" (R "B" "Ordering_0_1_v_1_ForA");
  D "Ordering_0_1_v_1_ForA" (R "B" "Ordering_0_1_v_2_ForA");
  D "Ordering_0_1_v_2_ForA" (R "B" "Ordering_0_1_v_3_ForA");
  D "Ordering_0_1_v_3_ForA" (R "B" "Ordering_0_1_v_4_ForA");
  D "Ordering_0_1_v_4_ForA" (A "RoleEnd");
  D "Ordering_0_1_v_0_ForB" (R "A" "Ordering_0_1_v_1_ForB");
  D "Ordering_0_1_v_1_ForB" (R "A" "Ordering_0_1_v_2_ForB");
  D "Ordering_0_1_v_2_ForB" (R "A" "Ordering_0_1_v_3_ForB");
  D "Ordering_0_1_v_3_ForB" (R "A" "Ordering_0_1_v_4_ForB");
  D "Ordering_0_1_v_4_ForB" (A "RoleEnd");
  D "Ordering_0_0_v_0_ForC" (R "A" "RoleEnd");
  D "Ordering_0_0_v_0_ForA" (R "B" "Ordering_0_0_v_1_ForA");
  D "Ordering_0_0_v_1_ForA" (R "B" "Ordering_0_0_v_2_ForA");
  D "Ordering_0_0_v_2_ForA" (R "B" "Ordering_0_0_v_3_ForA");
  D "Ordering_0_0_v_3_ForA" (R "B" "Ordering_0_0_v_4_ForA");
  D "Ordering_0_0_v_4_ForA" (R "B" "Ordering_0_0_v_5_ForA");
  D "Ordering_0_0_v_5_ForA" Broadcast;
  D "Ordering_0_0_v_0_ForB" (R "A" "Ordering_0_0_v_1_ForB");
  D "Ordering_0_0_v_1_ForB" (R "A" "Ordering_0_0_v_2_ForB");
  D "Ordering_0_0_v_2_ForB" (R "A" "Ordering_0_0_v_3_ForB");
  D "Ordering_0_0_v_3_ForB" (R "A" "Ordering_0_0_v_4_ForB");
  D "Ordering_0_0_v_4_ForB" (R "A" "Ordering_0_0_v_5_ForB");
  D "Ordering_0_0_v_5_ForB" (R "A" "RoleEnd")]
 [
  C "Choice_0_FromAToB" ["Endpoint_0_0_ForB"; "Endpoint_0_1_ForB"];
  C "Choice_0_FromAToC" ["Endpoint_0_0_ForC"; "Endpoint_0_1_ForC"]]
 [
  E "Endpoint_0_ForA" ["Message_0_v_0_FromAToB"; "Message_0_v_0_FromAToC"] "Ordering_0_v_0_ForA" "A";
  E "Endpoint_0_ForB" ["Message_0_v_0_FromBToA"; "Message_0_v_0_FromBToC"] "Ordering_0_v_0_ForB" "B";
  E "Endpoint_0_ForC" ["Message_0_v_0_FromCToA"; "Message_0_v_0_FromCToB"] "Ordering_0_v_0_ForC" "C";
  E "Endpoint_0_1_ForA" ["Message_0_1_v_0_FromAToB"; "Message_0_1_v_0_FromAToC"] "Ordering_0_1_v_0_ForA" "A";
  E "Endpoint_0_1_ForB" ["Message_0_1_v_0_FromBToA"; "Message_0_1_v_0_FromBToC"] "Ordering_0_1_v_0_ForB" "B";
  E "Endpoint_0_1_ForC" ["Message_0_1_v_0_FromCToA"; "Message_0_1_v_0_FromCToB"] "Ordering_0_1_v_0_ForC" "C";
  E "Endpoint_0_0_ForA" ["Message_0_0_v_0_FromAToB"; "Message_0_0_v_0_FromAToC"] "Ordering_0_0_v_0_ForA" "A";
  E "Endpoint_0_0_ForB" ["Message_0_0_v_0_FromBToA"; "Message_0_0_v_0_FromBToC"] "Ordering_0_0_v_0_ForB" "B";
  E "Endpoint_0_0_ForC" ["Message_0_0_v_0_FromCToA"; "Message_0_0_v_0_FromCToB"] "Ordering_0_0_v_0_ForC" "C"]
 [
  F "A" [0%nat] 0 "Endpoint_0_ForA" ["a"];
  F "B" [0%nat] 0 "Endpoint_0_ForB" ["a"];
  F "C" [0%nat] 0 "Endpoint_0_ForC" [];
  F "A" [0%nat; 1%nat] 0 "Endpoint_0_1_ForA" ["a"];
  F "A" [0%nat; 1%nat] 1 "Endpoint_0_1_ForA" ["a"];
  F "B" [0%nat; 1%nat] 0 "Endpoint_0_1_ForB" ["a"];
  F "B" [0%nat; 1%nat] 1 "Endpoint_0_1_ForB" ["a"];
  F "C" [0%nat; 1%nat] 0 "Endpoint_0_1_ForC" [];
  F "C" [0%nat; 1%nat] 1 "Endpoint_0_1_ForC" [];
  F "A" [0%nat; 0%nat] 0 "Endpoint_0_0_ForA" ["a"];
  F "B" [0%nat; 0%nat] 0 "Endpoint_0_0_ForB" ["a"];
  F "C" [0%nat; 0%nat] 0 "Endpoint_0_0_ForC" []].

(** tests/nuscr_mod/correct/nested_choice.nuscr:1-38 *)
Definition nested_lines : list str := map lit [
  "timed global protocol NestedChoice(role A, role B, role C) {";
  "    choice at A";
  "    {";
  "        choice at A";
  "        {";
  "            Test1() from A to B within [0;1] using a and resetting ();";
  "            Test2(payload) from A to B within [0;1] using a and resetting ();";
  "            Test3() from A to B within [0;1] using a and resetting (a);";
  "            Test4(payload) from A to B within [0;1] using a and resetting (a);";
  "        } or {";
  "            Test1() from A to B within [0;1] using a and resetting ();";
  "            Test2(payload) from A to B within [0;1] using a and resetting ();";
  "            Test3() from A to B within [0;1] using a and resetting (a);";
  "            Test4(payload) from A to B within [0;1] using a and resetting (a);";
  "        }";
  "    } or {";
  "        choice at A";
  "        {";
  "            choice at A";
  "            {";
  "                Test1() from A to B within [0;1] using a and resetting ();";
  "                Test2(payload) from A to B within [0;1] using a and resetting ();";
  "                Test3() from A to B within [0;1] using a and resetting (a);";
  "                Test4(payload) from A to B within [0;1] using a and resetting (a);";
  "            } or {";
  "                Test1() from A to B within [0;1] using a and resetting ();";
  "                Test2(payload) from A to B within [0;1] using a and resetting ();";
  "                Test3() from A to B within [0;1] using a and resetting (a);";
  "                Test4(payload) from A to B within [0;1] using a and resetting (a);";
  "            }";
  "        } or {";
  "            Test1() from A to B within [0;1] using a and resetting ();";
  "            Test2(payload) from A to B within [0;1] using a and resetting ();";
  "            Test3() from A to B within [0;1] using a and resetting (a);";
  "            Test4(payload) from A to B within [0;1] using a and resetting (a);";
  "        }";
  "    }";
  "}"].

(** tests/nuscr_mod/failing/wrong_interval.nuscr:1-4 *)
Definition wrong_interval_lines : list str := map lit [
  "timed global protocol Basic(role A, role B, role C) {";
  "    Test1() from A to B within [4;2] using a and resetting ();";
  "    Test1() from A to B within [0;2] using a and resetting ();";
  "}"].

(** tests/nuscr_mod/failing/wrong_consecutive_intervals.nuscr:1-4 *)
Definition wrong_consecutive_intervals_lines : list str := map lit [
  "timed global protocol Basic(role A, role B, role C) {";
  "    Test1() from A to B within [4;5] using a and resetting ();";
  "    Test0() from A to B within [0;2] using a and resetting ();";
  "}"].
