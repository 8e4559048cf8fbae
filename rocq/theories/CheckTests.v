(** The tests of the checker (tests/checking_mod): the types given to [checker_concat!], the lines, the types of the variants
    of the enums, the graphs that the tests expect for the roles, printed, and the expected bound. Aliases and duals are
    resolved, as [std::any::type_name] does. Written by tools/checktests_emit.py. *)
From Coq Require Import String List.
From Verif Require Import Checker CheckerSpec CheckerMacro.
Import ListNotations.
Open Scope string_scope.

(** A type by the text of its path (src/checking/mod.rs:94). *)
Definition T (path name : string) (args : list ty) : ty :=
  Node (match path with EmptyString => [] | _ => [lit path] end) (lit name) args.

(** A test (for the form, tests/checking_mod/basics/checking_recursion.rs:84-168). *)
Record check_test := CheckTest {
  ct_sessions : list ty; ct_lines : list macro_line; ct_carried : list (string * string * ty);
  ct_graphs : list (string * string); ct_bound : option nat }.

(** tests/checking_mod/basics/checking_choice.rs:81-157. *)
Definition test_checking_choice : check_test := CheckTest
  [(T "mpstthree::meshedchannels" "MeshedChannels" [(T "mpstthree::binary::struct_trait::recv" "Recv" [(T "either" "Either" [(T "mpstthree::meshedchannels" "MeshedChannels" [(T "mpstthree::binary::struct_trait::end" "End" []); (T "mpstthree::binary::struct_trait::recv" "Recv" [(T "" "i32" []); (T "mpstthree::binary::struct_trait::send" "Send" [(T "" "i32" []); (T "mpstthree::binary::struct_trait::end" "End" [])])]); (T "mpstthree::role::c" "RoleC" [(T "mpstthree::role::c" "RoleC" [(T "mpstthree::role::end" "RoleEnd" [])])]); (T "mpstthree::name::a" "NameA" [])]); (T "mpstthree::meshedchannels" "MeshedChannels" [(T "mpstthree::binary::struct_trait::end" "End" []); (T "mpstthree::binary::struct_trait::end" "End" []); (T "mpstthree::role::end" "RoleEnd" []); (T "mpstthree::name::a" "NameA" [])])]); (T "mpstthree::binary::struct_trait::end" "End" [])]); (T "mpstthree::binary::struct_trait::end" "End" []); (T "mpstthree::role::all_to_b" "RoleAlltoB" [(T "mpstthree::role::end" "RoleEnd" []); (T "mpstthree::role::end" "RoleEnd" [])]); (T "mpstthree::name::a" "NameA" [])]);
   (T "mpstthree::meshedchannels" "MeshedChannels" [(T "mpstthree::binary::struct_trait::end" "End" []); (T "mpstthree::binary::struct_trait::recv" "Recv" [(T "" "i32" []); (T "mpstthree::binary::struct_trait::send" "Send" [(T "" "i32" []); (T "mpstthree::binary::struct_trait::recv" "Recv" [(T "either" "Either" [(T "mpstthree::meshedchannels" "MeshedChannels" [(T "mpstthree::binary::struct_trait::send" "Send" [(T "" "i32" []); (T "mpstthree::binary::struct_trait::recv" "Recv" [(T "" "i32" []); (T "mpstthree::binary::struct_trait::end" "End" [])])]); (T "mpstthree::binary::struct_trait::recv" "Recv" [(T "" "i32" []); (T "mpstthree::binary::struct_trait::send" "Send" [(T "" "i32" []); (T "mpstthree::binary::struct_trait::end" "End" [])])]); (T "mpstthree::role::b" "RoleB" [(T "mpstthree::role::a" "RoleA" [(T "mpstthree::role::a" "RoleA" [(T "mpstthree::role::b" "RoleB" [(T "mpstthree::role::end" "RoleEnd" [])])])])]); (T "mpstthree::name::c" "NameC" [])]); (T "mpstthree::meshedchannels" "MeshedChannels" [(T "mpstthree::binary::struct_trait::end" "End" []); (T "mpstthree::binary::struct_trait::end" "End" []); (T "mpstthree::role::end" "RoleEnd" []); (T "mpstthree::name::c" "NameC" [])])]); (T "mpstthree::binary::struct_trait::end" "End" [])])])]); (T "mpstthree::role::b" "RoleB" [(T "mpstthree::role::b" "RoleB" [(T "mpstthree::role::all_to_b" "RoleAlltoB" [(T "mpstthree::role::end" "RoleEnd" []); (T "mpstthree::role::end" "RoleEnd" [])])])]); (T "mpstthree::name::c" "NameC" [])]);
   (T "mpstthree::meshedchannels" "MeshedChannels" [(T "mpstthree::binary::struct_trait::send" "Send" [(T "either" "Either" [(T "mpstthree::meshedchannels" "MeshedChannels" [(T "mpstthree::binary::struct_trait::end" "End" []); (T "mpstthree::binary::struct_trait::recv" "Recv" [(T "" "i32" []); (T "mpstthree::binary::struct_trait::send" "Send" [(T "" "i32" []); (T "mpstthree::binary::struct_trait::end" "End" [])])]); (T "mpstthree::role::c" "RoleC" [(T "mpstthree::role::c" "RoleC" [(T "mpstthree::role::end" "RoleEnd" [])])]); (T "mpstthree::name::a" "NameA" [])]); (T "mpstthree::meshedchannels" "MeshedChannels" [(T "mpstthree::binary::struct_trait::end" "End" []); (T "mpstthree::binary::struct_trait::end" "End" []); (T "mpstthree::role::end" "RoleEnd" []); (T "mpstthree::name::a" "NameA" [])])]); (T "mpstthree::binary::struct_trait::end" "End" [])]); (T "mpstthree::binary::struct_trait::send" "Send" [(T "" "i32" []); (T "mpstthree::binary::struct_trait::recv" "Recv" [(T "" "i32" []); (T "mpstthree::binary::struct_trait::send" "Send" [(T "either" "Either" [(T "mpstthree::meshedchannels" "MeshedChannels" [(T "mpstthree::binary::struct_trait::send" "Send" [(T "" "i32" []); (T "mpstthree::binary::struct_trait::recv" "Recv" [(T "" "i32" []); (T "mpstthree::binary::struct_trait::end" "End" [])])]); (T "mpstthree::binary::struct_trait::recv" "Recv" [(T "" "i32" []); (T "mpstthree::binary::struct_trait::send" "Send" [(T "" "i32" []); (T "mpstthree::binary::struct_trait::end" "End" [])])]); (T "mpstthree::role::b" "RoleB" [(T "mpstthree::role::a" "RoleA" [(T "mpstthree::role::a" "RoleA" [(T "mpstthree::role::b" "RoleB" [(T "mpstthree::role::end" "RoleEnd" [])])])])]); (T "mpstthree::name::c" "NameC" [])]); (T "mpstthree::meshedchannels" "MeshedChannels" [(T "mpstthree::binary::struct_trait::end" "End" []); (T "mpstthree::binary::struct_trait::end" "End" []); (T "mpstthree::role::end" "RoleEnd" []); (T "mpstthree::name::c" "NameC" [])])]); (T "mpstthree::binary::struct_trait::end" "End" [])])])]); (T "mpstthree::role::c" "RoleC" [(T "mpstthree::role::c" "RoleC" [(T "mpstthree::role::b_to_all" "RoleBtoAll" [(T "mpstthree::role::c" "RoleC" [(T "mpstthree::role::c" "RoleC" [(T "mpstthree::role::end" "RoleEnd" [])])]); (T "mpstthree::role::end" "RoleEnd" [])])])]); (T "mpstthree::name::b" "NameB" [])])]
  []
  []
  [("RoleA", "digraph {
    0 [ label = ""\""0\"""" ]
    1 [ label = ""\""0.1\"""" ]
    2 [ label = ""\""0.2\"""" ]
    3 [ label = ""\""0.3\"""" ]
    4 [ label = ""\""0.1\"""" ]
    0 -> 1 [ label = ""\""RoleA?RoleC: i32\"""" ]
    1 -> 2 [ label = ""\""RoleA!RoleC: i32\"""" ]
    2 -> 3 [ label = ""\""0\"""" ]
    0 -> 4 [ label = ""\""0\"""" ]
}
");
   ("RoleB", "digraph {
    0 [ label = ""\""0\"""" ]
    1 [ label = ""\""1\"""" ]
    2 [ label = ""\""2\"""" ]
    3 [ label = ""\""2.1\"""" ]
    4 [ label = ""\""2.2\"""" ]
    5 [ label = ""\""2.3\"""" ]
    6 [ label = ""\""2.1\"""" ]
    0 -> 1 [ label = ""\""RoleB!RoleC: i32\"""" ]
    1 -> 2 [ label = ""\""RoleB?RoleC: i32\"""" ]
    2 -> 3 [ label = ""\""RoleB!RoleC: i32\"""" ]
    3 -> 4 [ label = ""\""RoleB?RoleC: i32\"""" ]
    4 -> 5 [ label = ""\""0\"""" ]
    2 -> 6 [ label = ""\""0\"""" ]
}
");
   ("RoleC", "digraph {
    0 [ label = ""\""0\"""" ]
    1 [ label = ""\""1\"""" ]
    2 [ label = ""\""2\"""" ]
    3 [ label = ""\""2.1\"""" ]
    4 [ label = ""\""2.2\"""" ]
    5 [ label = ""\""2.3\"""" ]
    6 [ label = ""\""2.4\"""" ]
    7 [ label = ""\""2.5\"""" ]
    8 [ label = ""\""2.1\"""" ]
    0 -> 1 [ label = ""\""RoleC?RoleB: i32\"""" ]
    1 -> 2 [ label = ""\""RoleC!RoleB: i32\"""" ]
    2 -> 3 [ label = ""\""RoleC?RoleB: i32\"""" ]
    3 -> 4 [ label = ""\""RoleC!RoleA: i32\"""" ]
    4 -> 5 [ label = ""\""RoleC?RoleA: i32\"""" ]
    5 -> 6 [ label = ""\""RoleC!RoleB: i32\"""" ]
    6 -> 7 [ label = ""\""0\"""" ]
    2 -> 8 [ label = ""\""0\"""" ]
}
")]
  (Some 1).
(** tests/checking_mod/basics/checking_recursion.rs:84-168. *)
Definition test_checking_recursion : check_test := CheckTest
  [(T "mpstthree::meshedchannels" "MeshedChannels" [(T "mpstthree::binary::struct_trait::recv" "Recv" [(T "checking::checking_mod::basics::checking_recursion" "Branches0AtoB" []); (T "mpstthree::binary::struct_trait::end" "End" [])]); (T "mpstthree::binary::struct_trait::end" "End" []); (T "mpstthree::role::b" "RoleB" [(T "mpstthree::role::end" "RoleEnd" [])]); (T "mpstthree::name::a" "NameA" [])]);
   (T "mpstthree::meshedchannels" "MeshedChannels" [(T "mpstthree::binary::struct_trait::end" "End" []); (T "mpstthree::binary::struct_trait::recv" "Recv" [(T "" "i32" []); (T "mpstthree::binary::struct_trait::send" "Send" [(T "" "i32" []); (T "mpstthree::binary::struct_trait::recv" "Recv" [(T "checking::checking_mod::basics::checking_recursion" "Branches0CtoB" []); (T "mpstthree::binary::struct_trait::end" "End" [])])])]); (T "mpstthree::role::b" "RoleB" [(T "mpstthree::role::b" "RoleB" [(T "mpstthree::role::b" "RoleB" [(T "mpstthree::role::end" "RoleEnd" [])])])]); (T "mpstthree::name::c" "NameC" [])]);
   (T "mpstthree::meshedchannels" "MeshedChannels" [(T "mpstthree::binary::struct_trait::send" "Send" [(T "checking::checking_mod::basics::checking_recursion" "Branches0AtoB" []); (T "mpstthree::binary::struct_trait::end" "End" [])]); (T "mpstthree::binary::struct_trait::send" "Send" [(T "" "i32" []); (T "mpstthree::binary::struct_trait::recv" "Recv" [(T "" "i32" []); (T "mpstthree::binary::struct_trait::send" "Send" [(T "checking::checking_mod::basics::checking_recursion" "Branches0CtoB" []); (T "mpstthree::binary::struct_trait::end" "End" [])])])]); (T "mpstthree::role::c" "RoleC" [(T "mpstthree::role::c" "RoleC" [(T "mpstthree::role::broadcast" "RoleBroadcast" [])])]); (T "mpstthree::name::b" "NameB" [])])]
  [((T "mpstthree::meshedchannels" "MeshedChannels" [(T "mpstthree::binary::struct_trait::send" "Send" [(T "checking::checking_mod::basics::checking_recursion" "Branches0AtoB" []); (T "mpstthree::binary::struct_trait::end" "End" [])]); (T "mpstthree::binary::struct_trait::send" "Send" [(T "" "i32" []); (T "mpstthree::binary::struct_trait::recv" "Recv" [(T "" "i32" []); (T "mpstthree::binary::struct_trait::send" "Send" [(T "checking::checking_mod::basics::checking_recursion" "Branches0CtoB" []); (T "mpstthree::binary::struct_trait::end" "End" [])])])]); (T "mpstthree::role::c" "RoleC" [(T "mpstthree::role::c" "RoleC" [(T "mpstthree::role::broadcast" "RoleBroadcast" [])])]); (T "mpstthree::name::b" "NameB" [])]), [(lit "Branches0AtoB", lit "Video"); (lit "Branches0CtoB", lit "Video")]);
   ((T "mpstthree::meshedchannels" "MeshedChannels" [(T "mpstthree::binary::struct_trait::end" "End" []); (T "mpstthree::binary::struct_trait::end" "End" []); (T "mpstthree::role::end" "RoleEnd" []); (T "mpstthree::name::b" "NameB" [])]), [(lit "Branches0AtoB", lit "End"); (lit "Branches0CtoB", lit "End")])]
  [("Branches0CtoB", "End", (T "mpstthree::meshedchannels" "MeshedChannels" [(T "mpstthree::binary::struct_trait::end" "End" []); (T "mpstthree::binary::struct_trait::end" "End" []); (T "mpstthree::role::end" "RoleEnd" []); (T "mpstthree::name::c" "NameC" [])]));
   ("Branches0CtoB", "Video", (T "mpstthree::meshedchannels" "MeshedChannels" [(T "mpstthree::binary::struct_trait::send" "Send" [(T "" "i32" []); (T "mpstthree::binary::struct_trait::recv" "Recv" [(T "" "i32" []); (T "mpstthree::binary::struct_trait::end" "End" [])])]); (T "mpstthree::binary::struct_trait::recv" "Recv" [(T "" "i32" []); (T "mpstthree::binary::struct_trait::send" "Send" [(T "" "i32" []); (T "mpstthree::binary::struct_trait::recv" "Recv" [(T "checking::checking_mod::basics::checking_recursion" "Branches0CtoB" []); (T "mpstthree::binary::struct_trait::end" "End" [])])])]); (T "mpstthree::role::b" "RoleB" [(T "mpstthree::role::a" "RoleA" [(T "mpstthree::role::a" "RoleA" [(T "mpstthree::role::b" "RoleB" [(T "mpstthree::role::b" "RoleB" [(T "mpstthree::role::end" "RoleEnd" [])])])])])]); (T "mpstthree::name::c" "NameC" [])]));
   ("Branches0AtoB", "End", (T "mpstthree::meshedchannels" "MeshedChannels" [(T "mpstthree::binary::struct_trait::end" "End" []); (T "mpstthree::binary::struct_trait::end" "End" []); (T "mpstthree::role::end" "RoleEnd" []); (T "mpstthree::name::a" "NameA" [])]));
   ("Branches0AtoB", "Video", (T "mpstthree::meshedchannels" "MeshedChannels" [(T "mpstthree::binary::struct_trait::recv" "Recv" [(T "checking::checking_mod::basics::checking_recursion" "Branches0AtoB" []); (T "mpstthree::binary::struct_trait::end" "End" [])]); (T "mpstthree::binary::struct_trait::recv" "Recv" [(T "" "i32" []); (T "mpstthree::binary::struct_trait::send" "Send" [(T "" "i32" []); (T "mpstthree::binary::struct_trait::end" "End" [])])]); (T "mpstthree::role::c" "RoleC" [(T "mpstthree::role::c" "RoleC" [(T "mpstthree::role::b" "RoleB" [(T "mpstthree::role::end" "RoleEnd" [])])])]); (T "mpstthree::name::a" "NameA" [])]))]
  [("RoleA", "digraph {
    0 [ label = ""\""0\"""" ]
    1 [ label = ""\""0.1\"""" ]
    2 [ label = ""\""0.1\"""" ]
    3 [ label = ""\""0.2\"""" ]
    0 -> 1 [ label = ""\""0\"""" ]
    0 -> 2 [ label = ""\""RoleA?RoleC: i32\"""" ]
    2 -> 3 [ label = ""\""RoleA!RoleC: i32\"""" ]
    3 -> 0 [ label = ""\""µ\"""" ]
}
");
   ("RoleB", "digraph {
    0 [ label = ""\""0\"""" ]
    1 [ label = ""\""1\"""" ]
    2 [ label = ""\""2\"""" ]
    3 [ label = ""\""2.1\"""" ]
    4 [ label = ""\""2.1\"""" ]
    5 [ label = ""\""2.2\"""" ]
    0 -> 1 [ label = ""\""RoleB!RoleC: i32\"""" ]
    1 -> 2 [ label = ""\""RoleB?RoleC: i32\"""" ]
    2 -> 3 [ label = ""\""0\"""" ]
    2 -> 4 [ label = ""\""RoleB!RoleC: i32\"""" ]
    4 -> 5 [ label = ""\""RoleB?RoleC: i32\"""" ]
    5 -> 2 [ label = ""\""µ\"""" ]
}
");
   ("RoleC", "digraph {
    0 [ label = ""\""0\"""" ]
    1 [ label = ""\""1\"""" ]
    2 [ label = ""\""2\"""" ]
    3 [ label = ""\""2.1\"""" ]
    4 [ label = ""\""2.1\"""" ]
    5 [ label = ""\""2.2\"""" ]
    6 [ label = ""\""2.3\"""" ]
    7 [ label = ""\""2.4\"""" ]
    0 -> 1 [ label = ""\""RoleC?RoleB: i32\"""" ]
    1 -> 2 [ label = ""\""RoleC!RoleB: i32\"""" ]
    2 -> 3 [ label = ""\""0\"""" ]
    2 -> 4 [ label = ""\""RoleC?RoleB: i32\"""" ]
    4 -> 5 [ label = ""\""RoleC!RoleA: i32\"""" ]
    5 -> 6 [ label = ""\""RoleC?RoleA: i32\"""" ]
    6 -> 7 [ label = ""\""RoleC!RoleB: i32\"""" ]
    7 -> 2 [ label = ""\""µ\"""" ]
}
")]
  (Some 1).
(** tests/checking_mod/basics/checking_simple.rs:40-98. *)
Definition test_checking_simple : check_test := CheckTest
  [(T "mpstthree::meshedchannels" "MeshedChannels" [(T "mpstthree::binary::struct_trait::send" "Send" [(T "" "i32" []); (T "mpstthree::binary::struct_trait::end" "End" [])]); (T "mpstthree::binary::struct_trait::recv" "Recv" [(T "" "i32" []); (T "mpstthree::binary::struct_trait::end" "End" [])]); (T "mpstthree::role::b" "RoleB" [(T "mpstthree::role::c" "RoleC" [(T "mpstthree::role::end" "RoleEnd" [])])]); (T "mpstthree::name::a" "NameA" [])]);
   (T "mpstthree::meshedchannels" "MeshedChannels" [(T "mpstthree::binary::struct_trait::send" "Send" [(T "" "i32" []); (T "mpstthree::binary::struct_trait::end" "End" [])]); (T "mpstthree::binary::struct_trait::recv" "Recv" [(T "" "i32" []); (T "mpstthree::binary::struct_trait::end" "End" [])]); (T "mpstthree::role::a" "RoleA" [(T "mpstthree::role::b" "RoleB" [(T "mpstthree::role::end" "RoleEnd" [])])]); (T "mpstthree::name::c" "NameC" [])]);
   (T "mpstthree::meshedchannels" "MeshedChannels" [(T "mpstthree::binary::struct_trait::recv" "Recv" [(T "" "i32" []); (T "mpstthree::binary::struct_trait::end" "End" [])]); (T "mpstthree::binary::struct_trait::send" "Send" [(T "" "i32" []); (T "mpstthree::binary::struct_trait::end" "End" [])]); (T "mpstthree::role::a" "RoleA" [(T "mpstthree::role::c" "RoleC" [(T "mpstthree::role::end" "RoleEnd" [])])]); (T "mpstthree::name::b" "NameB" [])])]
  []
  []
  [("RoleA", "digraph {
    0 [ label = ""\""0\"""" ]
    1 [ label = ""\""1\"""" ]
    2 [ label = ""\""2\"""" ]
    3 [ label = ""\""3\"""" ]
    0 -> 1 [ label = ""\""RoleA!RoleB: i32\"""" ]
    1 -> 2 [ label = ""\""RoleA?RoleC: i32\"""" ]
    2 -> 3 [ label = ""\""0\"""" ]
}
");
   ("RoleB", "digraph {
    0 [ label = ""\""0\"""" ]
    1 [ label = ""\""1\"""" ]
    2 [ label = ""\""2\"""" ]
    3 [ label = ""\""3\"""" ]
    0 -> 1 [ label = ""\""RoleB?RoleA: i32\"""" ]
    1 -> 2 [ label = ""\""RoleB!RoleC: i32\"""" ]
    2 -> 3 [ label = ""\""0\"""" ]
}
");
   ("RoleC", "digraph {
    0 [ label = ""\""0\"""" ]
    1 [ label = ""\""1\"""" ]
    2 [ label = ""\""2\"""" ]
    3 [ label = ""\""3\"""" ]
    0 -> 1 [ label = ""\""RoleC!RoleA: i32\"""" ]
    1 -> 2 [ label = ""\""RoleC?RoleB: i32\"""" ]
    2 -> 3 [ label = ""\""0\"""" ]
}
")]
  (Some 1).
(** tests/checking_mod/complex/alternating_bit.rs:102-227. *)
Definition test_alternating_bit : check_test := CheckTest
  [(T "checking::checking_mod::complex::alternating_bit" "MeshedChannels" [(T "mpstthree::binary::struct_trait::send" "Send" [(T "checking::checking_mod::complex::alternating_bit" "Branches0BfromA" []); (T "mpstthree::binary::struct_trait::end" "End" [])]); (T "mpstthree::role::broadcast" "RoleBroadcast" []); (T "checking::checking_mod::complex::alternating_bit" "NameA" [])]);
   (T "checking::checking_mod::complex::alternating_bit" "MeshedChannels" [(T "mpstthree::binary::struct_trait::recv" "Recv" [(T "checking::checking_mod::complex::alternating_bit" "Branches0BfromA" []); (T "mpstthree::binary::struct_trait::end" "End" [])]); (T "checking::checking_mod::complex::alternating_bit" "RoleA" [(T "mpstthree::role::end" "RoleEnd" [])]); (T "checking::checking_mod::complex::alternating_bit" "NameB" [])])]
  [((T "checking::checking_mod::complex::alternating_bit" "MeshedChannels" [(T "mpstthree::binary::struct_trait::end" "End" []); (T "mpstthree::role::end" "RoleEnd" []); (T "checking::checking_mod::complex::alternating_bit" "NameA" [])]), [(lit "Branches0BfromA", lit "End")]);
   ((T "checking::checking_mod::complex::alternating_bit" "MeshedChannels" [(T "mpstthree::binary::struct_trait::send" "Send" [(T "checking::checking_mod::complex::alternating_bit" "D0" []); (T "mpstthree::binary::struct_trait::recv" "Recv" [(T "checking::checking_mod::complex::alternating_bit" "Branches1AfromB" []); (T "mpstthree::binary::struct_trait::end" "End" [])])]); (T "checking::checking_mod::complex::alternating_bit" "RoleB" [(T "checking::checking_mod::complex::alternating_bit" "RoleB" [(T "mpstthree::role::end" "RoleEnd" [])])]); (T "checking::checking_mod::complex::alternating_bit" "NameA" [])]), [(lit "Branches0BfromA", lit "Start")]);
   ((T "checking::checking_mod::complex::alternating_bit" "MeshedChannels" [(T "mpstthree::binary::struct_trait::end" "End" []); (T "mpstthree::role::end" "RoleEnd" []); (T "checking::checking_mod::complex::alternating_bit" "NameA" [])]), [(lit "Branches0BfromA", lit "Stop")]);
   ((T "checking::checking_mod::complex::alternating_bit" "MeshedChannels" [(T "mpstthree::binary::struct_trait::end" "End" []); (T "mpstthree::role::end" "RoleEnd" []); (T "checking::checking_mod::complex::alternating_bit" "NameB" [])]), [(lit "Branches1AfromB", lit "End")]);
   ((T "checking::checking_mod::complex::alternating_bit" "MeshedChannels" [(T "mpstthree::binary::struct_trait::recv" "Recv" [(T "checking::checking_mod::complex::alternating_bit" "D0" []); (T "mpstthree::binary::struct_trait::send" "Send" [(T "checking::checking_mod::complex::alternating_bit" "A0" []); (T "mpstthree::binary::struct_trait::send" "Send" [(T "checking::checking_mod::complex::alternating_bit" "Branches1AfromB" []); (T "mpstthree::binary::struct_trait::end" "End" [])])])]); (T "checking::checking_mod::complex::alternating_bit" "RoleA" [(T "checking::checking_mod::complex::alternating_bit" "RoleA" [(T "mpstthree::role::broadcast" "RoleBroadcast" [])])]); (T "checking::checking_mod::complex::alternating_bit" "NameB" [])]), [(lit "Branches1AfromB", lit "Looping")]);
   ((T "checking::checking_mod::complex::alternating_bit" "MeshedChannels" [(T "mpstthree::binary::struct_trait::recv" "Recv" [(T "checking::checking_mod::complex::alternating_bit" "D1" []); (T "mpstthree::binary::struct_trait::send" "Send" [(T "checking::checking_mod::complex::alternating_bit" "A1" []); (T "mpstthree::binary::struct_trait::recv" "Recv" [(T "checking::checking_mod::complex::alternating_bit" "Branches0BfromA" []); (T "mpstthree::binary::struct_trait::end" "End" [])])])]); (T "checking::checking_mod::complex::alternating_bit" "RoleA" [(T "checking::checking_mod::complex::alternating_bit" "RoleA" [(T "checking::checking_mod::complex::alternating_bit" "RoleA" [(T "mpstthree::role::end" "RoleEnd" [])])])]); (T "checking::checking_mod::complex::alternating_bit" "NameB" [])]), [(lit "Branches1AfromB", lit "Extend")]);
   ((T "checking::checking_mod::complex::alternating_bit" "MeshedChannels" [(T "mpstthree::binary::struct_trait::end" "End" []); (T "mpstthree::role::end" "RoleEnd" []); (T "checking::checking_mod::complex::alternating_bit" "NameB" [])]), [(lit "Branches2AfromB", lit "End")]);
   ((T "checking::checking_mod::complex::alternating_bit" "MeshedChannels" [(T "mpstthree::binary::struct_trait::end" "End" []); (T "mpstthree::role::end" "RoleEnd" []); (T "checking::checking_mod::complex::alternating_bit" "NameB" [])]), [(lit "Branches2AfromB", lit "Looping")]);
   ((T "checking::checking_mod::complex::alternating_bit" "MeshedChannels" [(T "mpstthree::binary::struct_trait::end" "End" []); (T "mpstthree::role::end" "RoleEnd" []); (T "checking::checking_mod::complex::alternating_bit" "NameB" [])]), [(lit "Branches2AfromB", lit "Extend")])]
  [("Branches1AfromB", "End", (T "checking::checking_mod::complex::alternating_bit" "MeshedChannels" [(T "mpstthree::binary::struct_trait::end" "End" []); (T "mpstthree::role::end" "RoleEnd" []); (T "checking::checking_mod::complex::alternating_bit" "NameA" [])]));
   ("Branches1AfromB", "Looping", (T "checking::checking_mod::complex::alternating_bit" "MeshedChannels" [(T "mpstthree::binary::struct_trait::recv" "Recv" [(T "checking::checking_mod::complex::alternating_bit" "A1" []); (T "mpstthree::binary::struct_trait::send" "Send" [(T "checking::checking_mod::complex::alternating_bit" "D0" []); (T "mpstthree::binary::struct_trait::recv" "Recv" [(T "checking::checking_mod::complex::alternating_bit" "Branches1AfromB" []); (T "mpstthree::binary::struct_trait::end" "End" [])])])]); (T "checking::checking_mod::complex::alternating_bit" "RoleB" [(T "checking::checking_mod::complex::alternating_bit" "RoleB" [(T "checking::checking_mod::complex::alternating_bit" "RoleB" [(T "mpstthree::role::end" "RoleEnd" [])])])]); (T "checking::checking_mod::complex::alternating_bit" "NameA" [])]));
   ("Branches1AfromB", "Extend", (T "checking::checking_mod::complex::alternating_bit" "MeshedChannels" [(T "mpstthree::binary::struct_trait::recv" "Recv" [(T "checking::checking_mod::complex::alternating_bit" "A0" []); (T "mpstthree::binary::struct_trait::send" "Send" [(T "checking::checking_mod::complex::alternating_bit" "D1" []); (T "mpstthree::binary::struct_trait::recv" "Recv" [(T "checking::checking_mod::complex::alternating_bit" "Branches2AfromB" []); (T "mpstthree::binary::struct_trait::end" "End" [])])])]); (T "checking::checking_mod::complex::alternating_bit" "RoleB" [(T "checking::checking_mod::complex::alternating_bit" "RoleB" [(T "checking::checking_mod::complex::alternating_bit" "RoleB" [(T "mpstthree::role::end" "RoleEnd" [])])])]); (T "checking::checking_mod::complex::alternating_bit" "NameA" [])]));
   ("Branches2AfromB", "End", (T "checking::checking_mod::complex::alternating_bit" "MeshedChannels" [(T "mpstthree::binary::struct_trait::end" "End" []); (T "mpstthree::role::end" "RoleEnd" []); (T "checking::checking_mod::complex::alternating_bit" "NameA" [])]));
   ("Branches2AfromB", "Looping", (T "checking::checking_mod::complex::alternating_bit" "MeshedChannels" [(T "mpstthree::binary::struct_trait::recv" "Recv" [(T "checking::checking_mod::complex::alternating_bit" "A0" []); (T "mpstthree::binary::struct_trait::send" "Send" [(T "checking::checking_mod::complex::alternating_bit" "D1" []); (T "mpstthree::binary::struct_trait::recv" "Recv" [(T "checking::checking_mod::complex::alternating_bit" "Branches2AfromB" []); (T "mpstthree::binary::struct_trait::end" "End" [])])])]); (T "checking::checking_mod::complex::alternating_bit" "RoleB" [(T "checking::checking_mod::complex::alternating_bit" "RoleB" [(T "checking::checking_mod::complex::alternating_bit" "RoleB" [(T "mpstthree::role::end" "RoleEnd" [])])])]); (T "checking::checking_mod::complex::alternating_bit" "NameA" [])]));
   ("Branches2AfromB", "Extend", (T "checking::checking_mod::complex::alternating_bit" "MeshedChannels" [(T "mpstthree::binary::struct_trait::recv" "Recv" [(T "checking::checking_mod::complex::alternating_bit" "A1" []); (T "mpstthree::binary::struct_trait::send" "Send" [(T "checking::checking_mod::complex::alternating_bit" "Branches0BfromA" []); (T "mpstthree::binary::struct_trait::end" "End" [])])]); (T "checking::checking_mod::complex::alternating_bit" "RoleB" [(T "mpstthree::role::broadcast" "RoleBroadcast" [])]); (T "checking::checking_mod::complex::alternating_bit" "NameA" [])]));
   ("Branches0BfromA", "End", (T "checking::checking_mod::complex::alternating_bit" "MeshedChannels" [(T "mpstthree::binary::struct_trait::end" "End" []); (T "mpstthree::role::end" "RoleEnd" []); (T "checking::checking_mod::complex::alternating_bit" "NameB" [])]));
   ("Branches0BfromA", "Start", (T "checking::checking_mod::complex::alternating_bit" "MeshedChannels" [(T "mpstthree::binary::struct_trait::recv" "Recv" [(T "checking::checking_mod::complex::alternating_bit" "D0" []); (T "mpstthree::binary::struct_trait::send" "Send" [(T "checking::checking_mod::complex::alternating_bit" "A0" []); (T "mpstthree::binary::struct_trait::send" "Send" [(T "checking::checking_mod::complex::alternating_bit" "Branches1AfromB" []); (T "mpstthree::binary::struct_trait::end" "End" [])])])]); (T "checking::checking_mod::complex::alternating_bit" "RoleA" [(T "checking::checking_mod::complex::alternating_bit" "RoleA" [(T "mpstthree::role::broadcast" "RoleBroadcast" [])])]); (T "checking::checking_mod::complex::alternating_bit" "NameB" [])]));
   ("Branches0BfromA", "Stop", (T "checking::checking_mod::complex::alternating_bit" "MeshedChannels" [(T "mpstthree::binary::struct_trait::recv" "Recv" [(T "checking::checking_mod::complex::alternating_bit" "D1" []); (T "mpstthree::binary::struct_trait::end" "End" [])]); (T "checking::checking_mod::complex::alternating_bit" "RoleA" [(T "mpstthree::role::end" "RoleEnd" [])]); (T "checking::checking_mod::complex::alternating_bit" "NameB" [])]))]
  [("RoleA", "digraph {
    0 [ label = ""\""0\"""" ]
    1 [ label = ""\""0.1\"""" ]
    2 [ label = ""\""0.1\"""" ]
    3 [ label = ""\""0.1.1\"""" ]
    4 [ label = ""\""0.1.1\"""" ]
    5 [ label = ""\""0.1.2\"""" ]
    6 [ label = ""\""0.1.2.1\"""" ]
    7 [ label = ""\""0.1.2.1\"""" ]
    8 [ label = ""\""0.1.2.1\"""" ]
    9 [ label = ""\""0.1.2.2\"""" ]
    10 [ label = ""\""0.1.1\"""" ]
    11 [ label = ""\""0.1.2\"""" ]
    12 [ label = ""\""0.1\"""" ]
    0 -> 1 [ label = ""\""0\"""" ]
    0 -> 2 [ label = ""\""RoleA!RoleB: D0\"""" ]
    2 -> 3 [ label = ""\""0\"""" ]
    2 -> 4 [ label = ""\""RoleA?RoleB: A0\"""" ]
    4 -> 5 [ label = ""\""RoleA!RoleB: D1\"""" ]
    5 -> 6 [ label = ""\""0\"""" ]
    5 -> 7 [ label = ""\""RoleA?RoleB: A1\"""" ]
    7 -> 0 [ label = ""\""µ\"""" ]
    5 -> 8 [ label = ""\""RoleA?RoleB: A0\"""" ]
    8 -> 9 [ label = ""\""RoleA!RoleB: D1\"""" ]
    9 -> 5 [ label = ""\""µ\"""" ]
    2 -> 10 [ label = ""\""RoleA?RoleB: A1\"""" ]
    10 -> 11 [ label = ""\""RoleA!RoleB: D0\"""" ]
    11 -> 2 [ label = ""\""µ\"""" ]
    0 -> 12 [ label = ""\""0\"""" ]
}
");
   ("RoleB", "digraph {
    0 [ label = ""\""0\"""" ]
    1 [ label = ""\""0.1\"""" ]
    2 [ label = ""\""0.1\"""" ]
    3 [ label = ""\""0.2\"""" ]
    4 [ label = ""\""0.2.1\"""" ]
    5 [ label = ""\""0.2.1\"""" ]
    6 [ label = ""\""0.2.2\"""" ]
    7 [ label = ""\""0.2.1\"""" ]
    8 [ label = ""\""0.2.2\"""" ]
    9 [ label = ""\""0.1\"""" ]
    10 [ label = ""\""0.2\"""" ]
    0 -> 1 [ label = ""\""0\"""" ]
    0 -> 2 [ label = ""\""RoleB?RoleA: D0\"""" ]
    2 -> 3 [ label = ""\""RoleB!RoleA: A0\"""" ]
    3 -> 4 [ label = ""\""0\"""" ]
    3 -> 5 [ label = ""\""RoleB?RoleA: D1\"""" ]
    5 -> 6 [ label = ""\""RoleB!RoleA: A1\"""" ]
    6 -> 0 [ label = ""\""µ\"""" ]
    3 -> 7 [ label = ""\""RoleB?RoleA: D0\"""" ]
    7 -> 8 [ label = ""\""RoleB!RoleA: A0\"""" ]
    8 -> 3 [ label = ""\""µ\"""" ]
    0 -> 9 [ label = ""\""RoleB?RoleA: D1\"""" ]
    9 -> 10 [ label = ""\""0\"""" ]
}
")]
  (Some 1).
(** tests/checking_mod/complex/async_paper_ext_rev_sync.rs:118-238. *)
Definition test_async_paper_ext_rev_sync : check_test := CheckTest
  [(T "checking::checking_mod::complex::async_paper_ext_rev_sync" "MeshedChannels" [(T "mpstthree::binary::struct_trait::send" "Send" [(T "checking::checking_mod::complex::async_paper_ext_rev_sync" "Branches0MfromC" []); (T "mpstthree::binary::struct_trait::end" "End" [])]); (T "mpstthree::binary::struct_trait::send" "Send" [(T "checking::checking_mod::complex::async_paper_ext_rev_sync" "Branches0SfromC" []); (T "mpstthree::binary::struct_trait::end" "End" [])]); (T "mpstthree::role::broadcast" "RoleBroadcast" []); (T "checking::checking_mod::complex::async_paper_ext_rev_sync" "NameC" [])]);
   (T "checking::checking_mod::complex::async_paper_ext_rev_sync" "MeshedChannels" [(T "mpstthree::binary::struct_trait::recv" "Recv" [(T "checking::checking_mod::complex::async_paper_ext_rev_sync" "Branches0SfromC" []); (T "mpstthree::binary::struct_trait::end" "End" [])]); (T "mpstthree::binary::struct_trait::end" "End" []); (T "checking::checking_mod::complex::async_paper_ext_rev_sync" "RoleC" [(T "mpstthree::role::end" "RoleEnd" [])]); (T "checking::checking_mod::complex::async_paper_ext_rev_sync" "NameS" [])]);
   (T "checking::checking_mod::complex::async_paper_ext_rev_sync" "MeshedChannels" [(T "mpstthree::binary::struct_trait::recv" "Recv" [(T "checking::checking_mod::complex::async_paper_ext_rev_sync" "Branches0MfromC" []); (T "mpstthree::binary::struct_trait::end" "End" [])]); (T "mpstthree::binary::struct_trait::end" "End" []); (T "checking::checking_mod::complex::async_paper_ext_rev_sync" "RoleC" [(T "mpstthree::role::end" "RoleEnd" [])]); (T "checking::checking_mod::complex::async_paper_ext_rev_sync" "NameM" [])])]
  [((T "checking::checking_mod::complex::async_paper_ext_rev_sync" "MeshedChannels" [(T "mpstthree::binary::struct_trait::end" "End" []); (T "mpstthree::binary::struct_trait::end" "End" []); (T "mpstthree::role::end" "RoleEnd" []); (T "checking::checking_mod::complex::async_paper_ext_rev_sync" "NameC" [])]), [(lit "Branches0MfromC", lit "End"); (lit "Branches0SfromC", lit "End")]);
   ((T "checking::checking_mod::complex::async_paper_ext_rev_sync" "MeshedChannels" [(T "mpstthree::binary::struct_trait::end" "End" []); (T "mpstthree::binary::struct_trait::send" "Send" [(T "checking::checking_mod::complex::async_paper_ext_rev_sync" "Req" []); (T "mpstthree::binary::struct_trait::send" "Send" [(T "checking::checking_mod::complex::async_paper_ext_rev_sync" "Data" []); (T "mpstthree::binary::struct_trait::recv" "Recv" [(T "checking::checking_mod::complex::async_paper_ext_rev_sync" "Branches1CfromS" []); (T "mpstthree::binary::struct_trait::end" "End" [])])])]); (T "checking::checking_mod::complex::async_paper_ext_rev_sync" "RoleS" [(T "checking::checking_mod::complex::async_paper_ext_rev_sync" "RoleS" [(T "checking::checking_mod::complex::async_paper_ext_rev_sync" "RoleS" [(T "mpstthree::role::end" "RoleEnd" [])])])]); (T "checking::checking_mod::complex::async_paper_ext_rev_sync" "NameC" [])]), [(lit "Branches0MfromC", lit "Looping"); (lit "Branches0SfromC", lit "Looping")]);
   ((T "checking::checking_mod::complex::async_paper_ext_rev_sync" "MeshedChannels" [(T "mpstthree::binary::struct_trait::send" "Send" [(T "checking::checking_mod::complex::async_paper_ext_rev_sync" "Okay" []); (T "mpstthree::binary::struct_trait::recv" "Recv" [(T "checking::checking_mod::complex::async_paper_ext_rev_sync" "Data" []); (T "mpstthree::binary::struct_trait::end" "End" [])])]); (T "mpstthree::binary::struct_trait::recv" "Recv" [(T "checking::checking_mod::complex::async_paper_ext_rev_sync" "Log" []); (T "mpstthree::binary::struct_trait::end" "End" [])]); (T "checking::checking_mod::complex::async_paper_ext_rev_sync" "RoleC" [(T "checking::checking_mod::complex::async_paper_ext_rev_sync" "RoleC" [(T "checking::checking_mod::complex::async_paper_ext_rev_sync" "RoleM" [(T "mpstthree::role::end" "RoleEnd" [])])])]); (T "checking::checking_mod::complex::async_paper_ext_rev_sync" "NameS" [])]), [(lit "Branches1CfromS", lit "Okay"); (lit "Branches1MfromS", lit "Okay")]);
   ((T "checking::checking_mod::complex::async_paper_ext_rev_sync" "MeshedChannels" [(T "mpstthree::binary::struct_trait::send" "Send" [(T "checking::checking_mod::complex::async_paper_ext_rev_sync" "Ko" []); (T "mpstthree::binary::struct_trait::recv" "Recv" [(T "checking::checking_mod::complex::async_paper_ext_rev_sync" "Data" []); (T "mpstthree::binary::struct_trait::recv" "Recv" [(T "checking::checking_mod::complex::async_paper_ext_rev_sync" "Branches0SfromC" []); (T "mpstthree::binary::struct_trait::end" "End" [])])])]); (T "mpstthree::binary::struct_trait::end" "End" []); (T "checking::checking_mod::complex::async_paper_ext_rev_sync" "RoleC" [(T "checking::checking_mod::complex::async_paper_ext_rev_sync" "RoleC" [(T "checking::checking_mod::complex::async_paper_ext_rev_sync" "RoleC" [(T "mpstthree::role::end" "RoleEnd" [])])])]); (T "checking::checking_mod::complex::async_paper_ext_rev_sync" "NameS" [])]), [(lit "Branches1CfromS", lit "Ko"); (lit "Branches1MfromS", lit "Ko")]);
   ((T "checking::checking_mod::complex::async_paper_ext_rev_sync" "MeshedChannels" [(T "mpstthree::binary::struct_trait::end" "End" []); (T "mpstthree::binary::struct_trait::end" "End" []); (T "mpstthree::role::end" "RoleEnd" []); (T "checking::checking_mod::complex::async_paper_ext_rev_sync" "NameS" [])]), [(lit "Branches1CfromS", lit "Error"); (lit "Branches1MfromS", lit "Error")])]
  [("Branches1CfromS", "Okay", (T "checking::checking_mod::complex::async_paper_ext_rev_sync" "MeshedChannels" [(T "mpstthree::binary::struct_trait::end" "End" []); (T "mpstthree::binary::struct_trait::recv" "Recv" [(T "checking::checking_mod::complex::async_paper_ext_rev_sync" "Okay" []); (T "mpstthree::binary::struct_trait::end" "End" [])]); (T "checking::checking_mod::complex::async_paper_ext_rev_sync" "RoleS" [(T "mpstthree::role::end" "RoleEnd" [])]); (T "checking::checking_mod::complex::async_paper_ext_rev_sync" "NameC" [])]));
   ("Branches1CfromS", "Error", (T "checking::checking_mod::complex::async_paper_ext_rev_sync" "MeshedChannels" [(T "mpstthree::binary::struct_trait::end" "End" []); (T "mpstthree::binary::struct_trait::recv" "Recv" [(T "checking::checking_mod::complex::async_paper_ext_rev_sync" "Error" []); (T "mpstthree::binary::struct_trait::end" "End" [])]); (T "checking::checking_mod::complex::async_paper_ext_rev_sync" "RoleS" [(T "mpstthree::role::end" "RoleEnd" [])]); (T "checking::checking_mod::complex::async_paper_ext_rev_sync" "NameC" [])]));
   ("Branches1CfromS", "Ko", (T "checking::checking_mod::complex::async_paper_ext_rev_sync" "MeshedChannels" [(T "mpstthree::binary::struct_trait::send" "Send" [(T "checking::checking_mod::complex::async_paper_ext_rev_sync" "Branches0MfromC" []); (T "mpstthree::binary::struct_trait::end" "End" [])]); (T "mpstthree::binary::struct_trait::recv" "Recv" [(T "checking::checking_mod::complex::async_paper_ext_rev_sync" "Ko" []); (T "mpstthree::binary::struct_trait::send" "Send" [(T "checking::checking_mod::complex::async_paper_ext_rev_sync" "Branches0SfromC" []); (T "mpstthree::binary::struct_trait::end" "End" [])])]); (T "checking::checking_mod::complex::async_paper_ext_rev_sync" "RoleS" [(T "mpstthree::role::broadcast" "RoleBroadcast" [])]); (T "checking::checking_mod::complex::async_paper_ext_rev_sync" "NameC" [])]));
   ("Branches0MfromC", "End", (T "checking::checking_mod::complex::async_paper_ext_rev_sync" "MeshedChannels" [(T "mpstthree::binary::struct_trait::end" "End" []); (T "mpstthree::binary::struct_trait::end" "End" []); (T "mpstthree::role::end" "RoleEnd" []); (T "checking::checking_mod::complex::async_paper_ext_rev_sync" "NameM" [])]));
   ("Branches0MfromC", "Looping", (T "checking::checking_mod::complex::async_paper_ext_rev_sync" "MeshedChannels" [(T "mpstthree::binary::struct_trait::end" "End" []); (T "mpstthree::binary::struct_trait::recv" "Recv" [(T "checking::checking_mod::complex::async_paper_ext_rev_sync" "Branches1MfromS" []); (T "mpstthree::binary::struct_trait::end" "End" [])]); (T "checking::checking_mod::complex::async_paper_ext_rev_sync" "RoleS" [(T "mpstthree::role::end" "RoleEnd" [])]); (T "checking::checking_mod::complex::async_paper_ext_rev_sync" "NameM" [])]));
   ("Branches1MfromS", "Okay", (T "checking::checking_mod::complex::async_paper_ext_rev_sync" "MeshedChannels" [(T "mpstthree::binary::struct_trait::end" "End" []); (T "mpstthree::binary::struct_trait::end" "End" []); (T "mpstthree::role::end" "RoleEnd" []); (T "checking::checking_mod::complex::async_paper_ext_rev_sync" "NameM" [])]));
   ("Branches1MfromS", "Error", (T "checking::checking_mod::complex::async_paper_ext_rev_sync" "MeshedChannels" [(T "mpstthree::binary::struct_trait::end" "End" []); (T "mpstthree::binary::struct_trait::send" "Send" [(T "checking::checking_mod::complex::async_paper_ext_rev_sync" "Log" []); (T "mpstthree::binary::struct_trait::end" "End" [])]); (T "checking::checking_mod::complex::async_paper_ext_rev_sync" "RoleS" [(T "mpstthree::role::end" "RoleEnd" [])]); (T "checking::checking_mod::complex::async_paper_ext_rev_sync" "NameM" [])]));
   ("Branches1MfromS", "Ko", (T "checking::checking_mod::complex::async_paper_ext_rev_sync" "MeshedChannels" [(T "mpstthree::binary::struct_trait::recv" "Recv" [(T "checking::checking_mod::complex::async_paper_ext_rev_sync" "Branches0MfromC" []); (T "mpstthree::binary::struct_trait::end" "End" [])]); (T "mpstthree::binary::struct_trait::end" "End" []); (T "checking::checking_mod::complex::async_paper_ext_rev_sync" "RoleC" [(T "mpstthree::role::end" "RoleEnd" [])]); (T "checking::checking_mod::complex::async_paper_ext_rev_sync" "NameM" [])]));
   ("Branches0SfromC", "End", (T "checking::checking_mod::complex::async_paper_ext_rev_sync" "MeshedChannels" [(T "mpstthree::binary::struct_trait::end" "End" []); (T "mpstthree::binary::struct_trait::end" "End" []); (T "mpstthree::role::end" "RoleEnd" []); (T "checking::checking_mod::complex::async_paper_ext_rev_sync" "NameS" [])]));
   ("Branches0SfromC", "Looping", (T "checking::checking_mod::complex::async_paper_ext_rev_sync" "MeshedChannels" [(T "mpstthree::binary::struct_trait::recv" "Recv" [(T "checking::checking_mod::complex::async_paper_ext_rev_sync" "Req" []); (T "mpstthree::binary::struct_trait::send" "Send" [(T "checking::checking_mod::complex::async_paper_ext_rev_sync" "Branches1CfromS" []); (T "mpstthree::binary::struct_trait::end" "End" [])])]); (T "mpstthree::binary::struct_trait::send" "Send" [(T "checking::checking_mod::complex::async_paper_ext_rev_sync" "Branches1MfromS" []); (T "mpstthree::binary::struct_trait::end" "End" [])]); (T "checking::checking_mod::complex::async_paper_ext_rev_sync" "RoleC" [(T "mpstthree::role::broadcast" "RoleBroadcast" [])]); (T "checking::checking_mod::complex::async_paper_ext_rev_sync" "NameS" [])]))]
  [("RoleS", "digraph {
    0 [ label = ""\""0\"""" ]
    1 [ label = ""\""0.1\"""" ]
    2 [ label = ""\""0.1\"""" ]
    3 [ label = ""\""0.1.1\"""" ]
    4 [ label = ""\""0.1.1\"""" ]
    5 [ label = ""\""0.1.2\"""" ]
    6 [ label = ""\""0.1.1\"""" ]
    7 [ label = ""\""0.1.2\"""" ]
    8 [ label = ""\""0.1.3\"""" ]
    9 [ label = ""\""0.1.4\"""" ]
    0 -> 1 [ label = ""\""0\"""" ]
    0 -> 2 [ label = ""\""RoleS?RoleC: Req\"""" ]
    2 -> 3 [ label = ""\""0\"""" ]
    2 -> 4 [ label = ""\""RoleS!RoleC: Ko\"""" ]
    4 -> 5 [ label = ""\""RoleS?RoleC: Data\"""" ]
    5 -> 0 [ label = ""\""µ\"""" ]
    2 -> 6 [ label = ""\""RoleS!RoleC: Okay\"""" ]
    6 -> 7 [ label = ""\""RoleS?RoleC: Data\"""" ]
    7 -> 8 [ label = ""\""RoleS?RoleM: Log\"""" ]
    8 -> 9 [ label = ""\""0\"""" ]
}
");
   ("RoleM", "digraph {
    0 [ label = ""\""0\"""" ]
    1 [ label = ""\""0.1\"""" ]
    2 [ label = ""\""0.0.1\"""" ]
    3 [ label = ""\""0.0.2\"""" ]
    4 [ label = ""\""0.0.1\"""" ]
    0 -> 1 [ label = ""\""0\"""" ]
    0 -> 2 [ label = ""\""RoleM!RoleS: Log\"""" ]
    2 -> 3 [ label = ""\""0\"""" ]
    0 -> 4 [ label = ""\""0\"""" ]
}
");
   ("RoleC", "digraph {
    0 [ label = ""\""0\"""" ]
    1 [ label = ""\""0.1\"""" ]
    2 [ label = ""\""0.1\"""" ]
    3 [ label = ""\""0.2\"""" ]
    4 [ label = ""\""0.2.1\"""" ]
    5 [ label = ""\""0.2.2\"""" ]
    6 [ label = ""\""0.2.1\"""" ]
    7 [ label = ""\""0.2.1\"""" ]
    8 [ label = ""\""0.2.2\"""" ]
    0 -> 1 [ label = ""\""0\"""" ]
    0 -> 2 [ label = ""\""RoleC!RoleS: Req\"""" ]
    2 -> 3 [ label = ""\""RoleC!RoleS: Data\"""" ]
    3 -> 4 [ label = ""\""RoleC?RoleS: Error\"""" ]
    4 -> 5 [ label = ""\""0\"""" ]
    3 -> 6 [ label = ""\""RoleC?RoleS: Ko\"""" ]
    6 -> 0 [ label = ""\""µ\"""" ]
    3 -> 7 [ label = ""\""RoleC?RoleS: Okay\"""" ]
    7 -> 8 [ label = ""\""0\"""" ]
}
")]
  (Some 1).
(** tests/checking_mod/complex/bargain.rs:98-194. *)
Definition test_bargain : check_test := CheckTest
  [(T "checking::checking_mod::complex::bargain" "MeshedChannels" [(T "mpstthree::binary::struct_trait::send" "Send" [(T "checking::checking_mod::complex::bargain" "Branches0BfromA" []); (T "mpstthree::binary::struct_trait::end" "End" [])]); (T "mpstthree::binary::struct_trait::send" "Send" [(T "checking::checking_mod::complex::bargain" "Branches0CfromA" []); (T "mpstthree::binary::struct_trait::end" "End" [])]); (T "mpstthree::role::broadcast" "RoleBroadcast" []); (T "checking::checking_mod::complex::bargain" "NameA" [])]);
   (T "checking::checking_mod::complex::bargain" "MeshedChannels" [(T "mpstthree::binary::struct_trait::recv" "Recv" [(T "checking::checking_mod::complex::bargain" "Branches0BfromA" []); (T "mpstthree::binary::struct_trait::end" "End" [])]); (T "mpstthree::binary::struct_trait::end" "End" []); (T "checking::checking_mod::complex::bargain" "RoleA" [(T "mpstthree::role::end" "RoleEnd" [])]); (T "checking::checking_mod::complex::bargain" "NameB" [])]);
   (T "checking::checking_mod::complex::bargain" "MeshedChannels" [(T "mpstthree::binary::struct_trait::recv" "Recv" [(T "checking::checking_mod::complex::bargain" "Branches0CfromA" []); (T "mpstthree::binary::struct_trait::end" "End" [])]); (T "mpstthree::binary::struct_trait::end" "End" []); (T "checking::checking_mod::complex::bargain" "RoleA" [(T "mpstthree::role::end" "RoleEnd" [])]); (T "checking::checking_mod::complex::bargain" "NameC" [])])]
  [((T "checking::checking_mod::complex::bargain" "MeshedChannels" [(T "mpstthree::binary::struct_trait::send" "Send" [(T "checking::checking_mod::complex::bargain" "Happy" []); (T "mpstthree::binary::struct_trait::end" "End" [])]); (T "mpstthree::binary::struct_trait::send" "Send" [(T "checking::checking_mod::complex::bargain" "Info" []); (T "mpstthree::binary::struct_trait::end" "End" [])]); (T "checking::checking_mod::complex::bargain" "RoleB" [(T "checking::checking_mod::complex::bargain" "RoleC" [(T "mpstthree::role::end" "RoleEnd" [])])]); (T "checking::checking_mod::complex::bargain" "NameA" [])]), [(lit "Branches0BfromA", lit "Happy"); (lit "Branches0CfromA", lit "Happy")]);
   ((T "checking::checking_mod::complex::bargain" "MeshedChannels" [(T "mpstthree::binary::struct_trait::send" "Send" [(T "checking::checking_mod::complex::bargain" "Haggle" []); (T "mpstthree::binary::struct_trait::recv" "Recv" [(T "checking::checking_mod::complex::bargain" "Price" []); (T "mpstthree::binary::struct_trait::send" "Send" [(T "checking::checking_mod::complex::bargain" "Branches0BfromA" []); (T "mpstthree::binary::struct_trait::end" "End" [])])])]); (T "mpstthree::binary::struct_trait::send" "Send" [(T "checking::checking_mod::complex::bargain" "Branches0CfromA" []); (T "mpstthree::binary::struct_trait::end" "End" [])]); (T "checking::checking_mod::complex::bargain" "RoleB" [(T "checking::checking_mod::complex::bargain" "RoleB" [(T "mpstthree::role::broadcast" "RoleBroadcast" [])])]); (T "checking::checking_mod::complex::bargain" "NameA" [])]), [(lit "Branches0BfromA", lit "Haggle"); (lit "Branches0CfromA", lit "Haggle")]);
   ((T "checking::checking_mod::complex::bargain" "MeshedChannels" [(T "mpstthree::binary::struct_trait::end" "End" []); (T "mpstthree::binary::struct_trait::end" "End" []); (T "mpstthree::role::end" "RoleEnd" []); (T "checking::checking_mod::complex::bargain" "NameA" [])]), [(lit "Branches0BfromA", lit "End"); (lit "Branches0CfromA", lit "End")])]
  [("Branches0BfromA", "End", (T "checking::checking_mod::complex::bargain" "MeshedChannels" [(T "mpstthree::binary::struct_trait::end" "End" []); (T "mpstthree::binary::struct_trait::end" "End" []); (T "mpstthree::role::end" "RoleEnd" []); (T "checking::checking_mod::complex::bargain" "NameB" [])]));
   ("Branches0BfromA", "Haggle", (T "checking::checking_mod::complex::bargain" "MeshedChannels" [(T "mpstthree::binary::struct_trait::recv" "Recv" [(T "checking::checking_mod::complex::bargain" "Haggle" []); (T "mpstthree::binary::struct_trait::send" "Send" [(T "checking::checking_mod::complex::bargain" "Price" []); (T "mpstthree::binary::struct_trait::recv" "Recv" [(T "checking::checking_mod::complex::bargain" "Branches0BfromA" []); (T "mpstthree::binary::struct_trait::end" "End" [])])])]); (T "mpstthree::binary::struct_trait::end" "End" []); (T "checking::checking_mod::complex::bargain" "RoleA" [(T "checking::checking_mod::complex::bargain" "RoleA" [(T "checking::checking_mod::complex::bargain" "RoleA" [(T "mpstthree::role::end" "RoleEnd" [])])])]); (T "checking::checking_mod::complex::bargain" "NameB" [])]));
   ("Branches0BfromA", "Happy", (T "checking::checking_mod::complex::bargain" "MeshedChannels" [(T "mpstthree::binary::struct_trait::recv" "Recv" [(T "checking::checking_mod::complex::bargain" "Happy" []); (T "mpstthree::binary::struct_trait::end" "End" [])]); (T "mpstthree::binary::struct_trait::end" "End" []); (T "checking::checking_mod::complex::bargain" "RoleA" [(T "mpstthree::role::end" "RoleEnd" [])]); (T "checking::checking_mod::complex::bargain" "NameB" [])]));
   ("Branches0CfromA", "End", (T "checking::checking_mod::complex::bargain" "MeshedChannels" [(T "mpstthree::binary::struct_trait::end" "End" []); (T "mpstthree::binary::struct_trait::end" "End" []); (T "mpstthree::role::end" "RoleEnd" []); (T "checking::checking_mod::complex::bargain" "NameC" [])]));
   ("Branches0CfromA", "Haggle", (T "checking::checking_mod::complex::bargain" "MeshedChannels" [(T "mpstthree::binary::struct_trait::recv" "Recv" [(T "checking::checking_mod::complex::bargain" "Branches0CfromA" []); (T "mpstthree::binary::struct_trait::end" "End" [])]); (T "mpstthree::binary::struct_trait::end" "End" []); (T "checking::checking_mod::complex::bargain" "RoleA" [(T "mpstthree::role::end" "RoleEnd" [])]); (T "checking::checking_mod::complex::bargain" "NameC" [])]));
   ("Branches0CfromA", "Happy", (T "checking::checking_mod::complex::bargain" "MeshedChannels" [(T "mpstthree::binary::struct_trait::recv" "Recv" [(T "checking::checking_mod::complex::bargain" "Info" []); (T "mpstthree::binary::struct_trait::end" "End" [])]); (T "mpstthree::binary::struct_trait::end" "End" []); (T "checking::checking_mod::complex::bargain" "RoleA" [(T "mpstthree::role::end" "RoleEnd" [])]); (T "checking::checking_mod::complex::bargain" "NameC" [])]))]
  [("RoleA", "digraph {
    0 [ label = ""\""0\"""" ]
    1 [ label = ""\""0.1\"""" ]
    2 [ label = ""\""0.1\"""" ]
    3 [ label = ""\""0.2\"""" ]
    4 [ label = ""\""0.1\"""" ]
    5 [ label = ""\""0.2\"""" ]
    6 [ label = ""\""0.3\"""" ]
    0 -> 1 [ label = ""\""0\"""" ]
    0 -> 2 [ label = ""\""RoleA!RoleB: Haggle\"""" ]
    2 -> 3 [ label = ""\""RoleA?RoleB: Price\"""" ]
    3 -> 0 [ label = ""\""µ\"""" ]
    0 -> 4 [ label = ""\""RoleA!RoleB: Happy\"""" ]
    4 -> 5 [ label = ""\""RoleA!RoleC: Info\"""" ]
    5 -> 6 [ label = ""\""0\"""" ]
}
");
   ("RoleB", "digraph {
    0 [ label = ""\""0\"""" ]
    1 [ label = ""\""0.1\"""" ]
    2 [ label = ""\""0.1\"""" ]
    3 [ label = ""\""0.2\"""" ]
    4 [ label = ""\""0.1\"""" ]
    5 [ label = ""\""0.2\"""" ]
    0 -> 1 [ label = ""\""0\"""" ]
    0 -> 2 [ label = ""\""RoleB?RoleA: Haggle\"""" ]
    2 -> 3 [ label = ""\""RoleB!RoleA: Price\"""" ]
    3 -> 0 [ label = ""\""µ\"""" ]
    0 -> 4 [ label = ""\""RoleB?RoleA: Happy\"""" ]
    4 -> 5 [ label = ""\""0\"""" ]
}
");
   ("RoleC", "digraph {
    0 [ label = ""\""0\"""" ]
    1 [ label = ""\""0.1\"""" ]
    2 [ label = ""\""0.1\"""" ]
    3 [ label = ""\""0.2\"""" ]
    0 -> 1 [ label = ""\""0\"""" ]
    0 -> 2 [ label = ""\""RoleC?RoleA: Info\"""" ]
    2 -> 3 [ label = ""\""0\"""" ]
}
")]
  (Some 1).
(** tests/checking_mod/complex/cloud_system.rs:190-323. *)
Definition test_cloud_system : check_test := CheckTest
  [(T "checking::checking_mod::complex::cloud_system" "MeshedChannels" [(T "mpstthree::binary::struct_trait::send" "Send" [(T "checking::checking_mod::complex::cloud_system" "Branches0BfromA" []); (T "mpstthree::binary::struct_trait::end" "End" [])]); (T "mpstthree::binary::struct_trait::send" "Send" [(T "checking::checking_mod::complex::cloud_system" "Branches0CfromA" []); (T "mpstthree::binary::struct_trait::end" "End" [])]); (T "mpstthree::binary::struct_trait::send" "Send" [(T "checking::checking_mod::complex::cloud_system" "Branches0DfromA" []); (T "mpstthree::binary::struct_trait::end" "End" [])]); (T "mpstthree::role::broadcast" "RoleBroadcast" []); (T "checking::checking_mod::complex::cloud_system" "NameA" [])]);
   (T "checking::checking_mod::complex::cloud_system" "MeshedChannels" [(T "mpstthree::binary::struct_trait::recv" "Recv" [(T "checking::checking_mod::complex::cloud_system" "Branches0BfromA" []); (T "mpstthree::binary::struct_trait::end" "End" [])]); (T "mpstthree::binary::struct_trait::end" "End" []); (T "mpstthree::binary::struct_trait::end" "End" []); (T "checking::checking_mod::complex::cloud_system" "RoleA" [(T "mpstthree::role::end" "RoleEnd" [])]); (T "checking::checking_mod::complex::cloud_system" "NameB" [])]);
   (T "checking::checking_mod::complex::cloud_system" "MeshedChannels" [(T "mpstthree::binary::struct_trait::recv" "Recv" [(T "checking::checking_mod::complex::cloud_system" "Branches0CfromA" []); (T "mpstthree::binary::struct_trait::end" "End" [])]); (T "mpstthree::binary::struct_trait::end" "End" []); (T "mpstthree::binary::struct_trait::end" "End" []); (T "checking::checking_mod::complex::cloud_system" "RoleA" [(T "mpstthree::role::end" "RoleEnd" [])]); (T "checking::checking_mod::complex::cloud_system" "NameC" [])]);
   (T "checking::checking_mod::complex::cloud_system" "MeshedChannels" [(T "mpstthree::binary::struct_trait::recv" "Recv" [(T "checking::checking_mod::complex::cloud_system" "Branches0DfromA" []); (T "mpstthree::binary::struct_trait::end" "End" [])]); (T "mpstthree::binary::struct_trait::end" "End" []); (T "mpstthree::binary::struct_trait::end" "End" []); (T "checking::checking_mod::complex::cloud_system" "RoleA" [(T "mpstthree::role::end" "RoleEnd" [])]); (T "checking::checking_mod::complex::cloud_system" "NameD" [])])]
  [((T "checking::checking_mod::complex::cloud_system" "MeshedChannels" [(T "mpstthree::binary::struct_trait::end" "End" []); (T "mpstthree::binary::struct_trait::end" "End" []); (T "mpstthree::binary::struct_trait::end" "End" []); (T "mpstthree::role::end" "RoleEnd" []); (T "checking::checking_mod::complex::cloud_system" "NameA" [])]), [(lit "Branches0BfromA", lit "End"); (lit "Branches0CfromA", lit "End"); (lit "Branches0DfromA", lit "End")]);
   ((T "checking::checking_mod::complex::cloud_system" "MeshedChannels" [(T "mpstthree::binary::struct_trait::send" "Send" [(T "checking::checking_mod::complex::cloud_system" "Branches1BfromA" []); (T "mpstthree::binary::struct_trait::end" "End" [])]); (T "mpstthree::binary::struct_trait::send" "Send" [(T "checking::checking_mod::complex::cloud_system" "Connect" []); (T "mpstthree::binary::struct_trait::recv" "Recv" [(T "checking::checking_mod::complex::cloud_system" "SyncAccess" []); (T "mpstthree::binary::struct_trait::send" "Send" [(T "checking::checking_mod::complex::cloud_system" "Branches1CfromA" []); (T "mpstthree::binary::struct_trait::end" "End" [])])])]); (T "mpstthree::binary::struct_trait::send" "Send" [(T "checking::checking_mod::complex::cloud_system" "Branches1DfromA" []); (T "mpstthree::binary::struct_trait::end" "End" [])]); (T "checking::checking_mod::complex::cloud_system" "RoleC" [(T "checking::checking_mod::complex::cloud_system" "RoleC" [(T "mpstthree::role::broadcast" "RoleBroadcast" [])])]); (T "checking::checking_mod::complex::cloud_system" "NameA" [])]), [(lit "Branches0BfromA", lit "Connect"); (lit "Branches0CfromA", lit "Connect"); (lit "Branches0DfromA", lit "Connect")]);
   ((T "checking::checking_mod::complex::cloud_system" "MeshedChannels" [(T "mpstthree::binary::struct_trait::send" "Send" [(T "checking::checking_mod::complex::cloud_system" "Access" []); (T "mpstthree::binary::struct_trait::send" "Send" [(T "checking::checking_mod::complex::cloud_system" "Branches1BfromA" []); (T "mpstthree::binary::struct_trait::end" "End" [])])]); (T "mpstthree::binary::struct_trait::send" "Send" [(T "checking::checking_mod::complex::cloud_system" "Branches1CfromA" []); (T "mpstthree::binary::struct_trait::end" "End" [])]); (T "mpstthree::binary::struct_trait::send" "Send" [(T "checking::checking_mod::complex::cloud_system" "Branches1DfromA" []); (T "mpstthree::binary::struct_trait::end" "End" [])]); (T "checking::checking_mod::complex::cloud_system" "RoleB" [(T "mpstthree::role::broadcast" "RoleBroadcast" [])]); (T "checking::checking_mod::complex::cloud_system" "NameA" [])]), [(lit "Branches1BfromA", lit "Looping"); (lit "Branches1CfromA", lit "Looping"); (lit "Branches1DfromA", lit "Looping")]);
   ((T "checking::checking_mod::complex::cloud_system" "MeshedChannels" [(T "mpstthree::binary::struct_trait::send" "Send" [(T "checking::checking_mod::complex::cloud_system" "SyncLogout" []); (T "mpstthree::binary::struct_trait::recv" "Recv" [(T "checking::checking_mod::complex::cloud_system" "SyncLog" []); (T "mpstthree::binary::struct_trait::send" "Send" [(T "checking::checking_mod::complex::cloud_system" "Branches0BfromA" []); (T "mpstthree::binary::struct_trait::end" "End" [])])])]); (T "mpstthree::binary::struct_trait::send" "Send" [(T "checking::checking_mod::complex::cloud_system" "Logout" []); (T "mpstthree::binary::struct_trait::send" "Send" [(T "checking::checking_mod::complex::cloud_system" "Branches0CfromA" []); (T "mpstthree::binary::struct_trait::end" "End" [])])]); (T "mpstthree::binary::struct_trait::send" "Send" [(T "checking::checking_mod::complex::cloud_system" "Branches0DfromA" []); (T "mpstthree::binary::struct_trait::end" "End" [])]); (T "checking::checking_mod::complex::cloud_system" "RoleC" [(T "checking::checking_mod::complex::cloud_system" "RoleB" [(T "checking::checking_mod::complex::cloud_system" "RoleB" [(T "mpstthree::role::broadcast" "RoleBroadcast" [])])])]); (T "checking::checking_mod::complex::cloud_system" "NameA" [])]), [(lit "Branches1BfromA", lit "Logging"); (lit "Branches1CfromA", lit "Logging"); (lit "Branches1DfromA", lit "Logging")])]
  [("Branches0BfromA", "End", (T "checking::checking_mod::complex::cloud_system" "MeshedChannels" [(T "mpstthree::binary::struct_trait::end" "End" []); (T "mpstthree::binary::struct_trait::end" "End" []); (T "mpstthree::binary::struct_trait::end" "End" []); (T "mpstthree::role::end" "RoleEnd" []); (T "checking::checking_mod::complex::cloud_system" "NameB" [])]));
   ("Branches0BfromA", "Connect", (T "checking::checking_mod::complex::cloud_system" "MeshedChannels" [(T "mpstthree::binary::struct_trait::recv" "Recv" [(T "checking::checking_mod::complex::cloud_system" "Branches1BfromA" []); (T "mpstthree::binary::struct_trait::end" "End" [])]); (T "mpstthree::binary::struct_trait::recv" "Recv" [(T "checking::checking_mod::complex::cloud_system" "Setup" []); (T "mpstthree::binary::struct_trait::end" "End" [])]); (T "mpstthree::binary::struct_trait::end" "End" []); (T "checking::checking_mod::complex::cloud_system" "RoleC" [(T "checking::checking_mod::complex::cloud_system" "RoleA" [(T "mpstthree::role::end" "RoleEnd" [])])]); (T "checking::checking_mod::complex::cloud_system" "NameB" [])]));
   ("Branches1BfromA", "Looping", (T "checking::checking_mod::complex::cloud_system" "MeshedChannels" [(T "mpstthree::binary::struct_trait::recv" "Recv" [(T "checking::checking_mod::complex::cloud_system" "Access" []); (T "mpstthree::binary::struct_trait::recv" "Recv" [(T "checking::checking_mod::complex::cloud_system" "Branches1BfromA" []); (T "mpstthree::binary::struct_trait::end" "End" [])])]); (T "mpstthree::binary::struct_trait::end" "End" []); (T "mpstthree::binary::struct_trait::end" "End" []); (T "checking::checking_mod::complex::cloud_system" "RoleA" [(T "checking::checking_mod::complex::cloud_system" "RoleA" [(T "mpstthree::role::end" "RoleEnd" [])])]); (T "checking::checking_mod::complex::cloud_system" "NameB" [])]));
   ("Branches1BfromA", "Logging", (T "checking::checking_mod::complex::cloud_system" "MeshedChannels" [(T "mpstthree::binary::struct_trait::recv" "Recv" [(T "checking::checking_mod::complex::cloud_system" "SyncLogout" []); (T "mpstthree::binary::struct_trait::send" "Send" [(T "checking::checking_mod::complex::cloud_system" "SyncLog" []); (T "mpstthree::binary::struct_trait::recv" "Recv" [(T "checking::checking_mod::complex::cloud_system" "Branches0BfromA" []); (T "mpstthree::binary::struct_trait::end" "End" [])])])]); (T "mpstthree::binary::struct_trait::end" "End" []); (T "mpstthree::binary::struct_trait::send" "Send" [(T "checking::checking_mod::complex::cloud_system" "Log" []); (T "mpstthree::binary::struct_trait::end" "End" [])]); (T "checking::checking_mod::complex::cloud_system" "RoleA" [(T "checking::checking_mod::complex::cloud_system" "RoleD" [(T "checking::checking_mod::complex::cloud_system" "RoleA" [(T "checking::checking_mod::complex::cloud_system" "RoleA" [(T "mpstthree::role::end" "RoleEnd" [])])])])]); (T "checking::checking_mod::complex::cloud_system" "NameB" [])]));
   ("Branches0CfromA", "End", (T "checking::checking_mod::complex::cloud_system" "MeshedChannels" [(T "mpstthree::binary::struct_trait::end" "End" []); (T "mpstthree::binary::struct_trait::end" "End" []); (T "mpstthree::binary::struct_trait::end" "End" []); (T "mpstthree::role::end" "RoleEnd" []); (T "checking::checking_mod::complex::cloud_system" "NameC" [])]));
   ("Branches0CfromA", "Connect", (T "checking::checking_mod::complex::cloud_system" "MeshedChannels" [(T "mpstthree::binary::struct_trait::recv" "Recv" [(T "checking::checking_mod::complex::cloud_system" "Connect" []); (T "mpstthree::binary::struct_trait::recv" "Recv" [(T "checking::checking_mod::complex::cloud_system" "Branches1CfromA" []); (T "mpstthree::binary::struct_trait::end" "End" [])])]); (T "mpstthree::binary::struct_trait::end" "End" []); (T "mpstthree::binary::struct_trait::end" "End" []); (T "checking::checking_mod::complex::cloud_system" "RoleA" [(T "checking::checking_mod::complex::cloud_system" "RoleA" [(T "mpstthree::role::end" "RoleEnd" [])])]); (T "checking::checking_mod::complex::cloud_system" "NameC" [])]));
   ("Branches1CfromA", "Looping", (T "checking::checking_mod::complex::cloud_system" "MeshedChannels" [(T "mpstthree::binary::struct_trait::recv" "Recv" [(T "checking::checking_mod::complex::cloud_system" "Branches1CfromA" []); (T "mpstthree::binary::struct_trait::end" "End" [])]); (T "mpstthree::binary::struct_trait::end" "End" []); (T "mpstthree::binary::struct_trait::end" "End" []); (T "checking::checking_mod::complex::cloud_system" "RoleA" [(T "mpstthree::role::end" "RoleEnd" [])]); (T "checking::checking_mod::complex::cloud_system" "NameC" [])]));
   ("Branches1CfromA", "Logging", (T "checking::checking_mod::complex::cloud_system" "MeshedChannels" [(T "mpstthree::binary::struct_trait::send" "Send" [(T "checking::checking_mod::complex::cloud_system" "SyncAccess" []); (T "mpstthree::binary::struct_trait::recv" "Recv" [(T "checking::checking_mod::complex::cloud_system" "Logout" []); (T "mpstthree::binary::struct_trait::recv" "Recv" [(T "checking::checking_mod::complex::cloud_system" "Branches0CfromA" []); (T "mpstthree::binary::struct_trait::end" "End" [])])])]); (T "mpstthree::binary::struct_trait::send" "Send" [(T "checking::checking_mod::complex::cloud_system" "Setup" []); (T "mpstthree::binary::struct_trait::end" "End" [])]); (T "mpstthree::binary::struct_trait::end" "End" []); (T "checking::checking_mod::complex::cloud_system" "RoleB" [(T "checking::checking_mod::complex::cloud_system" "RoleA" [(T "checking::checking_mod::complex::cloud_system" "RoleA" [(T "checking::checking_mod::complex::cloud_system" "RoleA" [(T "mpstthree::role::end" "RoleEnd" [])])])])]); (T "checking::checking_mod::complex::cloud_system" "NameC" [])]));
   ("Branches0DfromA", "End", (T "checking::checking_mod::complex::cloud_system" "MeshedChannels" [(T "mpstthree::binary::struct_trait::end" "End" []); (T "mpstthree::binary::struct_trait::end" "End" []); (T "mpstthree::binary::struct_trait::end" "End" []); (T "mpstthree::role::end" "RoleEnd" []); (T "checking::checking_mod::complex::cloud_system" "NameD" [])]));
   ("Branches0DfromA", "Connect", (T "checking::checking_mod::complex::cloud_system" "MeshedChannels" [(T "mpstthree::binary::struct_trait::recv" "Recv" [(T "checking::checking_mod::complex::cloud_system" "Branches1DfromA" []); (T "mpstthree::binary::struct_trait::end" "End" [])]); (T "mpstthree::binary::struct_trait::end" "End" []); (T "mpstthree::binary::struct_trait::end" "End" []); (T "checking::checking_mod::complex::cloud_system" "RoleA" [(T "mpstthree::role::end" "RoleEnd" [])]); (T "checking::checking_mod::complex::cloud_system" "NameD" [])]));
   ("Branches1DfromA", "Looping", (T "checking::checking_mod::complex::cloud_system" "MeshedChannels" [(T "mpstthree::binary::struct_trait::recv" "Recv" [(T "checking::checking_mod::complex::cloud_system" "Branches1CfromA" []); (T "mpstthree::binary::struct_trait::end" "End" [])]); (T "mpstthree::binary::struct_trait::end" "End" []); (T "mpstthree::binary::struct_trait::end" "End" []); (T "checking::checking_mod::complex::cloud_system" "RoleA" [(T "mpstthree::role::end" "RoleEnd" [])]); (T "checking::checking_mod::complex::cloud_system" "NameD" [])]));
   ("Branches1DfromA", "Logging", (T "checking::checking_mod::complex::cloud_system" "MeshedChannels" [(T "mpstthree::binary::struct_trait::recv" "Recv" [(T "checking::checking_mod::complex::cloud_system" "Branches0DfromA" []); (T "mpstthree::binary::struct_trait::end" "End" [])]); (T "mpstthree::binary::struct_trait::recv" "Recv" [(T "checking::checking_mod::complex::cloud_system" "Log" []); (T "mpstthree::binary::struct_trait::end" "End" [])]); (T "mpstthree::binary::struct_trait::end" "End" []); (T "checking::checking_mod::complex::cloud_system" "RoleB" [(T "checking::checking_mod::complex::cloud_system" "RoleA" [(T "mpstthree::role::end" "RoleEnd" [])])]); (T "checking::checking_mod::complex::cloud_system" "NameD" [])]))]
  [("RoleA", "digraph {
    0 [ label = ""\""0\"""" ]
    1 [ label = ""\""0.1\"""" ]
    2 [ label = ""\""0.2\"""" ]
    3 [ label = ""\""0.2.1\"""" ]
    4 [ label = ""\""0.2.2\"""" ]
    5 [ label = ""\""0.2.3\"""" ]
    6 [ label = ""\""0.2.1\"""" ]
    7 [ label = ""\""0.1\"""" ]
    0 -> 1 [ label = ""\""RoleA!RoleC: Connect\"""" ]
    1 -> 2 [ label = ""\""RoleA?RoleC: SyncAccess\"""" ]
    2 -> 3 [ label = ""\""RoleA!RoleC: Logout\"""" ]
    3 -> 4 [ label = ""\""RoleA!RoleB: SyncLogout\"""" ]
    4 -> 5 [ label = ""\""RoleA?RoleB: SyncLog\"""" ]
    5 -> 0 [ label = ""\""µ\"""" ]
    2 -> 6 [ label = ""\""RoleA!RoleB: Access\"""" ]
    6 -> 2 [ label = ""\""µ\"""" ]
    0 -> 7 [ label = ""\""0\"""" ]
}
");
   ("RoleB", "digraph {
    0 [ label = ""\""0\"""" ]
    1 [ label = ""\""0.1\"""" ]
    2 [ label = ""\""0.1.1\"""" ]
    3 [ label = ""\""0.1.2\"""" ]
    4 [ label = ""\""0.1.3\"""" ]
    5 [ label = ""\""0.1.1\"""" ]
    6 [ label = ""\""0.1\"""" ]
    0 -> 1 [ label = ""\""RoleB?RoleC: Setup\"""" ]
    1 -> 2 [ label = ""\""RoleB?RoleA: SyncLogout\"""" ]
    2 -> 3 [ label = ""\""RoleB!RoleD: Log\"""" ]
    3 -> 4 [ label = ""\""RoleB!RoleA: SyncLog\"""" ]
    4 -> 0 [ label = ""\""µ\"""" ]
    1 -> 5 [ label = ""\""RoleB?RoleA: Access\"""" ]
    5 -> 1 [ label = ""\""µ\"""" ]
    0 -> 6 [ label = ""\""0\"""" ]
}
");
   ("RoleC", "digraph {
    0 [ label = ""\""0\"""" ]
    1 [ label = ""\""0.1\"""" ]
    2 [ label = ""\""0.1.1\"""" ]
    3 [ label = ""\""0.1.2\"""" ]
    4 [ label = ""\""0.1.3\"""" ]
    5 [ label = ""\""0.1\"""" ]
    0 -> 1 [ label = ""\""RoleC?RoleA: Connect\"""" ]
    1 -> 2 [ label = ""\""RoleC!RoleB: Setup\"""" ]
    2 -> 3 [ label = ""\""RoleC!RoleA: SyncAccess\"""" ]
    3 -> 4 [ label = ""\""RoleC?RoleA: Logout\"""" ]
    4 -> 0 [ label = ""\""µ\"""" ]
    0 -> 5 [ label = ""\""0\"""" ]
}
");
   ("RoleD", "digraph {
    0 [ label = ""\""0\"""" ]
    1 [ label = ""\""0.0.1\"""" ]
    2 [ label = ""\""0.1\"""" ]
    0 -> 1 [ label = ""\""RoleD?RoleB: Log\"""" ]
    1 -> 0 [ label = ""\""µ\"""" ]
    0 -> 2 [ label = ""\""0\"""" ]
}
")]
  (Some 2).
(** tests/checking_mod/complex/commit_protocol.rs:161-277. *)
Definition test_commit_protocol : check_test := CheckTest
  [(T "checking::checking_mod::complex::commit_protocol" "MeshedChannels" [(T "mpstthree::binary::struct_trait::send" "Send" [(T "checking::checking_mod::complex::commit_protocol" "Branches0BfromA" []); (T "mpstthree::binary::struct_trait::end" "End" [])]); (T "mpstthree::binary::struct_trait::send" "Send" [(T "checking::checking_mod::complex::commit_protocol" "Branches0CfromA" []); (T "mpstthree::binary::struct_trait::end" "End" [])]); (T "mpstthree::binary::struct_trait::send" "Send" [(T "checking::checking_mod::complex::commit_protocol" "Branches0DfromA" []); (T "mpstthree::binary::struct_trait::end" "End" [])]); (T "mpstthree::role::broadcast" "RoleBroadcast" []); (T "checking::checking_mod::complex::commit_protocol" "NameA" [])]);
   (T "checking::checking_mod::complex::commit_protocol" "MeshedChannels" [(T "mpstthree::binary::struct_trait::recv" "Recv" [(T "checking::checking_mod::complex::commit_protocol" "Branches0BfromA" []); (T "mpstthree::binary::struct_trait::end" "End" [])]); (T "mpstthree::binary::struct_trait::end" "End" []); (T "mpstthree::binary::struct_trait::end" "End" []); (T "checking::checking_mod::complex::commit_protocol" "RoleA" [(T "mpstthree::role::end" "RoleEnd" [])]); (T "checking::checking_mod::complex::commit_protocol" "NameB" [])]);
   (T "checking::checking_mod::complex::commit_protocol" "MeshedChannels" [(T "mpstthree::binary::struct_trait::recv" "Recv" [(T "checking::checking_mod::complex::commit_protocol" "Branches0CfromA" []); (T "mpstthree::binary::struct_trait::end" "End" [])]); (T "mpstthree::binary::struct_trait::end" "End" []); (T "mpstthree::binary::struct_trait::end" "End" []); (T "checking::checking_mod::complex::commit_protocol" "RoleA" [(T "mpstthree::role::end" "RoleEnd" [])]); (T "checking::checking_mod::complex::commit_protocol" "NameC" [])]);
   (T "checking::checking_mod::complex::commit_protocol" "MeshedChannels" [(T "mpstthree::binary::struct_trait::recv" "Recv" [(T "checking::checking_mod::complex::commit_protocol" "Branches0DfromA" []); (T "mpstthree::binary::struct_trait::end" "End" [])]); (T "mpstthree::binary::struct_trait::end" "End" []); (T "mpstthree::binary::struct_trait::end" "End" []); (T "checking::checking_mod::complex::commit_protocol" "RoleA" [(T "mpstthree::role::end" "RoleEnd" [])]); (T "checking::checking_mod::complex::commit_protocol" "NameD" [])])]
  [((T "checking::checking_mod::complex::commit_protocol" "MeshedChannels" [(T "mpstthree::binary::struct_trait::recv" "Recv" [(T "checking::checking_mod::complex::commit_protocol" "Update" []); (T "mpstthree::binary::struct_trait::send" "Send" [(T "checking::checking_mod::complex::commit_protocol" "Branches1BfromA" []); (T "mpstthree::binary::struct_trait::end" "End" [])])]); (T "mpstthree::binary::struct_trait::send" "Send" [(T "checking::checking_mod::complex::commit_protocol" "Update" []); (T "mpstthree::binary::struct_trait::send" "Send" [(T "checking::checking_mod::complex::commit_protocol" "Branches1CfromA" []); (T "mpstthree::binary::struct_trait::end" "End" [])])]); (T "mpstthree::binary::struct_trait::send" "Send" [(T "checking::checking_mod::complex::commit_protocol" "Update" []); (T "mpstthree::binary::struct_trait::send" "Send" [(T "checking::checking_mod::complex::commit_protocol" "Branches1DfromA" []); (T "mpstthree::binary::struct_trait::end" "End" [])])]); (T "checking::checking_mod::complex::commit_protocol" "RoleB" [(T "checking::checking_mod::complex::commit_protocol" "RoleC" [(T "checking::checking_mod::complex::commit_protocol" "RoleD" [(T "mpstthree::role::broadcast" "RoleBroadcast" [])])])]); (T "checking::checking_mod::complex::commit_protocol" "NameA" [])]), [(lit "Branches0BfromA", lit "CommitForward"); (lit "Branches0CfromA", lit "CommitForward"); (lit "Branches0DfromA", lit "CommitForward")]);
   ((T "checking::checking_mod::complex::commit_protocol" "MeshedChannels" [(T "mpstthree::binary::struct_trait::send" "Send" [(T "checking::checking_mod::complex::commit_protocol" "Okay" []); (T "mpstthree::binary::struct_trait::send" "Send" [(T "checking::checking_mod::complex::commit_protocol" "Branches0BfromA" []); (T "mpstthree::binary::struct_trait::end" "End" [])])]); (T "mpstthree::binary::struct_trait::recv" "Recv" [(T "checking::checking_mod::complex::commit_protocol" "Okay" []); (T "mpstthree::binary::struct_trait::send" "Send" [(T "checking::checking_mod::complex::commit_protocol" "Branches0CfromA" []); (T "mpstthree::binary::struct_trait::end" "End" [])])]); (T "mpstthree::binary::struct_trait::recv" "Recv" [(T "checking::checking_mod::complex::commit_protocol" "Okay" []); (T "mpstthree::binary::struct_trait::send" "Send" [(T "checking::checking_mod::complex::commit_protocol" "Branches0DfromA" []); (T "mpstthree::binary::struct_trait::end" "End" [])])]); (T "checking::checking_mod::complex::commit_protocol" "RoleD" [(T "checking::checking_mod::complex::commit_protocol" "RoleC" [(T "checking::checking_mod::complex::commit_protocol" "RoleB" [(T "mpstthree::role::broadcast" "RoleBroadcast" [])])])]); (T "checking::checking_mod::complex::commit_protocol" "NameA" [])]), [(lit "Branches1BfromA", lit "CommitBackward"); (lit "Branches1CfromA", lit "CommitBackward"); (lit "Branches1DfromA", lit "CommitBackward")]);
   ((T "checking::checking_mod::complex::commit_protocol" "MeshedChannels" [(T "mpstthree::binary::struct_trait::end" "End" []); (T "mpstthree::binary::struct_trait::end" "End" []); (T "mpstthree::binary::struct_trait::end" "End" []); (T "mpstthree::role::end" "RoleEnd" []); (T "checking::checking_mod::complex::commit_protocol" "NameA" [])]), [(lit "Branches0BfromA", lit "End"); (lit "Branches0CfromA", lit "End"); (lit "Branches0DfromA", lit "End")])]
  [("Branches0BfromA", "End", (T "checking::checking_mod::complex::commit_protocol" "MeshedChannels" [(T "mpstthree::binary::struct_trait::end" "End" []); (T "mpstthree::binary::struct_trait::end" "End" []); (T "mpstthree::binary::struct_trait::end" "End" []); (T "mpstthree::role::end" "RoleEnd" []); (T "checking::checking_mod::complex::commit_protocol" "NameB" [])]));
   ("Branches0BfromA", "CommitForward", (T "checking::checking_mod::complex::commit_protocol" "MeshedChannels" [(T "mpstthree::binary::struct_trait::send" "Send" [(T "checking::checking_mod::complex::commit_protocol" "Update" []); (T "mpstthree::binary::struct_trait::recv" "Recv" [(T "checking::checking_mod::complex::commit_protocol" "Branches1BfromA" []); (T "mpstthree::binary::struct_trait::end" "End" [])])]); (T "mpstthree::binary::struct_trait::end" "End" []); (T "mpstthree::binary::struct_trait::end" "End" []); (T "checking::checking_mod::complex::commit_protocol" "RoleA" [(T "checking::checking_mod::complex::commit_protocol" "RoleA" [(T "mpstthree::role::end" "RoleEnd" [])])]); (T "checking::checking_mod::complex::commit_protocol" "NameB" [])]));
   ("Branches1BfromA", "CommitBackward", (T "checking::checking_mod::complex::commit_protocol" "MeshedChannels" [(T "mpstthree::binary::struct_trait::recv" "Recv" [(T "checking::checking_mod::complex::commit_protocol" "Okay" []); (T "mpstthree::binary::struct_trait::recv" "Recv" [(T "checking::checking_mod::complex::commit_protocol" "Branches0BfromA" []); (T "mpstthree::binary::struct_trait::end" "End" [])])]); (T "mpstthree::binary::struct_trait::end" "End" []); (T "mpstthree::binary::struct_trait::end" "End" []); (T "checking::checking_mod::complex::commit_protocol" "RoleA" [(T "checking::checking_mod::complex::commit_protocol" "RoleA" [(T "mpstthree::role::end" "RoleEnd" [])])]); (T "checking::checking_mod::complex::commit_protocol" "NameB" [])]));
   ("Branches0CfromA", "End", (T "checking::checking_mod::complex::commit_protocol" "MeshedChannels" [(T "mpstthree::binary::struct_trait::end" "End" []); (T "mpstthree::binary::struct_trait::end" "End" []); (T "mpstthree::binary::struct_trait::end" "End" []); (T "mpstthree::role::end" "RoleEnd" []); (T "checking::checking_mod::complex::commit_protocol" "NameC" [])]));
   ("Branches0CfromA", "CommitForward", (T "checking::checking_mod::complex::commit_protocol" "MeshedChannels" [(T "mpstthree::binary::struct_trait::recv" "Recv" [(T "checking::checking_mod::complex::commit_protocol" "Update" []); (T "mpstthree::binary::struct_trait::recv" "Recv" [(T "checking::checking_mod::complex::commit_protocol" "Branches1CfromA" []); (T "mpstthree::binary::struct_trait::end" "End" [])])]); (T "mpstthree::binary::struct_trait::end" "End" []); (T "mpstthree::binary::struct_trait::end" "End" []); (T "checking::checking_mod::complex::commit_protocol" "RoleA" [(T "checking::checking_mod::complex::commit_protocol" "RoleA" [(T "mpstthree::role::end" "RoleEnd" [])])]); (T "checking::checking_mod::complex::commit_protocol" "NameC" [])]));
   ("Branches1CfromA", "CommitBackward", (T "checking::checking_mod::complex::commit_protocol" "MeshedChannels" [(T "mpstthree::binary::struct_trait::send" "Send" [(T "checking::checking_mod::complex::commit_protocol" "Okay" []); (T "mpstthree::binary::struct_trait::recv" "Recv" [(T "checking::checking_mod::complex::commit_protocol" "Branches0CfromA" []); (T "mpstthree::binary::struct_trait::end" "End" [])])]); (T "mpstthree::binary::struct_trait::end" "End" []); (T "mpstthree::binary::struct_trait::end" "End" []); (T "checking::checking_mod::complex::commit_protocol" "RoleA" [(T "checking::checking_mod::complex::commit_protocol" "RoleA" [(T "mpstthree::role::end" "RoleEnd" [])])]); (T "checking::checking_mod::complex::commit_protocol" "NameC" [])]));
   ("Branches0DfromA", "End", (T "checking::checking_mod::complex::commit_protocol" "MeshedChannels" [(T "mpstthree::binary::struct_trait::end" "End" []); (T "mpstthree::binary::struct_trait::end" "End" []); (T "mpstthree::binary::struct_trait::end" "End" []); (T "mpstthree::role::end" "RoleEnd" []); (T "checking::checking_mod::complex::commit_protocol" "NameD" [])]));
   ("Branches0DfromA", "CommitForward", (T "checking::checking_mod::complex::commit_protocol" "MeshedChannels" [(T "mpstthree::binary::struct_trait::recv" "Recv" [(T "checking::checking_mod::complex::commit_protocol" "Update" []); (T "mpstthree::binary::struct_trait::recv" "Recv" [(T "checking::checking_mod::complex::commit_protocol" "Branches1DfromA" []); (T "mpstthree::binary::struct_trait::end" "End" [])])]); (T "mpstthree::binary::struct_trait::end" "End" []); (T "mpstthree::binary::struct_trait::end" "End" []); (T "checking::checking_mod::complex::commit_protocol" "RoleA" [(T "checking::checking_mod::complex::commit_protocol" "RoleA" [(T "mpstthree::role::end" "RoleEnd" [])])]); (T "checking::checking_mod::complex::commit_protocol" "NameD" [])]));
   ("Branches1DfromA", "CommitBackward", (T "checking::checking_mod::complex::commit_protocol" "MeshedChannels" [(T "mpstthree::binary::struct_trait::send" "Send" [(T "checking::checking_mod::complex::commit_protocol" "Okay" []); (T "mpstthree::binary::struct_trait::recv" "Recv" [(T "checking::checking_mod::complex::commit_protocol" "Branches0DfromA" []); (T "mpstthree::binary::struct_trait::end" "End" [])])]); (T "mpstthree::binary::struct_trait::end" "End" []); (T "mpstthree::binary::struct_trait::end" "End" []); (T "checking::checking_mod::complex::commit_protocol" "RoleA" [(T "checking::checking_mod::complex::commit_protocol" "RoleA" [(T "mpstthree::role::end" "RoleEnd" [])])]); (T "checking::checking_mod::complex::commit_protocol" "NameD" [])]))]
  [("RoleA", "digraph {
    0 [ label = ""\""0\"""" ]
    1 [ label = ""\""0.1\"""" ]
    2 [ label = ""\""0.2\"""" ]
    3 [ label = ""\""0.3\"""" ]
    4 [ label = ""\""0.3.1\"""" ]
    5 [ label = ""\""0.3.2\"""" ]
    6 [ label = ""\""0.3.3\"""" ]
    7 [ label = ""\""0.1\"""" ]
    0 -> 1 [ label = ""\""RoleA?RoleB: Update\"""" ]
    1 -> 2 [ label = ""\""RoleA!RoleC: Update\"""" ]
    2 -> 3 [ label = ""\""RoleA!RoleD: Update\"""" ]
    3 -> 4 [ label = ""\""RoleA?RoleD: Okay\"""" ]
    4 -> 5 [ label = ""\""RoleA?RoleC: Okay\"""" ]
    5 -> 6 [ label = ""\""RoleA!RoleB: Okay\"""" ]
    6 -> 0 [ label = ""\""µ\"""" ]
    0 -> 7 [ label = ""\""0\"""" ]
}
");
   ("RoleB", "digraph {
    0 [ label = ""\""0\"""" ]
    1 [ label = ""\""0.1\"""" ]
    2 [ label = ""\""0.1.1\"""" ]
    3 [ label = ""\""0.1\"""" ]
    0 -> 1 [ label = ""\""RoleB!RoleA: Update\"""" ]
    1 -> 2 [ label = ""\""RoleB?RoleA: Okay\"""" ]
    2 -> 0 [ label = ""\""µ\"""" ]
    0 -> 3 [ label = ""\""0\"""" ]
}
");
   ("RoleC", "digraph {
    0 [ label = ""\""0\"""" ]
    1 [ label = ""\""0.1\"""" ]
    2 [ label = ""\""0.1.1\"""" ]
    3 [ label = ""\""0.1\"""" ]
    0 -> 1 [ label = ""\""RoleC?RoleA: Update\"""" ]
    1 -> 2 [ label = ""\""RoleC!RoleA: Okay\"""" ]
    2 -> 0 [ label = ""\""µ\"""" ]
    0 -> 3 [ label = ""\""0\"""" ]
}
");
   ("RoleD", "digraph {
    0 [ label = ""\""0\"""" ]
    1 [ label = ""\""0.1\"""" ]
    2 [ label = ""\""0.1.1\"""" ]
    3 [ label = ""\""0.1\"""" ]
    0 -> 1 [ label = ""\""RoleD?RoleA: Update\"""" ]
    1 -> 2 [ label = ""\""RoleD!RoleA: Okay\"""" ]
    2 -> 0 [ label = ""\""µ\"""" ]
    0 -> 3 [ label = ""\""0\"""" ]
}
")]
  (Some 1).
(** tests/checking_mod/complex/four_players_game_sync.rs:174-318. *)
Definition test_four_players_game_sync : check_test := CheckTest
  [(T "checking::checking_mod::complex::four_players_game_sync" "MeshedChannels" [(T "mpstthree::binary::struct_trait::send" "Send" [(T "checking::checking_mod::complex::four_players_game_sync" "Branches0BfromA" []); (T "mpstthree::binary::struct_trait::end" "End" [])]); (T "mpstthree::binary::struct_trait::send" "Send" [(T "checking::checking_mod::complex::four_players_game_sync" "Branches0CfromA" []); (T "mpstthree::binary::struct_trait::end" "End" [])]); (T "mpstthree::binary::struct_trait::send" "Send" [(T "checking::checking_mod::complex::four_players_game_sync" "Branches0DfromA" []); (T "mpstthree::binary::struct_trait::end" "End" [])]); (T "mpstthree::role::broadcast" "RoleBroadcast" []); (T "checking::checking_mod::complex::four_players_game_sync" "NameA" [])]);
   (T "checking::checking_mod::complex::four_players_game_sync" "MeshedChannels" [(T "mpstthree::binary::struct_trait::recv" "Recv" [(T "checking::checking_mod::complex::four_players_game_sync" "Branches0BfromA" []); (T "mpstthree::binary::struct_trait::end" "End" [])]); (T "mpstthree::binary::struct_trait::end" "End" []); (T "mpstthree::binary::struct_trait::end" "End" []); (T "checking::checking_mod::complex::four_players_game_sync" "RoleA" [(T "mpstthree::role::end" "RoleEnd" [])]); (T "checking::checking_mod::complex::four_players_game_sync" "NameB" [])]);
   (T "checking::checking_mod::complex::four_players_game_sync" "MeshedChannels" [(T "mpstthree::binary::struct_trait::recv" "Recv" [(T "checking::checking_mod::complex::four_players_game_sync" "Branches0CfromA" []); (T "mpstthree::binary::struct_trait::end" "End" [])]); (T "mpstthree::binary::struct_trait::end" "End" []); (T "mpstthree::binary::struct_trait::end" "End" []); (T "checking::checking_mod::complex::four_players_game_sync" "RoleA" [(T "mpstthree::role::end" "RoleEnd" [])]); (T "checking::checking_mod::complex::four_players_game_sync" "NameC" [])]);
   (T "checking::checking_mod::complex::four_players_game_sync" "MeshedChannels" [(T "mpstthree::binary::struct_trait::recv" "Recv" [(T "checking::checking_mod::complex::four_players_game_sync" "Branches0DfromA" []); (T "mpstthree::binary::struct_trait::end" "End" [])]); (T "mpstthree::binary::struct_trait::end" "End" []); (T "mpstthree::binary::struct_trait::end" "End" []); (T "checking::checking_mod::complex::four_players_game_sync" "RoleA" [(T "mpstthree::role::end" "RoleEnd" [])]); (T "checking::checking_mod::complex::four_players_game_sync" "NameD" [])])]
  [((T "checking::checking_mod::complex::four_players_game_sync" "MeshedChannels" [(T "mpstthree::binary::struct_trait::recv" "Recv" [(T "" "i32" []); (T "mpstthree::binary::struct_trait::send" "Send" [(T "checking::checking_mod::complex::four_players_game_sync" "Branches0BfromA" []); (T "mpstthree::binary::struct_trait::end" "End" [])])]); (T "mpstthree::binary::struct_trait::send" "Send" [(T "" "i32" []); (T "mpstthree::binary::struct_trait::recv" "Recv" [(T "" "i32" []); (T "mpstthree::binary::struct_trait::send" "Send" [(T "checking::checking_mod::complex::four_players_game_sync" "Branches0CfromA" []); (T "mpstthree::binary::struct_trait::end" "End" [])])])]); (T "mpstthree::binary::struct_trait::send" "Send" [(T "" "i32" []); (T "mpstthree::binary::struct_trait::send" "Send" [(T "checking::checking_mod::complex::four_players_game_sync" "Branches0DfromA" []); (T "mpstthree::binary::struct_trait::end" "End" [])])]); (T "checking::checking_mod::complex::four_players_game_sync" "RoleC" [(T "checking::checking_mod::complex::four_players_game_sync" "RoleB" [(T "checking::checking_mod::complex::four_players_game_sync" "RoleC" [(T "checking::checking_mod::complex::four_players_game_sync" "RoleD" [(T "mpstthree::role::broadcast" "RoleBroadcast" [])])])])]); (T "checking::checking_mod::complex::four_players_game_sync" "NameA" [])]), [(lit "Branches0BfromA", lit "Win"); (lit "Branches0CfromA", lit "Win"); (lit "Branches0DfromA", lit "Win")]);
   ((T "checking::checking_mod::complex::four_players_game_sync" "MeshedChannels" [(T "mpstthree::binary::struct_trait::recv" "Recv" [(T "" "i32" []); (T "mpstthree::binary::struct_trait::send" "Send" [(T "checking::checking_mod::complex::four_players_game_sync" "Branches0BfromA" []); (T "mpstthree::binary::struct_trait::end" "End" [])])]); (T "mpstthree::binary::struct_trait::send" "Send" [(T "" "i32" []); (T "mpstthree::binary::struct_trait::recv" "Recv" [(T "" "i32" []); (T "mpstthree::binary::struct_trait::send" "Send" [(T "checking::checking_mod::complex::four_players_game_sync" "Branches0CfromA" []); (T "mpstthree::binary::struct_trait::end" "End" [])])])]); (T "mpstthree::binary::struct_trait::send" "Send" [(T "" "i32" []); (T "mpstthree::binary::struct_trait::send" "Send" [(T "checking::checking_mod::complex::four_players_game_sync" "Branches0DfromA" []); (T "mpstthree::binary::struct_trait::end" "End" [])])]); (T "checking::checking_mod::complex::four_players_game_sync" "RoleC" [(T "checking::checking_mod::complex::four_players_game_sync" "RoleB" [(T "checking::checking_mod::complex::four_players_game_sync" "RoleC" [(T "checking::checking_mod::complex::four_players_game_sync" "RoleD" [(T "mpstthree::role::broadcast" "RoleBroadcast" [])])])])]); (T "checking::checking_mod::complex::four_players_game_sync" "NameA" [])]), [(lit "Branches0BfromA", lit "Lose"); (lit "Branches0CfromA", lit "Lose"); (lit "Branches0DfromA", lit "Lose")]);
   ((T "checking::checking_mod::complex::four_players_game_sync" "MeshedChannels" [(T "mpstthree::binary::struct_trait::end" "End" []); (T "mpstthree::binary::struct_trait::end" "End" []); (T "mpstthree::binary::struct_trait::end" "End" []); (T "mpstthree::role::end" "RoleEnd" []); (T "checking::checking_mod::complex::four_players_game_sync" "NameA" [])]), [(lit "Branches0BfromA", lit "End"); (lit "Branches0CfromA", lit "End"); (lit "Branches0DfromA", lit "End")])]
  [("Branches0BfromA", "End", (T "checking::checking_mod::complex::four_players_game_sync" "MeshedChannels" [(T "mpstthree::binary::struct_trait::end" "End" []); (T "mpstthree::binary::struct_trait::end" "End" []); (T "mpstthree::binary::struct_trait::end" "End" []); (T "mpstthree::role::end" "RoleEnd" []); (T "checking::checking_mod::complex::four_players_game_sync" "NameB" [])]));
   ("Branches0BfromA", "Win", (T "checking::checking_mod::complex::four_players_game_sync" "MeshedChannels" [(T "mpstthree::binary::struct_trait::send" "Send" [(T "" "i32" []); (T "mpstthree::binary::struct_trait::recv" "Recv" [(T "checking::checking_mod::complex::four_players_game_sync" "Branches0BfromA" []); (T "mpstthree::binary::struct_trait::end" "End" [])])]); (T "mpstthree::binary::struct_trait::recv" "Recv" [(T "" "i32" []); (T "mpstthree::binary::struct_trait::end" "End" [])]); (T "mpstthree::binary::struct_trait::end" "End" []); (T "checking::checking_mod::complex::four_players_game_sync" "RoleC" [(T "checking::checking_mod::complex::four_players_game_sync" "RoleA" [(T "checking::checking_mod::complex::four_players_game_sync" "RoleA" [(T "mpstthree::role::end" "RoleEnd" [])])])]); (T "checking::checking_mod::complex::four_players_game_sync" "NameB" [])]));
   ("Branches0BfromA", "Lose", (T "checking::checking_mod::complex::four_players_game_sync" "MeshedChannels" [(T "mpstthree::binary::struct_trait::send" "Send" [(T "" "i32" []); (T "mpstthree::binary::struct_trait::recv" "Recv" [(T "checking::checking_mod::complex::four_players_game_sync" "Branches0BfromA" []); (T "mpstthree::binary::struct_trait::end" "End" [])])]); (T "mpstthree::binary::struct_trait::recv" "Recv" [(T "" "i32" []); (T "mpstthree::binary::struct_trait::end" "End" [])]); (T "mpstthree::binary::struct_trait::end" "End" []); (T "checking::checking_mod::complex::four_players_game_sync" "RoleC" [(T "checking::checking_mod::complex::four_players_game_sync" "RoleA" [(T "checking::checking_mod::complex::four_players_game_sync" "RoleA" [(T "mpstthree::role::end" "RoleEnd" [])])])]); (T "checking::checking_mod::complex::four_players_game_sync" "NameB" [])]));
   ("Branches0CfromA", "End", (T "checking::checking_mod::complex::four_players_game_sync" "MeshedChannels" [(T "mpstthree::binary::struct_trait::end" "End" []); (T "mpstthree::binary::struct_trait::end" "End" []); (T "mpstthree::binary::struct_trait::end" "End" []); (T "mpstthree::role::end" "RoleEnd" []); (T "checking::checking_mod::complex::four_players_game_sync" "NameC" [])]));
   ("Branches0CfromA", "Win", (T "checking::checking_mod::complex::four_players_game_sync" "MeshedChannels" [(T "mpstthree::binary::struct_trait::recv" "Recv" [(T "" "i32" []); (T "mpstthree::binary::struct_trait::send" "Send" [(T "" "i32" []); (T "mpstthree::binary::struct_trait::recv" "Recv" [(T "checking::checking_mod::complex::four_players_game_sync" "Branches0CfromA" []); (T "mpstthree::binary::struct_trait::end" "End" [])])])]); (T "mpstthree::binary::struct_trait::send" "Send" [(T "" "i32" []); (T "mpstthree::binary::struct_trait::end" "End" [])]); (T "mpstthree::binary::struct_trait::send" "Send" [(T "" "i32" []); (T "mpstthree::binary::struct_trait::end" "End" [])]); (T "checking::checking_mod::complex::four_players_game_sync" "RoleA" [(T "checking::checking_mod::complex::four_players_game_sync" "RoleB" [(T "checking::checking_mod::complex::four_players_game_sync" "RoleD" [(T "checking::checking_mod::complex::four_players_game_sync" "RoleA" [(T "checking::checking_mod::complex::four_players_game_sync" "RoleA" [(T "mpstthree::role::end" "RoleEnd" [])])])])])]); (T "checking::checking_mod::complex::four_players_game_sync" "NameC" [])]));
   ("Branches0CfromA", "Lose", (T "checking::checking_mod::complex::four_players_game_sync" "MeshedChannels" [(T "mpstthree::binary::struct_trait::recv" "Recv" [(T "" "i32" []); (T "mpstthree::binary::struct_trait::send" "Send" [(T "" "i32" []); (T "mpstthree::binary::struct_trait::recv" "Recv" [(T "checking::checking_mod::complex::four_players_game_sync" "Branches0CfromA" []); (T "mpstthree::binary::struct_trait::end" "End" [])])])]); (T "mpstthree::binary::struct_trait::send" "Send" [(T "" "i32" []); (T "mpstthree::binary::struct_trait::end" "End" [])]); (T "mpstthree::binary::struct_trait::send" "Send" [(T "" "i32" []); (T "mpstthree::binary::struct_trait::end" "End" [])]); (T "checking::checking_mod::complex::four_players_game_sync" "RoleA" [(T "checking::checking_mod::complex::four_players_game_sync" "RoleB" [(T "checking::checking_mod::complex::four_players_game_sync" "RoleD" [(T "checking::checking_mod::complex::four_players_game_sync" "RoleA" [(T "checking::checking_mod::complex::four_players_game_sync" "RoleA" [(T "mpstthree::role::end" "RoleEnd" [])])])])])]); (T "checking::checking_mod::complex::four_players_game_sync" "NameC" [])]));
   ("Branches0DfromA", "End", (T "checking::checking_mod::complex::four_players_game_sync" "MeshedChannels" [(T "mpstthree::binary::struct_trait::end" "End" []); (T "mpstthree::binary::struct_trait::end" "End" []); (T "mpstthree::binary::struct_trait::end" "End" []); (T "mpstthree::role::end" "RoleEnd" []); (T "checking::checking_mod::complex::four_players_game_sync" "NameD" [])]));
   ("Branches0DfromA", "Win", (T "checking::checking_mod::complex::four_players_game_sync" "MeshedChannels" [(T "mpstthree::binary::struct_trait::recv" "Recv" [(T "" "i32" []); (T "mpstthree::binary::struct_trait::recv" "Recv" [(T "checking::checking_mod::complex::four_players_game_sync" "Branches0DfromA" []); (T "mpstthree::binary::struct_trait::end" "End" [])])]); (T "mpstthree::binary::struct_trait::end" "End" []); (T "mpstthree::binary::struct_trait::recv" "Recv" [(T "" "i32" []); (T "mpstthree::binary::struct_trait::end" "End" [])]); (T "checking::checking_mod::complex::four_players_game_sync" "RoleA" [(T "checking::checking_mod::complex::four_players_game_sync" "RoleC" [(T "checking::checking_mod::complex::four_players_game_sync" "RoleA" [(T "mpstthree::role::end" "RoleEnd" [])])])]); (T "checking::checking_mod::complex::four_players_game_sync" "NameD" [])]));
   ("Branches0DfromA", "Lose", (T "checking::checking_mod::complex::four_players_game_sync" "MeshedChannels" [(T "mpstthree::binary::struct_trait::recv" "Recv" [(T "" "i32" []); (T "mpstthree::binary::struct_trait::recv" "Recv" [(T "checking::checking_mod::complex::four_players_game_sync" "Branches0DfromA" []); (T "mpstthree::binary::struct_trait::end" "End" [])])]); (T "mpstthree::binary::struct_trait::end" "End" []); (T "mpstthree::binary::struct_trait::recv" "Recv" [(T "" "i32" []); (T "mpstthree::binary::struct_trait::end" "End" [])]); (T "checking::checking_mod::complex::four_players_game_sync" "RoleA" [(T "checking::checking_mod::complex::four_players_game_sync" "RoleC" [(T "checking::checking_mod::complex::four_players_game_sync" "RoleA" [(T "mpstthree::role::end" "RoleEnd" [])])])]); (T "checking::checking_mod::complex::four_players_game_sync" "NameD" [])]))]
  [("RoleA", "digraph {
    0 [ label = ""\""0\"""" ]
    1 [ label = ""\""0.1\"""" ]
    2 [ label = ""\""0.1\"""" ]
    3 [ label = ""\""0.2\"""" ]
    4 [ label = ""\""0.3\"""" ]
    5 [ label = ""\""0.4\"""" ]
    6 [ label = ""\""0.1\"""" ]
    7 [ label = ""\""0.2\"""" ]
    8 [ label = ""\""0.3\"""" ]
    9 [ label = ""\""0.4\"""" ]
    0 -> 1 [ label = ""\""0\"""" ]
    0 -> 2 [ label = ""\""RoleA!RoleC: i32\"""" ]
    2 -> 3 [ label = ""\""RoleA?RoleB: i32\"""" ]
    3 -> 4 [ label = ""\""RoleA?RoleC: i32\"""" ]
    4 -> 5 [ label = ""\""RoleA!RoleD: i32\"""" ]
    5 -> 0 [ label = ""\""µ\"""" ]
    0 -> 6 [ label = ""\""RoleA!RoleC: i32\"""" ]
    6 -> 7 [ label = ""\""RoleA?RoleB: i32\"""" ]
    7 -> 8 [ label = ""\""RoleA?RoleC: i32\"""" ]
    8 -> 9 [ label = ""\""RoleA!RoleD: i32\"""" ]
    9 -> 0 [ label = ""\""µ\"""" ]
}
");
   ("RoleB", "digraph {
    0 [ label = ""\""0\"""" ]
    1 [ label = ""\""0.1\"""" ]
    2 [ label = ""\""0.1\"""" ]
    3 [ label = ""\""0.2\"""" ]
    4 [ label = ""\""0.1\"""" ]
    5 [ label = ""\""0.2\"""" ]
    0 -> 1 [ label = ""\""0\"""" ]
    0 -> 2 [ label = ""\""RoleB?RoleC: i32\"""" ]
    2 -> 3 [ label = ""\""RoleB!RoleA: i32\"""" ]
    3 -> 0 [ label = ""\""µ\"""" ]
    0 -> 4 [ label = ""\""RoleB?RoleC: i32\"""" ]
    4 -> 5 [ label = ""\""RoleB!RoleA: i32\"""" ]
    5 -> 0 [ label = ""\""µ\"""" ]
}
");
   ("RoleC", "digraph {
    0 [ label = ""\""0\"""" ]
    1 [ label = ""\""0.1\"""" ]
    2 [ label = ""\""0.1\"""" ]
    3 [ label = ""\""0.2\"""" ]
    4 [ label = ""\""0.3\"""" ]
    5 [ label = ""\""0.4\"""" ]
    6 [ label = ""\""0.1\"""" ]
    7 [ label = ""\""0.2\"""" ]
    8 [ label = ""\""0.3\"""" ]
    9 [ label = ""\""0.4\"""" ]
    0 -> 1 [ label = ""\""0\"""" ]
    0 -> 2 [ label = ""\""RoleC?RoleA: i32\"""" ]
    2 -> 3 [ label = ""\""RoleC!RoleB: i32\"""" ]
    3 -> 4 [ label = ""\""RoleC!RoleD: i32\"""" ]
    4 -> 5 [ label = ""\""RoleC!RoleA: i32\"""" ]
    5 -> 0 [ label = ""\""µ\"""" ]
    0 -> 6 [ label = ""\""RoleC?RoleA: i32\"""" ]
    6 -> 7 [ label = ""\""RoleC!RoleB: i32\"""" ]
    7 -> 8 [ label = ""\""RoleC!RoleD: i32\"""" ]
    8 -> 9 [ label = ""\""RoleC!RoleA: i32\"""" ]
    9 -> 0 [ label = ""\""µ\"""" ]
}
");
   ("RoleD", "digraph {
    0 [ label = ""\""0\"""" ]
    1 [ label = ""\""0.1\"""" ]
    2 [ label = ""\""0.1\"""" ]
    3 [ label = ""\""0.2\"""" ]
    4 [ label = ""\""0.1\"""" ]
    5 [ label = ""\""0.2\"""" ]
    0 -> 1 [ label = ""\""0\"""" ]
    0 -> 2 [ label = ""\""RoleD?RoleA: i32\"""" ]
    2 -> 3 [ label = ""\""RoleD?RoleC: i32\"""" ]
    3 -> 0 [ label = ""\""µ\"""" ]
    0 -> 4 [ label = ""\""RoleD?RoleA: i32\"""" ]
    4 -> 5 [ label = ""\""RoleD?RoleC: i32\"""" ]
    5 -> 0 [ label = ""\""µ\"""" ]
}
")]
  (Some 1).
(** tests/checking_mod/complex/inf_snd_rcv.rs:86-172. *)
Definition test_inf_snd_rcv : check_test := CheckTest
  [(T "checking::checking_mod::complex::inf_snd_rcv" "MeshedChannels" [(T "mpstthree::binary::struct_trait::recv" "Recv" [(T "checking::checking_mod::complex::inf_snd_rcv" "Branches0AfromB" []); (T "mpstthree::binary::struct_trait::end" "End" [])]); (T "checking::checking_mod::complex::inf_snd_rcv" "RoleB" [(T "mpstthree::role::end" "RoleEnd" [])]); (T "checking::checking_mod::complex::inf_snd_rcv" "NameA" [])]);
   (T "checking::checking_mod::complex::inf_snd_rcv" "MeshedChannels" [(T "mpstthree::binary::struct_trait::send" "Send" [(T "checking::checking_mod::complex::inf_snd_rcv" "Branches0AfromB" []); (T "mpstthree::binary::struct_trait::end" "End" [])]); (T "mpstthree::role::broadcast" "RoleBroadcast" []); (T "checking::checking_mod::complex::inf_snd_rcv" "NameB" [])])]
  [((T "checking::checking_mod::complex::inf_snd_rcv" "MeshedChannels" [(T "mpstthree::binary::struct_trait::end" "End" []); (T "mpstthree::role::end" "RoleEnd" []); (T "checking::checking_mod::complex::inf_snd_rcv" "NameB" [])]), [(lit "Branches0AfromB", lit "End")]);
   ((T "checking::checking_mod::complex::inf_snd_rcv" "MeshedChannels" [(T "mpstthree::binary::struct_trait::send" "Send" [(T "" "i32" []); (T "mpstthree::binary::struct_trait::send" "Send" [(T "checking::checking_mod::complex::inf_snd_rcv" "Branches0AfromB" []); (T "mpstthree::binary::struct_trait::end" "End" [])])]); (T "checking::checking_mod::complex::inf_snd_rcv" "RoleA" [(T "mpstthree::role::broadcast" "RoleBroadcast" [])]); (T "checking::checking_mod::complex::inf_snd_rcv" "NameB" [])]), [(lit "Branches0AfromB", lit "Looping")]);
   ((T "checking::checking_mod::complex::inf_snd_rcv" "MeshedChannels" [(T "mpstthree::binary::struct_trait::send" "Send" [(T "" "i64" []); (T "mpstthree::binary::struct_trait::send" "Send" [(T "checking::checking_mod::complex::inf_snd_rcv" "Branches1AfromB" []); (T "mpstthree::binary::struct_trait::end" "End" [])])]); (T "checking::checking_mod::complex::inf_snd_rcv" "RoleA" [(T "mpstthree::role::broadcast" "RoleBroadcast" [])]); (T "checking::checking_mod::complex::inf_snd_rcv" "NameB" [])]), [(lit "Branches0AfromB", lit "Extend")]);
   ((T "checking::checking_mod::complex::inf_snd_rcv" "MeshedChannels" [(T "mpstthree::binary::struct_trait::end" "End" []); (T "mpstthree::role::end" "RoleEnd" []); (T "checking::checking_mod::complex::inf_snd_rcv" "NameB" [])]), [(lit "Branches1AfromB", lit "End")]);
   ((T "checking::checking_mod::complex::inf_snd_rcv" "MeshedChannels" [(T "mpstthree::binary::struct_trait::recv" "Recv" [(T "" "i32" []); (T "mpstthree::binary::struct_trait::send" "Send" [(T "checking::checking_mod::complex::inf_snd_rcv" "Branches1AfromB" []); (T "mpstthree::binary::struct_trait::end" "End" [])])]); (T "checking::checking_mod::complex::inf_snd_rcv" "RoleA" [(T "mpstthree::role::broadcast" "RoleBroadcast" [])]); (T "checking::checking_mod::complex::inf_snd_rcv" "NameB" [])]), [(lit "Branches1AfromB", lit "Looping")]);
   ((T "checking::checking_mod::complex::inf_snd_rcv" "MeshedChannels" [(T "mpstthree::binary::struct_trait::recv" "Recv" [(T "" "i64" []); (T "mpstthree::binary::struct_trait::end" "End" [])]); (T "checking::checking_mod::complex::inf_snd_rcv" "RoleA" [(T "mpstthree::role::end" "RoleEnd" [])]); (T "checking::checking_mod::complex::inf_snd_rcv" "NameB" [])]), [(lit "Branches1AfromB", lit "Extend")])]
  [("Branches0AfromB", "End", (T "checking::checking_mod::complex::inf_snd_rcv" "MeshedChannels" [(T "mpstthree::binary::struct_trait::end" "End" []); (T "mpstthree::role::end" "RoleEnd" []); (T "checking::checking_mod::complex::inf_snd_rcv" "NameA" [])]));
   ("Branches0AfromB", "Looping", (T "checking::checking_mod::complex::inf_snd_rcv" "MeshedChannels" [(T "mpstthree::binary::struct_trait::send" "Send" [(T "" "i32" []); (T "mpstthree::binary::struct_trait::recv" "Recv" [(T "checking::checking_mod::complex::inf_snd_rcv" "Branches0AfromB" []); (T "mpstthree::binary::struct_trait::end" "End" [])])]); (T "checking::checking_mod::complex::inf_snd_rcv" "RoleB" [(T "checking::checking_mod::complex::inf_snd_rcv" "RoleB" [(T "mpstthree::role::end" "RoleEnd" [])])]); (T "checking::checking_mod::complex::inf_snd_rcv" "NameA" [])]));
   ("Branches0AfromB", "Extend", (T "checking::checking_mod::complex::inf_snd_rcv" "MeshedChannels" [(T "mpstthree::binary::struct_trait::send" "Send" [(T "" "i64" []); (T "mpstthree::binary::struct_trait::recv" "Recv" [(T "checking::checking_mod::complex::inf_snd_rcv" "Branches1AfromB" []); (T "mpstthree::binary::struct_trait::end" "End" [])])]); (T "checking::checking_mod::complex::inf_snd_rcv" "RoleB" [(T "checking::checking_mod::complex::inf_snd_rcv" "RoleB" [(T "mpstthree::role::end" "RoleEnd" [])])]); (T "checking::checking_mod::complex::inf_snd_rcv" "NameA" [])]));
   ("Branches1AfromB", "End", (T "checking::checking_mod::complex::inf_snd_rcv" "MeshedChannels" [(T "mpstthree::binary::struct_trait::end" "End" []); (T "mpstthree::role::end" "RoleEnd" []); (T "checking::checking_mod::complex::inf_snd_rcv" "NameA" [])]));
   ("Branches1AfromB", "Looping", (T "checking::checking_mod::complex::inf_snd_rcv" "MeshedChannels" [(T "mpstthree::binary::struct_trait::recv" "Recv" [(T "" "i32" []); (T "mpstthree::binary::struct_trait::recv" "Recv" [(T "checking::checking_mod::complex::inf_snd_rcv" "Branches1AfromB" []); (T "mpstthree::binary::struct_trait::end" "End" [])])]); (T "checking::checking_mod::complex::inf_snd_rcv" "RoleB" [(T "checking::checking_mod::complex::inf_snd_rcv" "RoleB" [(T "mpstthree::role::end" "RoleEnd" [])])]); (T "checking::checking_mod::complex::inf_snd_rcv" "NameA" [])]));
   ("Branches1AfromB", "Extend", (T "checking::checking_mod::complex::inf_snd_rcv" "MeshedChannels" [(T "mpstthree::binary::struct_trait::recv" "Recv" [(T "" "i64" []); (T "mpstthree::binary::struct_trait::end" "End" [])]); (T "checking::checking_mod::complex::inf_snd_rcv" "RoleB" [(T "mpstthree::role::end" "RoleEnd" [])]); (T "checking::checking_mod::complex::inf_snd_rcv" "NameA" [])]))]
  [("RoleA", "digraph {
    0 [ label = ""\""0\"""" ]
    1 [ label = ""\""0.1\"""" ]
    2 [ label = ""\""0.1\"""" ]
    3 [ label = ""\""0.1.1\"""" ]
    4 [ label = ""\""0.1.1\"""" ]
    5 [ label = ""\""0.1.2\"""" ]
    6 [ label = ""\""0.1.1\"""" ]
    7 [ label = ""\""0.1\"""" ]
    0 -> 1 [ label = ""\""0\"""" ]
    0 -> 2 [ label = ""\""RoleA!RoleB: i64\"""" ]
    2 -> 3 [ label = ""\""0\"""" ]
    2 -> 4 [ label = ""\""RoleA?RoleB: i64\"""" ]
    4 -> 5 [ label = ""\""0\"""" ]
    2 -> 6 [ label = ""\""RoleA?RoleB: i32\"""" ]
    6 -> 2 [ label = ""\""µ\"""" ]
    0 -> 7 [ label = ""\""RoleA!RoleB: i32\"""" ]
    7 -> 0 [ label = ""\""µ\"""" ]
}
");
   ("RoleB", "digraph {
    0 [ label = ""\""0\"""" ]
    1 [ label = ""\""0.1\"""" ]
    2 [ label = ""\""0.1\"""" ]
    3 [ label = ""\""0.1.1\"""" ]
    4 [ label = ""\""0.1.1\"""" ]
    5 [ label = ""\""0.1.2\"""" ]
    6 [ label = ""\""0.1.1\"""" ]
    7 [ label = ""\""0.1\"""" ]
    0 -> 1 [ label = ""\""0\"""" ]
    0 -> 2 [ label = ""\""RoleB!RoleA: i64\"""" ]
    2 -> 3 [ label = ""\""0\"""" ]
    2 -> 4 [ label = ""\""RoleB?RoleA: i64\"""" ]
    4 -> 5 [ label = ""\""0\"""" ]
    2 -> 6 [ label = ""\""RoleB?RoleA: i32\"""" ]
    6 -> 2 [ label = ""\""µ\"""" ]
    0 -> 7 [ label = ""\""RoleB!RoleA: i32\"""" ]
    7 -> 0 [ label = ""\""µ\"""" ]
}
")]
  None.
(** tests/checking_mod/complex/two_peers_branchings_sync.rs:104-202. *)
Definition test_two_peers_branchings_sync : check_test := CheckTest
  [(T "checking::checking_mod::complex::two_peers_branchings_sync" "MeshedChannels" [(T "mpstthree::binary::struct_trait::send" "Send" [(T "checking::checking_mod::complex::two_peers_branchings_sync" "Branches0BfromA" []); (T "mpstthree::binary::struct_trait::end" "End" [])]); (T "mpstthree::role::broadcast" "RoleBroadcast" []); (T "checking::checking_mod::complex::two_peers_branchings_sync" "NameA" [])]);
   (T "checking::checking_mod::complex::two_peers_branchings_sync" "MeshedChannels" [(T "mpstthree::binary::struct_trait::recv" "Recv" [(T "checking::checking_mod::complex::two_peers_branchings_sync" "Branches0BfromA" []); (T "mpstthree::binary::struct_trait::end" "End" [])]); (T "checking::checking_mod::complex::two_peers_branchings_sync" "RoleA" [(T "mpstthree::role::end" "RoleEnd" [])]); (T "checking::checking_mod::complex::two_peers_branchings_sync" "NameB" [])])]
  [((T "checking::checking_mod::complex::two_peers_branchings_sync" "MeshedChannels" [(T "mpstthree::binary::struct_trait::send" "Send" [(T "checking::checking_mod::complex::two_peers_branchings_sync" "Branches2BfromA" []); (T "mpstthree::binary::struct_trait::end" "End" [])]); (T "mpstthree::role::broadcast" "RoleBroadcast" []); (T "checking::checking_mod::complex::two_peers_branchings_sync" "NameA" [])]), [(lit "Branches0BfromA", lit "A")]);
   ((T "checking::checking_mod::complex::two_peers_branchings_sync" "MeshedChannels" [(T "mpstthree::binary::struct_trait::send" "Send" [(T "checking::checking_mod::complex::two_peers_branchings_sync" "Branches1BfromA" []); (T "mpstthree::binary::struct_trait::end" "End" [])]); (T "mpstthree::role::broadcast" "RoleBroadcast" []); (T "checking::checking_mod::complex::two_peers_branchings_sync" "NameA" [])]), [(lit "Branches0BfromA", lit "B")]);
   ((T "checking::checking_mod::complex::two_peers_branchings_sync" "MeshedChannels" [(T "mpstthree::binary::struct_trait::end" "End" []); (T "mpstthree::role::end" "RoleEnd" []); (T "checking::checking_mod::complex::two_peers_branchings_sync" "NameA" [])]), [(lit "Branches1BfromA", lit "C")]);
   ((T "checking::checking_mod::complex::two_peers_branchings_sync" "MeshedChannels" [(T "mpstthree::binary::struct_trait::recv" "Recv" [(T "checking::checking_mod::complex::two_peers_branchings_sync" "Branches3AfromB" []); (T "mpstthree::binary::struct_trait::end" "End" [])]); (T "checking::checking_mod::complex::two_peers_branchings_sync" "RoleB" [(T "mpstthree::role::end" "RoleEnd" [])]); (T "checking::checking_mod::complex::two_peers_branchings_sync" "NameA" [])]), [(lit "Branches1BfromA", lit "E")]);
   ((T "checking::checking_mod::complex::two_peers_branchings_sync" "MeshedChannels" [(T "mpstthree::binary::struct_trait::end" "End" []); (T "mpstthree::role::end" "RoleEnd" []); (T "checking::checking_mod::complex::two_peers_branchings_sync" "NameA" [])]), [(lit "Branches2BfromA", lit "F")]);
   ((T "checking::checking_mod::complex::two_peers_branchings_sync" "MeshedChannels" [(T "mpstthree::binary::struct_trait::end" "End" []); (T "mpstthree::role::end" "RoleEnd" []); (T "checking::checking_mod::complex::two_peers_branchings_sync" "NameA" [])]), [(lit "Branches2BfromA", lit "G")]);
   ((T "checking::checking_mod::complex::two_peers_branchings_sync" "MeshedChannels" [(T "mpstthree::binary::struct_trait::end" "End" []); (T "mpstthree::role::end" "RoleEnd" []); (T "checking::checking_mod::complex::two_peers_branchings_sync" "NameB" [])]), [(lit "Branches3AfromB", lit "B")]);
   ((T "checking::checking_mod::complex::two_peers_branchings_sync" "MeshedChannels" [(T "mpstthree::binary::struct_trait::end" "End" []); (T "mpstthree::role::end" "RoleEnd" []); (T "checking::checking_mod::complex::two_peers_branchings_sync" "NameB" [])]), [(lit "Branches3AfromB", lit "C")]);
   ((T "checking::checking_mod::complex::two_peers_branchings_sync" "MeshedChannels" [(T "mpstthree::binary::struct_trait::end" "End" []); (T "mpstthree::role::end" "RoleEnd" []); (T "checking::checking_mod::complex::two_peers_branchings_sync" "NameB" [])]), [(lit "Branches3AfromB", lit "D")]);
   ((T "checking::checking_mod::complex::two_peers_branchings_sync" "MeshedChannels" [(T "mpstthree::binary::struct_trait::end" "End" []); (T "mpstthree::role::end" "RoleEnd" []); (T "checking::checking_mod::complex::two_peers_branchings_sync" "NameB" [])]), [(lit "Branches3AfromB", lit "E")])]
  [("Branches3AfromB", "B", (T "checking::checking_mod::complex::two_peers_branchings_sync" "MeshedChannels" [(T "mpstthree::binary::struct_trait::end" "End" []); (T "mpstthree::role::end" "RoleEnd" []); (T "checking::checking_mod::complex::two_peers_branchings_sync" "NameA" [])]));
   ("Branches3AfromB", "C", (T "checking::checking_mod::complex::two_peers_branchings_sync" "MeshedChannels" [(T "mpstthree::binary::struct_trait::end" "End" []); (T "mpstthree::role::end" "RoleEnd" []); (T "checking::checking_mod::complex::two_peers_branchings_sync" "NameA" [])]));
   ("Branches3AfromB", "D", (T "checking::checking_mod::complex::two_peers_branchings_sync" "MeshedChannels" [(T "mpstthree::binary::struct_trait::end" "End" []); (T "mpstthree::role::end" "RoleEnd" []); (T "checking::checking_mod::complex::two_peers_branchings_sync" "NameA" [])]));
   ("Branches3AfromB", "E", (T "checking::checking_mod::complex::two_peers_branchings_sync" "MeshedChannels" [(T "mpstthree::binary::struct_trait::end" "End" []); (T "mpstthree::role::end" "RoleEnd" []); (T "checking::checking_mod::complex::two_peers_branchings_sync" "NameA" [])]));
   ("Branches0BfromA", "A", (T "checking::checking_mod::complex::two_peers_branchings_sync" "MeshedChannels" [(T "mpstthree::binary::struct_trait::recv" "Recv" [(T "checking::checking_mod::complex::two_peers_branchings_sync" "Branches2BfromA" []); (T "mpstthree::binary::struct_trait::end" "End" [])]); (T "checking::checking_mod::complex::two_peers_branchings_sync" "RoleA" [(T "mpstthree::role::end" "RoleEnd" [])]); (T "checking::checking_mod::complex::two_peers_branchings_sync" "NameB" [])]));
   ("Branches0BfromA", "B", (T "checking::checking_mod::complex::two_peers_branchings_sync" "MeshedChannels" [(T "mpstthree::binary::struct_trait::recv" "Recv" [(T "checking::checking_mod::complex::two_peers_branchings_sync" "Branches1BfromA" []); (T "mpstthree::binary::struct_trait::end" "End" [])]); (T "checking::checking_mod::complex::two_peers_branchings_sync" "RoleA" [(T "mpstthree::role::end" "RoleEnd" [])]); (T "checking::checking_mod::complex::two_peers_branchings_sync" "NameB" [])]));
   ("Branches1BfromA", "C", (T "checking::checking_mod::complex::two_peers_branchings_sync" "MeshedChannels" [(T "mpstthree::binary::struct_trait::end" "End" []); (T "mpstthree::role::end" "RoleEnd" []); (T "checking::checking_mod::complex::two_peers_branchings_sync" "NameB" [])]));
   ("Branches1BfromA", "E", (T "checking::checking_mod::complex::two_peers_branchings_sync" "MeshedChannels" [(T "mpstthree::binary::struct_trait::send" "Send" [(T "checking::checking_mod::complex::two_peers_branchings_sync" "Branches3AfromB" []); (T "mpstthree::binary::struct_trait::end" "End" [])]); (T "mpstthree::role::broadcast" "RoleBroadcast" []); (T "checking::checking_mod::complex::two_peers_branchings_sync" "NameB" [])]));
   ("Branches2BfromA", "F", (T "checking::checking_mod::complex::two_peers_branchings_sync" "MeshedChannels" [(T "mpstthree::binary::struct_trait::end" "End" []); (T "mpstthree::role::end" "RoleEnd" []); (T "checking::checking_mod::complex::two_peers_branchings_sync" "NameB" [])]));
   ("Branches2BfromA", "G", (T "checking::checking_mod::complex::two_peers_branchings_sync" "MeshedChannels" [(T "mpstthree::binary::struct_trait::end" "End" []); (T "mpstthree::role::end" "RoleEnd" []); (T "checking::checking_mod::complex::two_peers_branchings_sync" "NameB" [])]))]
  [("RoleA", "digraph {
    0 [ label = ""\""0\"""" ]
    1 [ label = ""\""0.0.1\"""" ]
    2 [ label = ""\""0.0.1\"""" ]
    3 [ label = ""\""0.0.1\"""" ]
    4 [ label = ""\""0.0.0.1\"""" ]
    5 [ label = ""\""0.0.0.1\"""" ]
    6 [ label = ""\""0.0.0.1\"""" ]
    7 [ label = ""\""0.0.0.1\"""" ]
    0 -> 1 [ label = ""\""0\"""" ]
    0 -> 2 [ label = ""\""0\"""" ]
    0 -> 3 [ label = ""\""0\"""" ]
    0 -> 4 [ label = ""\""0\"""" ]
    0 -> 5 [ label = ""\""0\"""" ]
    0 -> 6 [ label = ""\""0\"""" ]
    0 -> 7 [ label = ""\""0\"""" ]
}
");
   ("RoleB", "digraph {
    0 [ label = ""\""0\"""" ]
    1 [ label = ""\""0.0.1\"""" ]
    2 [ label = ""\""0.0.1\"""" ]
    3 [ label = ""\""0.0.1\"""" ]
    4 [ label = ""\""0.0.0.1\"""" ]
    5 [ label = ""\""0.0.0.1\"""" ]
    6 [ label = ""\""0.0.0.1\"""" ]
    7 [ label = ""\""0.0.0.1\"""" ]
    0 -> 1 [ label = ""\""0\"""" ]
    0 -> 2 [ label = ""\""0\"""" ]
    0 -> 3 [ label = ""\""0\"""" ]
    0 -> 4 [ label = ""\""0\"""" ]
    0 -> 5 [ label = ""\""0\"""" ]
    0 -> 6 [ label = ""\""0\"""" ]
    0 -> 7 [ label = ""\""0\"""" ]
}
")]
  (Some 1).

(** All of the above. *)
Definition check_tests : list check_test :=
  [test_checking_choice;
   test_checking_recursion;
   test_checking_simple;
   test_alternating_bit;
   test_async_paper_ext_rev_sync;
   test_bargain;
   test_cloud_system;
   test_commit_protocol;
   test_four_players_game_sync;
   test_inf_snd_rcv;
   test_two_peers_branchings_sync].
