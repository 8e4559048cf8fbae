(** The repository's own tests, for the model: how graphs are printed, how a line is made of a format and random words, the
    arguments of the unit tests of aux_checker.rs. *)
From Coq Require Import Ascii String ZArith Bool List.
From Verif Require Import Checker CheckerSpec CheckerMacro CheckTests Nuscr Regex NuscrText NuscrTests.
Import ListNotations.
Open Scope list_scope.

(** A graph as [format!("{:?}", Dot::new(&graph))] prints it: the nodes, then the edges, each with its number and its label
    (the texts expected in tests/checking_mod/basics/checking_recursion.rs:121-168). *)
Definition nl : str := [ascii_of_nat 10].
Definition quoted (w : str) : str := lit "\""" ++ w ++ lit "\""".
Definition dot (g : graph) : str :=
  lit "digraph {" ++ nl ++
  concat (map (fun x => lit "    " ++ num (fst x) ++ lit " [ label = """ ++ quoted (snd x) ++ lit """ ]" ++ nl)
    (combine (seq 0 (length (nodes g))) (nodes g))) ++
  concat (map (fun e => lit "    " ++ num (fst (fst e)) ++ lit " -> " ++ num (snd (fst e)) ++
    lit " [ label = """ ++ quoted (snd e) ++ lit """ ]" ++ nl) (edges g)) ++
  lit "}" ++ nl.

(** The type carried by a variant of an enum of a test (tests/checking_mod/basics/checking_recursion.rs:25-45). *)
Definition carried_by (t : check_test) (e b : str) : ty :=
  match find (fun x => seqb (lit (fst (fst x))) e && seqb (lit (snd (fst x))) b) (ct_carried t) with
  | Some x => snd x
  | None => T "" "" []
  end.

(** What [checker_concat!] returns in a test (tests/checking_mod/basics/checking_recursion.rs:103-117). *)
Definition run_check (t : check_test) (kmc : nat -> kmc_answer) :=
  checker_concat 200 true (ct_sessions t) (carried_by t) (ct_lines t) kmc.

(** The line made by [format!] (regex_nuscr.rs:96-99): [ws] and [ns] are the random words and numbers. *)
Fixpoint fill (ws ns : nat -> str) (ps : list piece) : str :=
  match ps with
  | [] => []
  | [Txt s] => lit s
  | [Word k] => ws k
  | [Number k] => ns k
  | Txt s :: ps => lit s ++ fill ws ns ps
  | Word k :: ps => ws k ++ fill ws ns ps
  | Number k :: ps => ns k ++ fill ws ns ps
  end.

(** [to_title_case] without the spaces, for the names in tests/nuscr_mod (structs.rs:19-21): the first letter becomes a
    capital. *)
Definition upper (c : ascii) : ascii :=
  let n := nat_of_ascii c in if ((97 <=? n) && (n <=? 122))%nat then ascii_of_nat (n - 32) else c.
Definition capital (w : str) : str := match w with [] => [] | c :: w => upper c :: w end.

(** The sessions of test_clean_session (aux_checker.rs:865-872), test_clean_sessions (aux_checker.rs:887-913) and
    test_clean_sessions_panic (aux_checker.rs:961-979). *)
Definition dirty_session : str := lit "&&mpstthree::meshedchannels::MeshedChannels<mpstthree::binary::struct_trait::recv::Recv<checking_recursion::Branches0AtoB, mpstthree::binary::struct_trait::end::End>, mpstthree::binary::struct_trait::recv::Recv<i32, mpstthree::binary::struct_trait::send::Send<i32, mpstthree::binary::struct_trait::end::End>>, mpstthree::role::c::RoleC<mpstthree::role::c::RoleC<mpstthree::role::b::RoleB<mpstthree::role::end::RoleEnd>>>, mpstthree::name::a::NameA>".
Definition dirty_a : str := lit "mpstthree::meshedchannels::MeshedChannels<mpstthree::binary::struct_trait::recv::Recv<checking_recursion::Branches0AtoB, mpstthree::binary::struct_trait::end::End>, mpstthree::binary::struct_trait::end::End, mpstthree::role::b::RoleB<mpstthree::role::end::RoleEnd>, mpstthree::name::a::NameA>".
Definition dirty_c : str := lit "mpstthree::meshedchannels::MeshedChannels<mpstthree::binary::struct_trait::end::End, mpstthree::binary::struct_trait::recv::Recv<i32, mpstthree::binary::struct_trait::send::Send<i32, mpstthree::binary::struct_trait::recv::Recv<checking_recursion::Branches0CtoB, mpstthree::binary::struct_trait::end::End>>>, mpstthree::role::b::RoleB<mpstthree::role::b::RoleB<mpstthree::role::b::RoleB<mpstthree::role::end::RoleEnd>>>, mpstthree::name::c::NameC>".
Definition dirty_b : str := lit "mpstthree::meshedchannels::MeshedChannels<mpstthree::binary::struct_trait::send::Send<checking_recursion::Branches0AtoB, mpstthree::binary::struct_trait::end::End>, mpstthree::binary::struct_trait::send::Send<i32, mpstthree::binary::struct_trait::recv::Recv<i32, mpstthree::binary::struct_trait::send::Send<checking_recursion::Branches0CtoB, mpstthree::binary::struct_trait::end::End>>>, mpstthree::role::c::RoleC<mpstthree::role::c::RoleC<mpstthree::role::broadcast::RoleBroadcast>>, mpstthree::name::b::NameB>".
Definition dirty_role_a : str := lit "mpstthree::meshedchannels::MeshedChannels<mpstthree::binary::struct_trait::recv::Recv<checking_recursion::Branches0AtoB, mpstthree::binary::struct_trait::end::End>, mpstthree::binary::struct_trait::end::End, mpstthree::role::b::RoleB<mpstthree::role::end::RoleEnd>, mpstthree::role::a::RoleA<mpstthree::role::end::RoleEnd>>".
Definition dirty_role_c : str := lit "mpstthree::meshedchannels::MeshedChannels<mpstthree::binary::struct_trait::end::End, mpstthree::binary::struct_trait::recv::Recv<i32, mpstthree::binary::struct_trait::send::Send<i32, mpstthree::binary::struct_trait::recv::Recv<checking_recursion::Branches0CtoB, mpstthree::binary::struct_trait::end::End>>>, mpstthree::role::b::RoleB<mpstthree::role::b::RoleB<mpstthree::role::b::RoleB<mpstthree::role::end::RoleEnd>>>, mpstthree::role::c::RoleC<mpstthree::role::end::RoleEnd>>".

(** The maps of test_aux_graph_panic_enum_choice_index, test_aux_graph_panic_enum_offer_index and
    test_aux_graph_panic_enum_missing (aux_checker.rs:1233-1274, 1302-1343, 1371-1394). *)
Definition ended : list str := [lit "End"; lit "End"; lit "RoleEnd"].
Definition ended_receivers : hmap (hmap (list str)) :=
  [(lit "Branching0AtoB", [(lit "End", ended)]); (lit "Branching0AtoC", [(lit "End", ended)])].
Definition ended_sessions : hmap (list str) :=
  [(lit "Branching0AtoB::End", ended); (lit "Branching0AtoC::End", ended)].
Definition ended_groups : hmap Z := [(lit "Branching0AtoB::End", 0%Z); (lit "Branching0AtoC::End", 0%Z)].
