(** * The model and the repository's own tests (C66)

    The tests that the repository has for the code that is modelled, on the model: the graphs of tests/checking_mod, the unit
    tests of aux_checker.rs, the lines with random words of regex_nuscr.rs, the protocols of tests/nuscr_mod and the files that
    the generator wrote for them.  The tests that draw words and numbers at random are proved for all of them. *)

From Coq Require Import Ascii String ZArith Lia Bool Permutation List.
From Verif Require Import Checker CheckerSpec CheckerMacro CheckTests Nuscr NuscrSpec Regex NuscrText NuscrTextSpec RegexProofs
  NuscrRead CheckerText NuscrTests RepoTests RepoTestsProofs Properties_Checker.
Import ListNotations.
Open Scope list_scope.

(** ** The graphs *)

(** Every graph that a test of the checker expects is the one that the model computes, letter for letter, whatever the tool
    answers; and the bound is the expected one when the tool accepts it and rejects the smaller ones. *)
Theorem expected_graphs : forall t kmc, In t check_tests ->
  exists gs cfsm, run_check t kmc = Ok (gs, cfsm, kmc_bound kmc) /\
    forall r text, In (r, text) (ct_graphs t) -> exists g, hget gs (lit r) = Some g /\ dot g = lit text.
Proof.
  intros t kmc Ht.
  assert (match checker_concat 200 false (ct_sessions t) (carried_by t) (ct_lines t) kmc with
          | Ok (gs, _, _) => forallb (fun x => match hget gs (lit (fst x)) with
              | Some g => seqb (dot g) (lit (snd x)) | None => false end) (ct_graphs t)
          | _ => false end = true) as H.
  { assert (Forall (fun t => match checker_concat 200 false (ct_sessions t) (carried_by t) (ct_lines t) kmc with
          | Ok (gs, _, _) => forallb (fun x => match hget gs (lit (fst x)) with
              | Some g => seqb (dot g) (lit (snd x)) | None => false end) (ct_graphs t)
          | _ => false end = true) check_tests) as F
    by (unfold check_tests; repeat (apply Forall_cons; [vm_compute; reflexivity|]); apply Forall_nil).
    rewrite Forall_forall in F. now apply F. }
  unfold run_check, checker_concat, checker in *.
  destruct (clean_sessions (map type_name (ct_sessions t))) as [[all roles]| |]; cbn [bind] in *; try discriminate.
  destruct (hmapM (hmapM clean_session) (receivers_of (carried_by t) (ct_lines t))) as [rc| |]; cbn [bind] in *; try discriminate.
  destruct (hmapM (fun s => b <- clean_session s;; upto 1 b) (branching_of (ct_lines t))) as [br| |]; cbn [bind] in *;
    try discriminate.
  destruct (all_graphs 200 roles roles all rc br (group_of (ct_lines t))) as [gs| |]; cbn [bind] in *; try discriminate.
  eexists. eexists. split; [reflexivity|]. intros r text Hr. rewrite forallb_forall in H. specialize (H _ Hr).
  cbn [fst snd] in H. destruct (hget _ (lit r)) as [g|]; [|discriminate]. exists g. split; [reflexivity|].
  now apply seqb_true in H.
Qed.
Print Assumptions expected_graphs.

Theorem expected_bound : forall t kmc k gs cfsm b, In t check_tests -> ct_bound t = Some k -> kmc k = Accepts ->
  (forall j, (1 <= j < k)%nat -> kmc j = Rejects) -> run_check t kmc = Ok (gs, cfsm, b) -> b = Some (Some k).
Proof.
  intros t kmc k gs cfsm b Ht Hk A R E. destruct (expected_graphs t kmc Ht) as (gs' & c' & E' & _).
  rewrite E' in E. injection E as <- <- <-. apply kmc_finds; [|exact A|exact R].
  assert (Forall (fun t => match ct_bound t with Some k => (1 <=? k) && (k <? 50) | None => true end = true)%nat check_tests) as F
    by (repeat constructor).
  rewrite Forall_forall in F. specialize (F _ Ht). rewrite Hk in F. apply andb_true_iff in F as [F1 F2].
  apply Nat.leb_le in F1. apply Nat.ltb_lt in F2. lia.
Qed.
Print Assumptions expected_bound.

(** Eleven tests, thirty-three graphs; one of them. *)
Example graphs_example : length check_tests = 11%nat /\ length (concat (map ct_graphs check_tests)) = 33%nat /\
  existsb (fun x => String.eqb (fst x) "RoleB") (ct_graphs test_checking_choice) = true /\
  map ct_bound check_tests <> map (fun _ => None) check_tests.
Proof. split; [reflexivity|]. split; [reflexivity|]. split; [reflexivity|]. intros E. vm_compute in E. discriminate. Qed.

(** ** The unit tests of aux_checker.rs *)

(** The tests of the functions on texts (aux_checker.rs:863-1054). *)
Theorem unit_tests_text :
  clean_session dirty_session = Ok (map lit ["Recv<Branches0AtoB,End>"; "Recv<i32,Send<i32,End>>"; "RoleC<RoleC<RoleB<RoleEnd>>>";
    "RoleA<RoleEnd>"; "RoleA"]%string) /\
  (exists m, clean_sessions [dirty_a; dirty_c; dirty_b] = Ok (m, map lit ["RoleA"; "RoleB"; "RoleC"]%string) /\
    hget m (lit "RoleC") =
      Some (map lit ["End"; "Recv<i32,Send<i32,Recv<Branches0CtoB,End>>>"; "RoleB<RoleB<RoleB<RoleEnd>>>"]%string) /\
    hget m (lit "RoleA") = Some (map lit ["Recv<Branches0AtoB,End>"; "End"; "RoleB<RoleEnd>"]%string) /\
    hget m (lit "RoleB") =
      Some (map lit ["Send<Branches0AtoB,End>"; "Send<i32,Recv<i32,Send<Branches0CtoB,End>>>"; "RoleC<RoleC<RoleBroadcast>>"]%string) /\
    forall r, ~ In r (map lit ["RoleA"; "RoleB"; "RoleC"]%string) -> hget m r = None) /\
  clean_sessions [dirty_role_a; dirty_role_c] = Panics /\
  get_blocks (lit "MeshedChannels<Send<Branches0AtoB, End>, Send<i32, Recv<i32, Send<Branches0CtoB, End>>>, RoleC<RoleC<RoleBroadcast>>, RoleB<RoleEnd>>") =
    map lit ["Send<Branches0AtoB,End>"; "Send<i32,Recv<i32,Send<Branches0CtoB,End>>>"; "RoleC<RoleC<RoleBroadcast>>"; "RoleB<RoleEnd>"]%string /\
  get_hpc (lit "End") = [lit "End"] /\ get_hpc (lit "RoleEnd") = [lit "RoleEnd"] /\
  get_hpc (lit "Recv<i32, Send<i32, Recv<Branches0CtoB, End>>>") =
    map lit ["Recv"; "i32"; "Send<i32,Recv<Branches0CtoB,End>>"]%string /\
  extract_index_node [0; 1; 4; 5]%nat 3 = Ok (lit "0.1.4.5") /\ extract_index_node [0; 1; 4; 5]%nat 2 = Ok (lit "0.1.4") /\
  extract_index_node [0; 1; 4; 5]%nat 0 = Ok (lit "0") /\
  (forall n, build_dual (3 + n) (lit "Recv<i32, Send<Branches0CtoB, End>>") = Ok (lit "Send<i32,Recv<Branches0CtoB,End>>")) /\
  (forall n, build_dual (1 + n) (lit "Coco<i32, Banana<Branches0CtoB, End>>") = Panics).
Proof.
  repeat split; try (vm_compute; reflexivity).
  eexists. split; [vm_compute; reflexivity|]. repeat split; try (vm_compute; reflexivity).
  intros r Hr. cbn [hget]. repeat match goal with |- context [seqb ?a ?b] => destruct (seqb a b) eqn:?E end; try reflexivity;
    exfalso; apply Hr; match goal with E : seqb _ _ = true |- _ => apply seqb_true in E; rewrite <- E end;
    vm_compute; tauto.
Qed.
Print Assumptions unit_tests_text.

(** The tests of [get_graph_session] that must panic (aux_checker.rs:1056-1411) do. *)
Theorem unit_tests_panic : forall n,
  let two := map lit ["RoleA"; "RoleB"]%string in
  let three := map lit ["RoleA"; "RoleB"; "RoleC"]%string in
  let graph fuel role session roles := get_graph_session fuel (lit role) (map lit session) roles in
  graph (9 + n)%nat "RoleA"%string ["Recv<(), End>"; "RoleEnd"]%string two [] [] [] = Panics /\
  graph (9 + n)%nat "RoleB"%string ["End"; "RoleA<RoleEnd>"]%string two [] [] [] = Panics /\
  graph (9 + n)%nat "RoleA"%string ["End"; "End"; "RoleAtoAll<RoleEnd, RoleEnd>"]%string three [] [] [] = Panics /\
  graph (9 + n)%nat "RoleA"%string ["End"; "Send<(), End>"; "RoleAtoAll<RoleEnd, RoleEnd>"]%string three [] [] [] = Panics /\
  graph (9 + n)%nat "RoleA"%string ["Recv<(), End>"; "Recv<(), End>"; "RoleAlltoB<RoleEnd, RoleEnd>"]%string three [] [] [] = Panics /\
  graph (9 + n)%nat "RoleA"%string ["Send<Branching0AtoB, End>"; "Send<Branching0AtoC, End>"; "RoleBroadcast"]%string three
    ended_receivers ended_sessions ended_groups = Panics /\
  graph (9 + n)%nat "RoleA"%string ["Recv<Branching0AtoB, End>"; "End"; "RoleB<RoleEnd>"]%string three
    ended_receivers ended_sessions ended_groups = Panics /\
  graph (9 + n)%nat "RoleA"%string ["Send<Branching0AtoB, End>"; "Send<Branching0AtoC, End>"; "RoleBroadcast"]%string three
    [] ended_sessions ended_groups = Panics.
Proof. intros n. cbv zeta. repeat split; vm_compute; reflexivity. Qed.
Print Assumptions unit_tests_panic.

(** A session near the first of them on which it does not panic. *)
Example unit_tests_example : exists g c,
  get_graph_session 9 (lit "RoleA") [lit "Recv<(),End>"; lit "RoleB<RoleEnd>"] [lit "RoleA"; lit "RoleB"] [] [] [] = Ok (g, c).
Proof. eexists. eexists. vm_compute. reflexivity. Qed.

(** ** The lines with random words *)

(** Every assertion of regex_nuscr.rs holds for all words and all numbers, of any length, not only for the seven letters and the
    numbers up to a hundred that the tests draw. *)
Theorem line_assertions : forall ws ns t, (forall k, word (ws k)) -> (forall k, natural (ns k)) -> In t line_tests ->
  is_match (lt_re t) (fill ws ns (lt_text t)) = lt_match t.
Proof.
  intros ws ns t Hw Hn Ht.
  set (M := fun p l r q => Msg (ws 1%nat) p (ws 3%nat) (ws 4%nat) l (ns 0%nat) (ns 1%nat) r (ws 5%nat) q).
  assert (forall p l r q, option_word p -> option_word q -> message_text (M p l r q)
    ([] ++ ws 1%nat ++ lit "(" ++ option_text p ++ lit ")" ++ lit " " ++ lit "from" ++ lit " " ++ ws 3%nat ++ lit " " ++
     lit "to" ++ lit " " ++ ws 4%nat ++ lit " " ++ lit "within" ++ lit " " ++ left_text l ++ [] ++ ns 0%nat ++ [] ++ lit ";" ++
     [] ++ ns 1%nat ++ [] ++ right_text r ++ lit " " ++ lit "using" ++ lit " " ++ ws 5%nat ++ lit " " ++ lit "and" ++ lit " " ++
     lit "resetting" ++ lit " " ++ lit "(" ++ option_text q ++ lit ")" ++ [] ++ lit ";" ++ [])) as HM.
  { intros p l r q Hp Hq. assert (gap (lit " ")) as G by (split; [discriminate|repeat constructor]).
    apply message_text_intro; cbn [M label payload sender receiver lb rb clock reset]; auto; constructor. }
  assert (Forall (fun t => is_match (lt_re t) (fill ws ns (lt_text t)) = lt_match t) line_tests) as F;
    [|rewrite Forall_forall in F; now apply F].
  assert (H2 : option_word (Some (ws 2%nat))) by apply Hw. assert (H6 : option_word (Some (ws 6%nat))) by apply Hw.
  assert (H0 : option_word None) by exact Logic.I.
  Local Ltac message HM p l r q :=
    let H := fresh in pose proof (message_matches _ _ (HM p l r q ltac:(assumption) ltac:(assumption))) as H;
    cbn [left_text right_text option_text app] in H; destruct H as (?A & ?B & ?C & ?D);
    match goal with
    | |- is_match MESSAGE _ = _ => exact A
    | |- is_match MESSAGE_WITH_PAYLOAD _ = _ => exact B
    | |- is_match MESSAGE_WITH_RESET _ = _ => exact C
    | |- is_match MESSAGE_WITH_PAYLOAD_AND_RESET _ = _ => exact D
    end.
  unfold line_tests.
  repeat (apply Forall_cons; [cbn [lt_re lt_text lt_match fill]|]); [..|apply Forall_nil].
  - refine (global_found (ws 0%nat) (lit "role A) {") _ (fun e => _) (Hw _) _). intros e. vm_compute. reflexivity.
  - refine (global_found (ws 0%nat) (lit "role A, role B, role C) {") _ (fun e => _) (Hw _) _). intros e. vm_compute. reflexivity.
  - refine (global_found (ws 0%nat) (lit "role A, role B, role C,) {") _ (fun e => _) (Hw _) _). intros e. vm_compute. reflexivity.
  - refine (global_found (ws 0%nat) (lit "role A   , role B, role    C,  ) {") _ (fun e => _) (Hw _) _). intros e. vm_compute. reflexivity.
  - refine (global_lost (ws 0%nat) (lit "role A,) {") (Hw _) _). vm_compute. reflexivity.
  - refine (global_lost (ws 0%nat) (lit "role A, role B, role C) {") (Hw _) _). vm_compute. reflexivity.
  - rewrite <- (app_nil_r (ws 0%nat)). refine (choice_found (ws 0%nat) [] _ (fun e => _) (Hw _) _ _); [exact Logic.I|]. intros e. vm_compute. reflexivity.
  - refine (choice_found (ws 0%nat) (lit "{") _ (fun e => _) (Hw _) _ _); [reflexivity|]. intros e. vm_compute. reflexivity.
  - refine (choice_found (ws 0%nat) (lit " {") _ (fun e => _) (Hw _) _ _); [reflexivity|]. intros e. vm_compute. reflexivity.
  - apply choice_lost, Hw.
  - apply choice_lost, Hw.
  - vm_compute. reflexivity.
  - vm_compute. reflexivity.
  - vm_compute. reflexivity.
  - vm_compute. reflexivity.
  - vm_compute. reflexivity.
  - apply or_lost, Hw.
  - message HM (@None str) true true (@None str).
  - message HM (@None str) false true (@None str).
  - message HM (@None str) true false (@None str).
  - message HM (@None str) false false (@None str).
  - message HM (Some (ws 2%nat)) true true (@None str).
  - message HM (@None str) true true (Some (ws 6%nat)).
  - message HM (Some (ws 2%nat)) true true (Some (ws 6%nat)).
  - message HM (@None str) true true (@None str).
  - message HM (Some (ws 2%nat)) true true (@None str).
  - message HM (Some (ws 2%nat)) false true (@None str).
  - message HM (Some (ws 2%nat)) true false (@None str).
  - message HM (Some (ws 2%nat)) false false (@None str).
  - message HM (@None str) true true (Some (ws 6%nat)).
  - message HM (Some (ws 2%nat)) true true (Some (ws 6%nat)).
  - message HM (@None str) true true (@None str).
  - message HM (Some (ws 2%nat)) true true (@None str).
  - message HM (@None str) true true (Some (ws 6%nat)).
  - message HM (@None str) false true (Some (ws 6%nat)).
  - message HM (@None str) true false (Some (ws 6%nat)).
  - message HM (@None str) false false (Some (ws 6%nat)).
  - message HM (Some (ws 2%nat)) true true (Some (ws 6%nat)).
  - message HM (@None str) true true (@None str).
  - message HM (Some (ws 2%nat)) true true (@None str).
  - message HM (@None str) true true (Some (ws 6%nat)).
  - message HM (Some (ws 2%nat)) true true (Some (ws 6%nat)).
  - message HM (Some (ws 2%nat)) false true (Some (ws 6%nat)).
  - message HM (Some (ws 2%nat)) true false (Some (ws 6%nat)).
  - message HM (Some (ws 2%nat)) false false (Some (ws 6%nat)).
  - rewrite <- (app_nil_r (ws 0%nat)). apply rec_found; [apply Hw|exact Logic.I].
  - apply rec_found; [apply Hw|reflexivity].
  - apply rec_lost, Hw.
  - apply rec_found; [apply Hw|reflexivity].
  - apply continue_found, Hw.
  - apply continue_lost, Hw.
Qed.
Print Assumptions line_assertions.

(** There are fifty-one of them; one on words that the tests would hardly draw: the names are themselves keywords. *)
Example line_example : length line_tests = 51%nat /\
  (forall k : nat, word (lit "choice")) /\ (forall k : nat, natural (lit "0123456789")) /\
  exists t, In t line_tests /\ lt_match t = false /\ fill (fun _ => lit "choice") (fun _ => lit "0") (lt_text t) = lit "choice t choice {".
Proof.
  split; [reflexivity|]. split; [intros; apply word_lit_b; reflexivity|]. split.
  - intros _. split; [discriminate|]. repeat constructor.
  - exists (LineTest CHOICE [Txt "choice t "; Word 0; Txt " {"] false). split; [|now split].
    apply (nth_error_In line_tests 9). reflexivity.
Qed.

(** More than the tests say: on any message, with any spacing, exactly one of the four shapes is recognised. *)
Theorem message_shapes : forall m s, message_text m s ->
  is_match MESSAGE s = true /\
  (is_match MESSAGE_WITH_PAYLOAD s = true <-> payload m <> None /\ reset m = None) /\
  (is_match MESSAGE_WITH_RESET s = true <-> payload m = None /\ reset m <> None) /\
  (is_match MESSAGE_WITH_PAYLOAD_AND_RESET s = true <-> payload m <> None /\ reset m <> None).
Proof.
  intros m s H. destruct (message_matches m s H) as (A & -> & -> & ->). split; [exact A|].
  destruct (payload m), (reset m); cbn; repeat split; intros; try easy; intuition congruence.
Qed.
Print Assumptions message_shapes.

Example message_shapes_example : exists m s, message_text m s /\ payload m <> None /\ reset m = None /\
  s = lit "  Test5(payload)  from A to B within [ 0;2] using a and resetting ();".
Proof.
  exists (Msg (lit "Test5") (Some (lit "payload")) (lit "A") (lit "B") true (lit "0") (lit "2") true (lit "a") None).
  eexists. split; [|split; [discriminate|split; [reflexivity|]]].
  - assert (gap (lit " ")) as G by (split; [discriminate|repeat constructor]).
    apply (message_text_intro (Msg (lit "Test5") (Some (lit "payload")) (lit "A") (lit "B") true (lit "0") (lit "2") true (lit "a") None)
      (lit "  ") (lit "  ") (lit " ") (lit " ") (lit " ") (lit " ") (lit " ") (lit " ") (lit " ") [] [] [] (lit " ") (lit " ")
      (lit " ") (lit " ") [] []); cbn [label payload sender receiver lb rb clock reset option_word];
      try exact G; try (apply word_lit_b; reflexivity); try exact Logic.I;
      try (split; [discriminate|]); repeat constructor.
  - reflexivity.
Qed.

(** ** The written files *)

(** The three files in the repository that the generator wrote are, up to the order of the declarations (which is that of a
    [HashMap]), what the model writes for the three protocols beside them. *)
Theorem written_files : forall ls f,
  In (ls, f) [(basic_lines, basic_file); (choice_lines, choice_file); (recursion_lines, recursion_file)] ->
  exists g, generator_text capital ls = Fine g /\ meshed_roles g = meshed_roles f /\
    Permutation (structs g) (structs f) /\ Permutation (types g) (types f) /\ Permutation (enum_types g) (enum_types f) /\
    Permutation (endpoint_types g) (endpoint_types f) /\ Permutation (functions g) (functions f).
Proof.
  intros ls f H.
  assert (Forall (fun x => match generator_text capital (fst x) with
    | Fine g => (if list_eq_dec str_dec (meshed_roles g) (meshed_roles (snd x)) then true else false) &&
        same_b struct_dec (structs g) (structs (snd x)) && same_b decl_dec (types g) (types (snd x)) &&
        same_b enum_dec (enum_types g) (enum_types (snd x)) && same_b endpoint_dec (endpoint_types g) (endpoint_types (snd x)) &&
        same_b function_dec (functions g) (functions (snd x))
    | _ => false end = true)
    [(basic_lines, basic_file); (choice_lines, choice_file); (recursion_lines, recursion_file)]) as F
    by (repeat (apply Forall_cons; [vm_compute; reflexivity|]); apply Forall_nil).
  rewrite Forall_forall in F. specialize (F _ H). cbn [fst snd] in F.
  destruct (generator_text capital ls) as [g| | |]; try discriminate. exists g. split; [reflexivity|].
  rewrite !andb_true_iff in F. destruct F as (((((F1 & F2) & F3) & F4) & F5) & F6).
  destruct (list_eq_dec str_dec (meshed_roles g) (meshed_roles f)) as [E|]; [|discriminate].
  split; [exact E|]. repeat split; eapply same_ok; eassumption.
Qed.
Print Assumptions written_files.

(** The protocols of tests/nuscr.rs:48-66 that must be refused are, and so is the nested choice, whose test is commented out
    (tests/nuscr.rs:25-33) and whose file is empty. *)
Theorem refused_files : forall title,
  generator_text title wrong_interval_lines = Error /\ generator_text title wrong_consecutive_intervals_lines = Error /\
  generator_text title nested_lines = Error.
Proof. intros title. repeat split; vm_compute; reflexivity. Qed.
Print Assumptions refused_files.

(** What the files hold. *)
Example files_example : (length (types basic_file), length (types choice_file), length (types recursion_file)) = (41, 96, 71)%nat /\
  (length (functions basic_file), length (functions choice_file), length (functions recursion_file)) = (3, 21, 12)%nat /\
  length (enum_types choice_file) = 2%nat.
Proof. vm_compute. repeat split. Qed.
