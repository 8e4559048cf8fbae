(** * The bottom-up checker on recursive protocols: C45

    The model is Checker.v and CheckerMacro.v; the specification (enums of
    branches, the lines of the macro, the behaviours of a role) is
    CheckerLoopSpec.v. *)

From Coq Require Import Ascii String ZArith Lia Bool Permutation Sorted List.
From Verif Require Import Checker CheckerSpec CheckerText CheckerClean CheckerGraph CheckerRun
  CheckerAll CheckerDecide CheckerRefClean CheckerMacro CheckerLoopSpec CheckerLoop CheckerLoopRun
  CheckerLoopWalk CheckerLoopAll CheckerLoopDecide Properties_Checker.
Import ListNotations.

(** ** The types of the variants are read back *)

(** The macro prints the type of a variant behind two references; the path of
    the outermost name is then not removed, but the sessions, the stack and
    the role are read back. *)
Theorem variant_read_back : forall N t mc fs r a,
  wordy t -> paths_apart t -> names_fit N ->
  plain N t (Node [] mc (fs ++ [Node [] r a])) ->
  ~ named (match t with Node path name _ => full_head path name end) ->
  clean_session (lit "&&" ++ type_name t) = Ok (map short (fs ++ [Node [] r a]) ++ [r]).
Proof. exact clean_session_ref. Qed.
Print Assumptions variant_read_back.

(** The maps built by the macros, once cleaned, are the tables of the enums and
    of the lines. *)
Theorem macro_maps_read_back : forall N carried lines E G,
  names_fit N -> well_listed E G -> declared N carried lines E G ->
  exists br bs,
    hmapM (hmapM clean_session) (receivers_of carried lines) = Ok br /\
    hmapM (fun s => b <- clean_session s;; upto 1 b) (branching_of lines) = Ok bs /\
    given E G br bs (group_of lines) /\ tidy_tables E G.
Proof. exact macro_given. Qed.
Print Assumptions macro_maps_read_back.

(** ** The graphs and the machines have the behaviours of the types *)

(** One role, any enums and lines: the walks of the graph, without the marks of
    the loops, are exactly the finite behaviours of the (recursive) type, and
    those of the machine given to KMC are exactly the behaviours without the
    final mark. *)
Theorem loop_behaviours : forall E G br bs gb role roles me c,
  NoDup roles -> nth_error roles me = Some role ->
  well_listed E G -> given E G br bs gb -> tidy_tables E G ->
  S (length (fst c)) = length roles -> tidy_config c ->
  guarded E G roles me [] None c ->
  exists g M N,
    (forall fuel, (N <= fuel)%nat ->
       get_graph_session fuel role (map short (fst c) ++ [short (snd c)]) roles br bs gb =
       Ok (g, machine_text role M)) /\
    (forall l, shows g l <->
       exists tr, performs E G roles me (fst c) (snd c) tr /\ l = map (edge_text role roles) tr) /\
    (forall tr, walk M 0 tr <-> performs E G roles me (fst c) (snd c) tr /\ ~ In Finish tr).
Proof. exact loop_session. Qed.
Print Assumptions loop_behaviours.

(** The whole of [checker_concat!]: from the types of the endpoints in any
    order, the lines and the types of the variants to the graphs, the file
    given to KMC and the bound. *)
Theorem checker_concat_behaviours : forall N sessions ps carried lines E G,
  names_fit N -> Permutation sessions ps ->
  StronglySorted before (map called ps) ->
  Forall (given_as N) ps ->
  well_listed E G -> declared N carried lines E G ->
  (forall me p, nth_error ps me = Some p ->
     S (length (sessions_of p)) = length ps /\
     guarded E G (map called ps) me [] None (sessions_of p, stack_of p)) ->
  exists out fuel0, length out = length ps /\
    (forall fuel with_file kmc, (fuel0 <= fuel)%nat ->
       checker_concat fuel with_file (map as_given sessions) carried lines kmc =
       Ok (combine (map called ps) (map fst out),
           if with_file
           then flat_map (fun e => machine_text (fst e) (snd (snd e)) ++ [[]])
                  (combine (map called ps) out)
           else [],
           if with_file then kmc_bound kmc else Some None)) /\
    (forall me p g M, nth_error ps me = Some p -> nth_error out me = Some (g, M) ->
       loops_found E G (map called ps) me p g M).
Proof. exact loops_all. Qed.
Print Assumptions checker_concat_behaviours.

(** ** The protocol of tests/checking_mod/basics/checking_recursion.rs *)

Definition xBroadcast := mpstthree [lit "role"; lit "broadcast"] (lit "RoleBroadcast") [].
Definition xEnum (n : string) : ty :=
  Node [lit "mod"; lit "checking_mod"; lit "basics"; lit "checking_recursion"] (lit n) [].
Definition xAtoB := xEnum "Branches0AtoB".
Definition xCtoB := xEnum "Branches0CtoB".

Definition xARecurs := xMesh (xRecv xAtoB xEnd) xEnd (xRoleB xRoleEnd) (lit "A").
Definition xCFull := xMesh xEnd (xRecv i32 (xSend i32 (xRecv xCtoB xEnd)))
  (xRoleB (xRoleB (xRoleB xRoleEnd))) (lit "C").
Definition xBFull := xMesh (xSend xAtoB xEnd) (xSend i32 (xRecv i32 (xSend xCtoB xEnd)))
  (xRoleC (xRoleC xBroadcast)) (lit "B").
Definition xBEnd := xMesh xEnd xEnd xRoleEnd (lit "B").

(** The types carried by the variants (checking_recursion.rs:41-48). *)
Definition carried (e b : str) : ty :=
  if seqb b (lit "End") then
    xMesh xEnd xEnd xRoleEnd (if seqb e (lit "Branches0AtoB") then lit "A" else lit "C")
  else if seqb e (lit "Branches0AtoB") then
    xMesh (xRecv xAtoB xEnd) (xRecv i32 (xSend i32 xEnd)) (xRoleC (xRoleC (xRoleB xRoleEnd))) (lit "A")
  else
    xMesh (xSend i32 (xRecv i32 xEnd)) (xRecv i32 (xSend i32 (xRecv xCtoB xEnd)))
      (xRoleB (xRoleA (xRoleA (xRoleB (xRoleB xRoleEnd))))) (lit "C").

Definition lines : list macro_line :=
  [(xBFull, [(lit "Branches0AtoB", lit "Video"); (lit "Branches0CtoB", lit "Video")]);
   (xBEnd, [(lit "Branches0AtoB", lit "End"); (lit "Branches0CtoB", lit "End")])].
Definition enums : list (str * list str) :=
  [(lit "Branches0AtoB", [lit "End"; lit "Video"]); (lit "Branches0CtoB", [lit "End"; lit "Video"])].

Definition xparts : list participant :=
  [part xARecurs (lit "RoleA"); part xBFull (lit "RoleB"); part xCFull (lit "RoleC")].

Lemma xparts_given : Forall (given_as names) xparts.
Proof.
  repeat (apply Forall_cons; [split; [apply wordyb_ok; vm_compute; reflexivity|];
    split; [apply apartb_ok; vm_compute; reflexivity|];
    exists (lit "MeshedChannels"), [Node [] (lit "RoleEnd") []];
    match goal with |- plain _ ?t ?u => replace u with (plainf names t) by (vm_compute; reflexivity) end;
    apply plainb_ok; vm_compute; reflexivity|]).
  constructor.
Qed.

Definition xE : enum_table := etable names carried enums.
Definition xG : line_table := ltable names lines.

Lemma xtables : declared names carried lines xE xG /\ well_listed xE xG.
Proof. apply tablesb_ok. vm_compute. reflexivity. Qed.

Definition altsA : alternatives :=
  map (fun b => (variant_name (lit "Branches0AtoB") b, conf names (carried (lit "Branches0AtoB") b)))
    [lit "End"; lit "Video"].
Definition altsC : alternatives :=
  map (fun b => (variant_name (lit "Branches0CtoB") b, conf names (carried (lit "Branches0CtoB") b)))
    [lit "End"; lit "Video"].
Definition altsB : alternatives :=
  concat (map (fun e => map (fun b => (variant_name e b,
      conf names (if seqb b (lit "End") then xBEnd else xBFull))) [lit "End"; lit "Video"])
    [lit "Branches0AtoB"; lit "Branches0CtoB"]).

Notation xroles := (map called xparts).

Lemma unfoldA : forall s2, unfolds xE xG xroles 0
  ([tRecv (Node [] (lit "Branches0AtoB") []) tEnd; s2], Node [] (lit "RoleB") [tRoleEnd]) altsA.
Proof.
  intros s2. apply (un_enum xE xG xroles 0 _ tRoleEnd 1 (lit "RoleB") (Node [] (lit "Branches0AtoB") []) tEnd
    [(lit "End", conf names (carried (lit "Branches0AtoB") (lit "End")));
     (lit "Video", conf names (carried (lit "Branches0AtoB") (lit "Video")))]);
    [reflexivity|discriminate|reflexivity|now left].
Qed.

Lemma unfoldC : forall s1, unfolds xE xG xroles 2
  ([s1; tRecv (Node [] (lit "Branches0CtoB") []) tEnd], Node [] (lit "RoleB") [tRoleEnd]) altsC.
Proof.
  intros s1. apply (un_enum xE xG xroles 2 _ tRoleEnd 1 (lit "RoleB") (Node [] (lit "Branches0CtoB") []) tEnd
    [(lit "End", conf names (carried (lit "Branches0CtoB") (lit "End")));
     (lit "Video", conf names (carried (lit "Branches0CtoB") (lit "Video")))]);
    [reflexivity|discriminate|reflexivity|now right; left].
Qed.

Lemma unfoldB : unfolds xE xG xroles 1
  ([tSend (Node [] (lit "Branches0AtoB") []) tEnd; tSend (Node [] (lit "Branches0CtoB") []) tEnd], tBroadcast) altsB.
Proof.
  apply (un_broadcast xE xG xroles 1 _
    (map (fun e => map (fun b => (variant_name e b,
      conf names (if seqb b (lit "End") then xBEnd else xBFull))) [lit "End"; lit "Video"])
    [lit "Branches0AtoB"; lit "Branches0CtoB"])).
  constructor; [|constructor; [|constructor]].
  - exists (Node [] (lit "Branches0AtoB") []), tEnd,
      [(lit "End", conf names (carried (lit "Branches0AtoB") (lit "End")));
       (lit "Video", conf names (carried (lit "Branches0AtoB") (lit "Video")))].
    split; [reflexivity|].
    split; [now left|]. constructor; [|constructor; [|constructor]].
    + split; [reflexivity|]. eexists. split; [right; now left|]. now left.
    + split; [reflexivity|]. eexists. split; [now left|]. now left.
  - exists (Node [] (lit "Branches0CtoB") []), tEnd,
      [(lit "End", conf names (carried (lit "Branches0CtoB") (lit "End")));
       (lit "Video", conf names (carried (lit "Branches0CtoB") (lit "Video")))].
    split; [reflexivity|].
    split; [right; now left|]. constructor; [|constructor; [|constructor]].
    + split; [reflexivity|]. eexists. split; [right; now left|]. right. now left.
    + split; [reflexivity|]. eexists. split; [now left|]. right. now left.
Qed.

Ltac no_old := intros o a b [].
Ltac same_line :=
  let a := fresh in let b := fresh in let Ha := fresh in let Hb := fresh in let T := fresh in
  intros a b Ha Hb T; apply togetherb_ok in T;
  cbn in Ha, Hb; intuition subst; first [reflexivity|vm_compute in T; discriminate T].

Lemma xparts_guarded : forall me p, nth_error xparts me = Some p ->
  S (length (sessions_of p)) = length xparts /\
  guarded xE xG xroles me [] None (sessions_of p, stack_of p).
Proof.
  intros me p E. destruct me as [|[|[|me]]]; cbn [nth_error xparts] in E;
    [injection E as <-..|destruct me; discriminate]; (split; [reflexivity|]).
  - apply gd_new with (alts := altsA).
    + exact (unfoldA tEnd).
    + no_old.
    + same_line.
    + intros a [<-|[<-|[]]].
      * apply gd_end; [repeat constructor|reflexivity].
      * apply (gd_recv _ _ _ _ _ _ _ _ 2 (lit "RoleC") i32 (tSend i32 tEnd)); try reflexivity; try discriminate.
        { intros [Q|[Q|[]]]; discriminate Q. }
        apply (gd_send _ _ _ _ _ _ _ _ 2 (lit "RoleC") i32 tEnd); try reflexivity; try discriminate.
        apply gd_again with (alts := altsA); [exact (unfoldA tEnd)|discriminate|]. left. split; [reflexivity|now left].
  - apply (gd_send _ _ _ _ _ _ _ _ 2 (lit "RoleC") i32
             (tRecv i32 (tSend (Node [] (lit "Branches0CtoB") []) tEnd))); try reflexivity; try discriminate.
    apply (gd_recv _ _ _ _ _ _ _ _ 2 (lit "RoleC") i32 (tSend (Node [] (lit "Branches0CtoB") []) tEnd));
      try reflexivity; try discriminate.
    { intros [Q|[Q|[]]]; discriminate Q. }
    apply gd_new with (alts := altsB).
    + exact unfoldB.
    + no_old.
    + same_line.
    + assert (guarded xE xG xroles 1 [altsB] (Some (Some altsB)) (conf names xBEnd)) as K1.
      { apply gd_end; [repeat constructor|reflexivity]. }
      assert (guarded xE xG xroles 1 [altsB] (Some (Some altsB)) (conf names xBFull)) as K2.
      { apply (gd_send _ _ _ _ _ _ _ _ 2 (lit "RoleC") i32
                 (tRecv i32 (tSend (Node [] (lit "Branches0CtoB") []) tEnd))); try reflexivity; try discriminate.
        apply (gd_recv _ _ _ _ _ _ _ _ 2 (lit "RoleC") i32 (tSend (Node [] (lit "Branches0CtoB") []) tEnd));
          try reflexivity; try discriminate.
        { intros [Q|[Q|[]]]; discriminate Q. }
        apply gd_again with (alts := altsB); [exact unfoldB|discriminate|]. left. split; [reflexivity|now left]. }
      intros a [<-|[<-|[<-|[<-|[]]]]]; assumption.
  - apply (gd_recv _ _ _ _ _ _ _ _ 1 (lit "RoleB") i32
             (tSend i32 (tRecv (Node [] (lit "Branches0CtoB") []) tEnd))); try reflexivity; try discriminate.
    { intros [Q|[Q|[]]]; discriminate Q. }
    apply (gd_send _ _ _ _ _ _ _ _ 1 (lit "RoleB") i32 (tRecv (Node [] (lit "Branches0CtoB") []) tEnd));
      try reflexivity; try discriminate.
    apply gd_new with (alts := altsC).
    + exact (unfoldC tEnd).
    + no_old.
    + same_line.
    + intros a [<-|[<-|[]]].
      * apply gd_end; [repeat constructor|reflexivity].
      * apply (gd_recv _ _ _ _ _ _ _ _ 1 (lit "RoleB") i32
             (tSend i32 (tRecv (Node [] (lit "Branches0CtoB") []) tEnd))); try reflexivity; try discriminate.
        { intros [Q|[Q|[]]]; discriminate Q. }
        apply (gd_send _ _ _ _ _ _ _ _ 0 (lit "RoleA") i32 (tRecv i32 tEnd)); try reflexivity; try discriminate.
        apply (gd_recv _ _ _ _ _ _ _ _ 0 (lit "RoleA") i32 tEnd); try reflexivity; try discriminate.
        { intros [Q|[Q|[]]]; discriminate Q. }
        apply (gd_send _ _ _ _ _ _ _ _ 1 (lit "RoleB") i32 (tRecv (Node [] (lit "Branches0CtoB") []) tEnd));
          try reflexivity; try discriminate.
        apply gd_again with (alts := altsC); [exact (unfoldC tEnd)|discriminate|]. left. split; [reflexivity|now left].
Qed.

(** The hypotheses hold for this protocol; the graphs are those expected by the
    test, and this is the file given to KMC. *)
Example recursion_example :
  names_fit names /\
  Permutation [part xARecurs (lit "RoleA"); part xCFull (lit "RoleC"); part xBFull (lit "RoleB")] xparts /\
  StronglySorted before xroles /\ Forall (given_as names) xparts /\
  well_listed xE xG /\ declared names carried lines xE xG /\
  (forall me p, nth_error xparts me = Some p ->
     S (length (sessions_of p)) = length xparts /\
     guarded xE xG xroles me [] None (sessions_of p, stack_of p)) /\
  match checker_concat 30 true [xARecurs; xCFull; xBFull] carried lines (fun _ => Accepts) with
  | Ok (graphs, file, k) =>
      graphs =
        [(lit "RoleA", Graph [lit "0"; lit "0.1"; lit "0.1"; lit "0.2"]
            [(0, 1, lit "0"); (0, 2, lit "RoleA?RoleC: i32"); (2, 3, lit "RoleA!RoleC: i32"); (3, 0, lit "µ")]);
         (lit "RoleB", Graph [lit "0"; lit "1"; lit "2"; lit "2.1"; lit "2.1"; lit "2.2"]
            [(0, 1, lit "RoleB!RoleC: i32"); (1, 2, lit "RoleB?RoleC: i32"); (2, 3, lit "0");
             (2, 4, lit "RoleB!RoleC: i32"); (4, 5, lit "RoleB?RoleC: i32"); (5, 2, lit "µ")]);
         (lit "RoleC", Graph [lit "0"; lit "1"; lit "2"; lit "2.1"; lit "2.1"; lit "2.2"; lit "2.3"; lit "2.4"]
            [(0, 1, lit "RoleC?RoleB: i32"); (1, 2, lit "RoleC!RoleB: i32"); (2, 3, lit "0");
             (2, 4, lit "RoleC?RoleB: i32"); (4, 5, lit "RoleC!RoleA: i32"); (5, 6, lit "RoleC?RoleA: i32");
             (6, 7, lit "RoleC!RoleB: i32"); (7, 2, lit "µ")])]%nat /\
      file =
        [lit ".outputs"; lit ".state graph"; lit "RoleA0 2 ? i32 RoleA2"; lit "RoleA2 2 ! i32 RoleA0";
         lit ".marking RoleA0"; lit ".end"; [];
         lit ".outputs"; lit ".state graph"; lit "RoleB0 2 ! i32 RoleB1"; lit "RoleB1 2 ? i32 RoleB2";
         lit "RoleB2 2 ! i32 RoleB4"; lit "RoleB4 2 ? i32 RoleB2"; lit ".marking RoleB0"; lit ".end"; [];
         lit ".outputs"; lit ".state graph"; lit "RoleC0 1 ? i32 RoleC1"; lit "RoleC1 1 ! i32 RoleC2";
         lit "RoleC2 1 ? i32 RoleC4"; lit "RoleC4 0 ! i32 RoleC5"; lit "RoleC5 0 ? i32 RoleC6";
         lit "RoleC6 1 ! i32 RoleC2"; lit ".marking RoleC0"; lit ".end"; []] /\
      k = Some (Some 1%nat)
  | _ => False
  end.
Proof.
  split; [apply fitb_ok; vm_compute; reflexivity|].
  split; [unfold xparts; apply perm_skip, perm_swap|].
  split; [repeat constructor; discriminate|].
  split; [exact xparts_given|]. split; [apply xtables|]. split; [apply xtables|]. split; [exact xparts_guarded|].
  vm_compute. split; [reflexivity|split; reflexivity].
Qed.

(** A variant behind two references: the path of [MeshedChannels] is not
    removed when no other [MeshedChannels] follows. *)
Example variant_example :
  let t := carried (lit "Branches0AtoB") (lit "Video") in
  wordy t /\ paths_apart t /\ plain names t (plainf names t) /\
  ~ named (match t with Node path name _ => full_head path name end) /\
  clean_session (lit "&&" ++ type_name t) =
  Ok [lit "Recv<Branches0AtoB,End>"; lit "Recv<i32,Send<i32,End>>"; lit "RoleC<RoleC<RoleB<RoleEnd>>>";
      lit "RoleA<RoleEnd>"; lit "RoleA"].
Proof.
  split; [apply wordyb_ok; vm_compute; reflexivity|].
  split; [apply apartb_ok; vm_compute; reflexivity|].
  split; [apply plainb_ok; vm_compute; reflexivity|].
  split; [apply namedb_ok; vm_compute; reflexivity|].
  vm_compute. reflexivity.
Qed.

(** ** Choices that do not follow a message *)

Definition xMesh2 s1 st nm :=
  mpstthree [lit "meshedchannels"] (lit "MeshedChannels")
    [s1; st; mpstthree [lit "name"; lit "x"] (lit "Name" ++ nm) []].
Definition part2 (t : ty) (r : str) : participant :=
  {| as_given := t; called := r; sessions_of := fst (conf names t); stack_of := snd (conf names t) |}.

Lemma part2_given : forall t r, endpointb names t = true ->
  match plainf names t with Node _ _ [_; _; Node _ r' _] => seqb r r' | _ => false end = true ->
  given_as names (part2 t r).
Proof.
  intros t r H Q. destruct (endpointb_ok names t H) as (W & A & _). split; [exact W|]. split; [exact A|].
  pose proof H as H'. unfold endpointb in H. apply andb_true_iff in H. destruct H as [H H4].
  apply andb_true_iff in H. destruct H as [_ H3]. pose proof (plainb_ok names t H3) as P.
  unfold part2. cbn [as_given called sessions_of stack_of]. unfold conf.
  destruct (plainf names t) as [path mc args]. destruct path; [|discriminate H4].
  destruct args as [|x [|y [|[q r' a] [|z args]]]]; try discriminate Q. destruct q; [|discriminate H4].
  apply seqb_true in Q. subst r'. now exists mc, a.
Qed.

Definition xX := xEnum "X".
Definition xY := xEnum "Y".

(** B chooses whether to stop or to go on; when it goes on it sends a number
    and then chooses again: at once from the start, or after a boolean. *)
Definition carried_r (e b : str) : ty :=
  if seqb b (lit "Stop") then xMesh2 xEnd xRoleEnd (lit "A")
  else if seqb b (lit "Go") then xMesh2 (xRecv i32 (xRecv xY xEnd)) (xRoleB (xRoleB xRoleEnd)) (lit "A")
  else if seqb b (lit "Again") then xMesh2 (xRecv xX xEnd) (xRoleB xRoleEnd) (lit "A")
  else xMesh2 (xRecv bool_ (xRecv xX xEnd)) (xRoleB (xRoleB xRoleEnd)) (lit "A").
Definition lines_r : list macro_line :=
  [(xMesh2 xEnd xRoleEnd (lit "B"), [(lit "X", lit "Stop")]);
   (xMesh2 (xSend i32 (xSend xY xEnd)) (xRoleA xBroadcast) (lit "B"), [(lit "X", lit "Go")]);
   (xMesh2 (xSend xX xEnd) xBroadcast (lit "B"), [(lit "Y", lit "Again")]);
   (xMesh2 (xSend bool_ (xSend xX xEnd)) (xRoleA xBroadcast) (lit "B"), [(lit "Y", lit "More")])].
Definition enums_r : list (str * list str) :=
  [(lit "X", [lit "Go"; lit "Stop"]); (lit "Y", [lit "Again"; lit "More"])].
Definition parts_r : list participant :=
  [part2 (xMesh2 (xRecv xX xEnd) (xRoleB xRoleEnd) (lit "A")) (lit "RoleA");
   part2 (xMesh2 (xSend xX xEnd) xBroadcast (lit "B")) (lit "RoleB")].

(** A loop taken right after a choice turns the wrong transition of the
    machine: KMC is given a machine that cannot receive the boolean, although
    the type and the graph can. *)
Theorem loop_after_choice_refuted : exists sessions ps carried lines E G graphs file g M tr,
  names_fit names /\ Permutation sessions ps /\ StronglySorted before (map called ps) /\
  Forall (given_as names) ps /\ well_listed E G /\ declared names carried lines E G /\
  (forall p, In p ps -> S (length (sessions_of p)) = length ps) /\
  checker_concat 30 true (map as_given sessions) carried lines (fun _ => Accepts) =
    Ok ((lit "RoleA", g) :: graphs, machine_text (lit "RoleA") M ++ file, Some (Some 1%nat)) /\
  exists p, nth_error ps 0 = Some p /\
    performs E G (map called ps) 0 (sessions_of p) (stack_of p) tr /\ ~ In Finish tr /\
    shows g (map (edge_text (lit "RoleA") (map called ps)) tr) /\
    ~ walk M 0 tr.
Proof.
  exists parts_r, parts_r, carried_r, lines_r, (etable names carried_r enums_r), (ltable names lines_r).
  eexists _, _, _, [(0%nat, In_ 1 i32, 0%nat); (1%nat, In_ 1 bool_, 0%nat)], [In_ 1 i32; In_ 1 bool_].
  split; [apply fitb_ok; vm_compute; reflexivity|]. split; [apply Permutation_refl|].
  split; [repeat constructor; discriminate|].
  split; [repeat (constructor; [apply part2_given; vm_compute; reflexivity|]); constructor|].
  assert (tablesb names carried_r lines_r enums_r = true) as Tb by (vm_compute; reflexivity).
  split; [now apply tablesb_ok|]. split; [now apply tablesb_ok|].
  split; [intros p [<-|[<-|[]]]; reflexivity|].
  split; [vm_compute; reflexivity|].
  eexists. split; [reflexivity|]. split; [|split; [|split]].
  - eapply pf_enum.
    + apply (un_enum _ _ _ _ _ tRoleEnd 1 (lit "RoleB") (Node [] (lit "X") []) tEnd
        (map (fun b => (b, conf names (carried_r (lit "X") b))) [lit "Go"; lit "Stop"]));
        [reflexivity|discriminate|reflexivity|now left].
    + now left.
    + apply (pf_recv _ _ _ _ _ _ 1 (lit "RoleB") i32 (tRecv (Node [] (lit "Y") []) tEnd));
        [reflexivity|discriminate|reflexivity| |].
      { intros [Q|[Q|[]]]; discriminate Q. }
      eapply pf_enum.
      * apply (un_enum _ _ _ _ _ tRoleEnd 1 (lit "RoleB") (Node [] (lit "Y") []) tEnd
          (map (fun b => (b, conf names (carried_r (lit "Y") b))) [lit "Again"; lit "More"]));
          [reflexivity|discriminate|reflexivity|right; now left].
      * right. now left.
      * apply (pf_recv _ _ _ _ _ _ 1 (lit "RoleB") bool_ (tRecv (Node [] (lit "X") []) tEnd));
          [reflexivity|discriminate|reflexivity| |constructor].
        intros [Q|[Q|[]]]; discriminate Q.
  - intros [Q|[Q|[]]]; discriminate Q.
  - apply sw_step with (b := 1%nat); [vm_compute; intuition|vm_compute; discriminate|].
    apply sw_step with (b := 2%nat); [vm_compute; intuition|vm_compute; discriminate|constructor].
  - intros W. inversion W as [|? ? b ? I W']; subst. destruct I as [Q|[Q|[]]]; [|discriminate Q].
    injection Q as <-. inversion W' as [|? ? b' ? I' W'']; subst.
    destruct I' as [Q|[Q|[]]]; discriminate Q.
Qed.
Print Assumptions loop_after_choice_refuted.

(** B chooses between a loop of numbers and a single boolean; the loop starts
    with a choice of its own. *)
Definition carried_u (e b : str) : ty :=
  if seqb b (lit "Stop") then xMesh2 xEnd xRoleEnd (lit "A")
  else if seqb b (lit "More") then xMesh2 (xRecv i32 (xRecv xY xEnd)) (xRoleB (xRoleB xRoleEnd)) (lit "A")
  else if seqb b (lit "Numbers") then xMesh2 (xRecv xY xEnd) (xRoleB xRoleEnd) (lit "A")
  else xMesh2 (xRecv bool_ xEnd) (xRoleB xRoleEnd) (lit "A").
Definition lines_u : list macro_line :=
  [(xMesh2 xEnd xRoleEnd (lit "B"), [(lit "Y", lit "Stop")]);
   (xMesh2 (xSend i32 (xSend xY xEnd)) (xRoleA xBroadcast) (lit "B"), [(lit "Y", lit "More")]);
   (xMesh2 (xSend xY xEnd) xBroadcast (lit "B"), [(lit "X", lit "Numbers")]);
   (xMesh2 (xSend bool_ xEnd) (xRoleA xRoleEnd) (lit "B"), [(lit "X", lit "Boolean")])].
Definition enums_u : list (str * list str) :=
  [(lit "X", [lit "Boolean"; lit "Numbers"]); (lit "Y", [lit "More"; lit "Stop"])].

Lemma no_boolean : forall ss st tr,
  performs (etable names carried_u enums_u) (ltable names lines_u) [lit "RoleA"; lit "RoleB"] 0 ss st tr ->
  (ss = [tRecv (Node [] (lit "Y") []) tEnd] /\ st = Node [] (lit "RoleB") [tRoleEnd] \/
   ss = [tRecv i32 (tRecv (Node [] (lit "Y") []) tEnd)] /\
     st = Node [] (lit "RoleB") [Node [] (lit "RoleB") [tRoleEnd]] \/
   ss = [tEnd] /\ st = tRoleEnd) ->
  ~ In (In_ 1 bool_) tr.
Proof.
  intros ss st tr P. induction P as
    [ss st|ss Fe|ss st i r p s tr Ni D Ns P IH|ss st i r p s tr Ni D Ns NE P IH
    |ss r stl str k l ls lst ln rgt rs rst rn c tr Nk Hc P IH
    |ss r stl str dl dr c tr F1 F2 Hc P IH
    |ss st alts k ls lst tr U Ia P IH]; intros [[-> Q]|[[-> Q]|[-> Q]]];
    try (intros []; fail); try discriminate Q.
  - intros [Z|[]]. discriminate Z.
  - injection Q as -> ->. destruct i as [|[|i]]; [now contradiction D| |]; cbn in Ns; [discriminate Ns|].
    destruct i; discriminate Ns.
  - injection Q as -> ->. destruct i as [|[|i]]; [now contradiction D| |]; cbn in Ns; [discriminate Ns|].
    destruct i; discriminate Ns.
  - exfalso. injection Q as -> ->. destruct i as [|[|i]]; [now contradiction D| |]; cbn in Ns.
    + injection Ns as <- <-. apply NE. vm_compute. intuition.
    + destruct i; discriminate Ns.
  - injection Q as -> ->. destruct i as [|[|i]]; [now contradiction D| |]; cbn in Ns.
    + injection Ns as <- <-. intros [Z|Z]; [discriminate Z|]. revert Z. apply IH. left. now split.
    + destruct i; discriminate Ns.
  - subst st. inversion U as [? ? i r p s vs Ni D Ns Ie|]; subst.
    destruct i as [|[|i]]; [now contradiction D| |]; cbn in Ns; [|destruct i; discriminate Ns].
    injection Ns as <- <-. destruct Ie as [Z|[Z|[]]]; [discriminate Z|]. injection Z as <-.
    apply IH. destruct Ia as [Z|[Z|[]]]; injection Z as <- <- <-.
    + right. left. now split.
    + right. right. now split.
  - exfalso. subst st. inversion U as [? ? i r p s vs Ni D Ns Ie|]; subst.
    destruct i as [|[|i]]; [now contradiction D| |]; cbn in Ns; [|destruct i; discriminate Ns].
    injection Ns as <- <-. destruct Ie as [Z|[Z|[]]]; discriminate Z.
  - exfalso. subst st. inversion U.
Qed.

Definition parts_u : list participant :=
  [part2 (xMesh2 (xRecv xX xEnd) (xRoleB xRoleEnd) (lit "A")) (lit "RoleA");
   part2 (xMesh2 (xSend xX xEnd) xBroadcast (lit "B")) (lit "RoleB")].

(** A choice right inside another one shares its node: the graph and the
    machine receive the boolean after a number, the type never does. *)
Theorem choice_in_choice_refuted : exists sessions ps carried lines E G graphs file g M tr,
  names_fit names /\ Permutation sessions ps /\ StronglySorted before (map called ps) /\
  Forall (given_as names) ps /\ well_listed E G /\ declared names carried lines E G /\
  (forall p, In p ps -> S (length (sessions_of p)) = length ps) /\
  checker_concat 30 true (map as_given sessions) carried lines (fun _ => Accepts) =
    Ok ((lit "RoleA", g) :: graphs, machine_text (lit "RoleA") M ++ file, Some (Some 1%nat)) /\
  exists p, nth_error ps 0 = Some p /\
    shows g (map (edge_text (lit "RoleA") (map called ps)) tr) /\
    walk M 0 tr /\
    ~ performs E G (map called ps) 0 (sessions_of p) (stack_of p) tr.
Proof.
  exists parts_u, parts_u, carried_u, lines_u, (etable names carried_u enums_u), (ltable names lines_u).
  eexists _, _, _, [(0%nat, In_ 1 bool_, 1%nat); (0%nat, In_ 1 i32, 0%nat)], [In_ 1 i32; In_ 1 bool_].
  split; [apply fitb_ok; vm_compute; reflexivity|]. split; [apply Permutation_refl|].
  split; [repeat constructor; discriminate|].
  split; [repeat (constructor; [apply part2_given; vm_compute; reflexivity|]); constructor|].
  assert (tablesb names carried_u lines_u enums_u = true) as Tb by (vm_compute; reflexivity).
  split; [now apply tablesb_ok|]. split; [now apply tablesb_ok|].
  split; [intros p [<-|[<-|[]]]; reflexivity|].
  split; [vm_compute; reflexivity|].
  eexists. split; [reflexivity|]. split; [|split].
  - apply sw_step with (b := 3%nat); [vm_compute; intuition|vm_compute; discriminate|].
    apply sw_skip with (b := 0%nat); [vm_compute; intuition|].
    apply sw_step with (b := 1%nat); [vm_compute; intuition|vm_compute; discriminate|constructor].
  - apply w_step with (b := 0%nat); [right; now left|]. apply w_step with (b := 1%nat); [now left|constructor].
  - intros P. inversion P as [| | |? ? i r p s ? Ni D Ns NE P'| | |? ? alts k ls lst ? U Ia P']; subst.
    + cbn in Ns. discriminate Ns.
    + inversion U as [? ? i r p s vs Ni D Ns Ie|]; subst.
      destruct i as [|[|i]]; [now contradiction D| |]; cbn in Ns; [|destruct i; discriminate Ns].
      injection Ns as <- <-. destruct Ie as [Z|[Z|[]]]; [|discriminate Z]. injection Z as <-.
      destruct Ia as [Z|[Z|[]]]; injection Z as <- <- <-.
      * inversion P' as [| | |? ? i r p s ? Ni' D' Ns' NE P''| | |? ? alts k ls lst ? U' Ia P'']; subst.
        -- cbn in Ns'. discriminate Ns'.
        -- inversion U' as [? ? i r p s vs Ni' D' Ns' Ie|]; subst.
           destruct i as [|[|i]]; [now contradiction D'| |]; cbn in Ns'; [|destruct i; discriminate Ns'].
           injection Ns' as <- <-. destruct Ie as [Z|[Z|[]]]; discriminate Z.
      * refine (no_boolean _ _ _ P' (or_introl (conj eq_refl eq_refl)) _). right. now left.
Qed.
Print Assumptions choice_in_choice_refuted.

(** The checker knows only the variants that are on a line: with a variant
    missing, its behaviours are silently absent from the graph. *)
Theorem missing_variant_refuted : exists sessions ps carried lines E G graphs file g tr,
  names_fit names /\ Permutation sessions ps /\ StronglySorted before (map called ps) /\
  Forall (given_as names) ps /\
  NoDup (map fst E) /\ NoDup (names_of (concat (map snd G))) /\
  (forall e b, In (e, b) (concat (map snd lines)) -> exists vs c, In (e, vs) E /\ In (b, c) vs) /\
  (forall p, In p ps -> S (length (sessions_of p)) = length ps) /\
  checker_concat 30 true (map as_given sessions) carried lines (fun _ => Accepts) =
    Ok ((lit "RoleA", g) :: graphs, file, Some (Some 1%nat)) /\
  exists p, nth_error ps 0 = Some p /\
    performs E G (map called ps) 0 (sessions_of p) (stack_of p) tr /\
    ~ shows g (map (edge_text (lit "RoleA") (map called ps)) tr).
Proof.
  exists parts_u, parts_u, carried_r, [(xMesh2 xEnd xRoleEnd (lit "B"), [(lit "X", lit "Stop")])],
    (etable names carried_r [(lit "X", [lit "Go"; lit "Stop"])]),
    (ltable names [(xMesh2 xEnd xRoleEnd (lit "B"), [(lit "X", lit "Stop")])]).
  eexists _, _, _, [In_ 1 i32].
  split; [apply fitb_ok; vm_compute; reflexivity|]. split; [apply Permutation_refl|].
  split; [repeat constructor; discriminate|].
  split; [repeat (constructor; [apply part2_given; vm_compute; reflexivity|]); constructor|].
  split; [apply nodupb_ok; vm_compute; reflexivity|]. split; [apply nodupb_ok; vm_compute; reflexivity|].
  split; [intros e b [Q|[]]; injection Q as <- <-; eexists _, _; split; [now left|right; now left]|].
  split; [intros p [<-|[<-|[]]]; reflexivity|].
  split; [vm_compute; reflexivity|].
  eexists. split; [reflexivity|]. split.
  - eapply pf_enum.
    + apply (un_enum _ _ _ _ _ tRoleEnd 1 (lit "RoleB") (Node [] (lit "X") []) tEnd
        (map (fun b => (b, conf names (carried_r (lit "X") b))) [lit "Go"; lit "Stop"]));
        [reflexivity|discriminate|reflexivity|now left].
    + now left.
    + apply (pf_recv _ _ _ _ _ _ 1 (lit "RoleB") i32 (tRecv (Node [] (lit "Y") []) tEnd));
        [reflexivity|discriminate|reflexivity| |constructor].
      intros [Q|[]]; discriminate Q.
  - intros W. inversion W as [|? ? b ? I NM W'|? b ? I W']; subst; vm_compute in I; intuition discriminate.
Qed.
Print Assumptions missing_variant_refuted.
