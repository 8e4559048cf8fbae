(** * The bottom-up checker: C31, C32, C33

    The model is Checker.v; the specification (types as trees, their text,
    the behaviours of a role) is CheckerSpec.v. *)

From Coq Require Import Ascii String ZArith Lia Bool Permutation Sorted List.
From Verif Require Import Checker CheckerSpec CheckerText CheckerClean CheckerGraph CheckerRun
  CheckerAll CheckerDecide.
Import ListNotations.

(** ** C31: the types are read back *)

Lemma full_calm : forall t, wordy t -> calm full_head t.
Proof.
  intros t W. unfold calm. eapply Forall_impl; [|exact W].
  intros [p n] [H1 H2]. cbn [fst snd] in *. unfold full_head. apply Forall_app.
  split; [|exact (word_quiet _ H2)]. unfold path_text. induction H1 as [|s p Hs _ IH]; [constructor|].
  cbn [map concat]. apply Forall_app. split; [|exact IH]. apply Forall_app.
  split; [exact (word_quiet _ Hs)|]. repeat constructor; discriminate.
Qed.

(** The parameters of a type, from what [type_name] prints or from the short
    text: one field per parameter, with the commas and chevrons of its own
    parameters. *)
Theorem blocks_read_back : forall path name args,
  wordy (Node path name args) ->
  get_blocks (type_name (Node path name args)) = map (show_with full_head false) args /\
  get_blocks (short (Node path name args)) = map short args.
Proof.
  intros path name args W. split; apply get_blocks_type; [now apply full_calm|now apply short_calm].
Qed.
Print Assumptions blocks_read_back.

(** The head, then the parameters. *)
Theorem head_payload_continuation_read_back : forall path name args,
  wordy (Node path name args) ->
  get_hpc (short (Node path name args)) = name :: map short args.
Proof. exact hpc_short. Qed.
Print Assumptions head_payload_continuation_read_back.

(** The dual of the text is the text of the dual. *)
Theorem dual_read_back : forall s s', dual_of s s' -> wordy s ->
  forall fuel, (length (short s) < fuel)%nat -> build_dual fuel (short s) = Ok (short s').
Proof.
  intros s s' D W fuel F. destruct fuel as [|fuel]; [lia|]. apply (build_dual_type s s' D W). lia.
Qed.
Print Assumptions dual_read_back.

(** The sessions, the stack and the role of an endpoint are read back from
    what [type_name] prints: the paths are gone, each name [NameX] is replaced
    by [RoleX<RoleEnd>], and nothing else changes. *)
Theorem endpoint_read_back : forall N t mc fs r a,
  wordy t -> paths_apart t -> names_fit N ->
  plain N t (Node [] mc (fs ++ [Node [] r a])) ->
  clean_session (type_name t) = Ok (map short (fs ++ [Node [] r a]) ++ [r]).
Proof. intros N. exact (clean_session_type N true). Qed.
Print Assumptions endpoint_read_back.

(** An endpoint with three participants. *)
Definition mpstthree (path : list str) (n : str) (args : list ty) : ty :=
  Node (lit "mpstthree" :: path) n args.
Definition xSend p s := mpstthree [lit "binary"; lit "struct_trait"; lit "send"] (lit "Send") [p; s].
Definition xRecv p s := mpstthree [lit "binary"; lit "struct_trait"; lit "recv"] (lit "Recv") [p; s].
Definition xEnd := mpstthree [lit "binary"; lit "struct_trait"; lit "end"] (lit "End") [].
Definition xEither l r := Node [lit "either"] (lit "Either") [l; r].
Definition xRoleEnd := mpstthree [lit "role"; lit "end"] (lit "RoleEnd") [].
Definition xRoleA s := mpstthree [lit "role"; lit "a"] (lit "RoleA") [s].
Definition xRoleB s := mpstthree [lit "role"; lit "b"] (lit "RoleB") [s].
Definition xRoleC s := mpstthree [lit "role"; lit "c"] (lit "RoleC") [s].
Definition xMesh s1 s2 st nm :=
  mpstthree [lit "meshedchannels"] (lit "MeshedChannels")
    [s1; s2; st; mpstthree [lit "name"; lit "x"] (lit "Name" ++ nm) []].
Definition i32 := Node [] (lit "i32") [].
Definition bool_ := Node [] (lit "bool") [].

(** C chooses; on the left C sends a boolean to A, which then sends a number
    to B; on the right nothing happens. *)
Definition xAl := xMesh (xSend i32 xEnd) (xRecv bool_ xEnd) (xRoleC (xRoleB xRoleEnd)) (lit "A").
Definition xBl := xMesh (xRecv i32 xEnd) xEnd (xRoleA xRoleEnd) (lit "B").
Definition xAr := xMesh xEnd xEnd xRoleEnd (lit "A").
Definition xBr := xMesh xEnd xEnd xRoleEnd (lit "B").
Definition xA := xMesh xEnd (xRecv (xEither xAl xAr) xEnd)
  (mpstthree [lit "role"; lit "all_to_c"] (lit "RoleAlltoC") [xRoleEnd; xRoleEnd]) (lit "A").
Definition xB := xMesh xEnd (xRecv (xEither xBl xBr) xEnd)
  (mpstthree [lit "role"; lit "all_to_c"] (lit "RoleAlltoC") [xRoleEnd; xRoleEnd]) (lit "B").
Definition xC := xMesh (xSend (xEither xAl xAr) xEnd) (xSend (xEither xBl xBr) xEnd)
  (mpstthree [lit "role"; lit "c_to_all"] (lit "RoleCtoAll") [xRoleA xRoleEnd; xRoleEnd]) (lit "C").

Definition names : list str := [lit "A"; lit "B"; lit "C"].

Example endpoint_example :
  wordy xA /\ paths_apart xA /\ names_fit names /\ plain names xA (plainf names xA) /\
  type_name xAr = lit "mpstthree::meshedchannels::MeshedChannels<mpstthree::binary::struct_trait::end::End, mpstthree::binary::struct_trait::end::End, mpstthree::role::end::RoleEnd, mpstthree::name::x::NameA>" /\
  clean_session (type_name xA) =
  Ok [lit "End";
      lit "Recv<Either<MeshedChannels<Send<i32,End>,Recv<bool,End>,RoleC<RoleB<RoleEnd>>,RoleA<RoleEnd>>,MeshedChannels<End,End,RoleEnd,RoleA<RoleEnd>>>,End>";
      lit "RoleAlltoC<RoleEnd,RoleEnd>"; lit "RoleA<RoleEnd>"; lit "RoleA"].
Proof.
  split; [apply wordyb_ok; vm_compute; reflexivity|].
  split; [apply apartb_ok; vm_compute; reflexivity|].
  split; [apply fitb_ok; vm_compute; reflexivity|].
  split; [apply plainb_ok; vm_compute; reflexivity|].
  split; vm_compute; reflexivity.
Qed.

Example read_back_example :
  get_blocks (lit "MeshedChannels<Send<i32, Recv<bool, End>>, End, RoleEnd, RoleA<RoleEnd>>") =
    [lit "Send<i32,Recv<bool,End>>"; lit "End"; lit "RoleEnd"; lit "RoleA<RoleEnd>"] /\
  get_hpc (lit "Send<Vec<i32>,Recv<bool,End>>") = [lit "Send"; lit "Vec<i32>"; lit "Recv<bool,End>"] /\
  build_dual 100 (lit "Send<Vec<i32>,Recv<bool,End>>") = Ok (lit "Recv<Vec<i32>,Send<bool,End>>").
Proof. repeat split. Qed.

(** A payload that is a tuple is cut at its comma: the dual of
    [Send<(i32, i32), End>] cannot be built, the payload read is "(i32". *)
Theorem tuple_payload_refuted : exists p s,
  s = lit "Send<" ++ p ++ lit ",End>" /\
  p = lit "(i32, i32)" /\
  (forall fuel, build_dual (S fuel) s <> Ok (lit "Recv<" ++ p ++ lit ",End>")) /\
  build_dual 100 s = Panics /\
  get_hpc s = [lit "Send"; lit "(i32"; lit "i32)"; lit "End"].
Proof.
  exists (lit "(i32, i32)"), (lit "Send<(i32, i32),End>"). repeat split.
  intros [|[|fuel]]; cbn; discriminate.
Qed.
Print Assumptions tuple_payload_refuted.

(** Two roles whose names differ only by a digit are the same role for the
    checker: the text given for [NameA1] and [NameA2] is cleaned to the role
    [RoleA]. *)
Theorem digit_roles_refuted : exists t1 t2 l1 l2,
  t1 <> t2 /\ clean_session t1 = Ok (l1 ++ [lit "RoleA"]) /\ clean_session t2 = Ok (l2 ++ [lit "RoleA"]) /\
  t1 = lit "x::MeshedChannels<x::End, x::RoleEnd, x::NameA1>" /\
  t2 = lit "x::MeshedChannels<x::End, x::RoleEnd, x::NameA2>".
Proof.
  exists (lit "x::MeshedChannels<x::End, x::RoleEnd, x::NameA1>"),
         (lit "x::MeshedChannels<x::End, x::RoleEnd, x::NameA2>").
  eexists [_; _; _], [_; _; _]. split; [discriminate|].
  split; [vm_compute; reflexivity|]. split; [vm_compute; reflexivity|]. split; reflexivity.
Qed.
Print Assumptions digit_roles_refuted.

(** A role whose name starts with the name of another role is read as that
    role when the other name comes first: the endpoint of [NameAB], which
    chooses for [NameA], is cleaned to the role [RoleA]. *)
Theorem prefix_roles_refuted : exists t l,
  wordy t /\ paths_apart t /\
  plain [lit "A"; lit "AB"] t
    (Node [] (lit "MeshedChannels")
       [tSend (tEither (Node [] (lit "MeshedChannels") [tEnd; tRoleEnd; Node [] (lit "RoleA") [tRoleEnd]])
                       (Node [] (lit "MeshedChannels") [tEnd; tRoleEnd; Node [] (lit "RoleA") [tRoleEnd]])) tEnd;
        Node [] (lit "RoleABtoAll") [tRoleEnd; tRoleEnd]; Node [] (lit "RoleAB") [tRoleEnd]]) /\
  clean_session (type_name t) = Ok (l ++ [lit "RoleA<RoleEnd>B"; lit "RoleA"]).
Proof.
  exists (mpstthree [lit "meshedchannels"] (lit "MeshedChannels")
    [xSend (xEither (mpstthree [lit "meshedchannels"] (lit "MeshedChannels") [xEnd; xRoleEnd; Node [lit "x"] (lit "NameA") []])
                    (mpstthree [lit "meshedchannels"] (lit "MeshedChannels") [xEnd; xRoleEnd; Node [lit "x"] (lit "NameA") []])) xEnd;
     Node [lit "x"] (lit "RoleABtoAll") [xRoleEnd; xRoleEnd]; Node [lit "x"] (lit "NameAB") []]).
  eexists [_; _]. split; [apply wordyb_ok; vm_compute; reflexivity|].
  split; [apply apartb_ok; vm_compute; reflexivity|]. split.
  - match goal with |- plain ?N ?t ?u => replace u with (plainf N t) by (vm_compute; reflexivity) end.
    apply plainb_ok. vm_compute. reflexivity.
  - vm_compute. reflexivity.
Qed.
Print Assumptions prefix_roles_refuted.

(** A payload whose name contains "Name" followed by a letter is rewritten:
    the payload [NameTag] is read as [RoleTag<RoleEnd>]. *)
Theorem name_payload_refuted : exists t p,
  t = xMesh (xSend p xEnd) xEnd (xRoleB xRoleEnd) (lit "A") /\ wordy t /\ paths_apart t /\
  short p = lit "NameTag" /\
  clean_session (type_name t) =
    Ok [lit "Send<RoleTag<RoleEnd>,End>"; lit "End"; lit "RoleB<RoleEnd>"; lit "RoleA<RoleEnd>"; lit "RoleA"].
Proof.
  eexists _, (Node [lit "app"] (lit "NameTag") []). split; [reflexivity|].
  split; [apply wordyb_ok; vm_compute; reflexivity|].
  split; [apply apartb_ok; vm_compute; reflexivity|]. split; vm_compute; reflexivity.
Qed.
Print Assumptions name_payload_refuted.

(** ** C32: the graph has the behaviours of the type *)

(** One role: whatever the enums known to the checker, if the type contains
    none of them, the walks of the graph from its first node are exactly the
    behaviours of the type, and those of the machine given to KMC are exactly
    the behaviours without the final mark. *)
Theorem graph_behaviours : forall role roles me br bs gb ss st,
  NoDup roles -> nth_error roles me = Some role ->
  local_type roles me (fun p => hget br (short p) = None) ss st ->
  Forall tidy ss -> tidy st ->
  exists g M N,
    (forall fuel, (N <= fuel)%nat ->
       get_graph_session fuel role (map short ss ++ [short st]) roles br bs gb =
       Ok (g, machine_text role M)) /\
    (forall l, graph_does g l <->
       exists tr, does roles me ss st tr /\ l = map (edge_text role roles) tr) /\
    (forall tr, walk M 0 tr <-> does roles me ss st tr /\ ~ In Finish tr).
Proof. exact graph_session. Qed.
Print Assumptions graph_behaviours.

(** The whole checker, from what [type_name] prints for each endpoint, given in
    any order: one graph per role and the file given to KMC, in the order of
    the names.  The fields of an endpoint must be in the order of the names. *)
Theorem checker_behaviours : forall N given ps,
  names_fit N -> Permutation given ps ->
  StronglySorted before (map called ps) ->
  Forall (given_as N) ps ->
  (forall me p, nth_error ps me = Some p ->
     local_type (map called ps) me (fun _ => True) (sessions_of p) (stack_of p)) ->
  exists out fuel0, length out = length ps /\
    (forall fuel with_file kmc, (fuel0 <= fuel)%nat ->
       checker fuel with_file (map type_name (map as_given given)) [] [] [] kmc =
       Ok (combine (map called ps) (map fst out),
           if with_file
           then flat_map (fun e => machine_text (fst e) (snd (snd e)) ++ [[]])
                  (combine (map called ps) out)
           else [],
           if with_file then kmc_bound kmc else Some None)) /\
    (forall me p g M, nth_error ps me = Some p -> nth_error out me = Some (g, M) ->
       found_for (map called ps) me p g M).
Proof. exact checker_all. Qed.
Print Assumptions checker_behaviours.

Definition split_mesh (t : ty) : list ty * ty :=
  match plainf names t with
  | Node _ _ [s1; s2; st; _] => ([s1; s2], st)
  | t' => ([], t')
  end.
Definition part (t : ty) (r : str) : participant :=
  {| as_given := t; called := r; sessions_of := fst (split_mesh t); stack_of := snd (split_mesh t) |}.
Definition parts : list participant :=
  [part xA (lit "RoleA"); part xB (lit "RoleB"); part xC (lit "RoleC")].

Lemma parts_given : Forall (given_as names) parts.
Proof.
  repeat (apply Forall_cons; [split; [apply wordyb_ok; vm_compute; reflexivity|];
    split; [apply apartb_ok; vm_compute; reflexivity|];
    exists (lit "MeshedChannels"), [Node [] (lit "RoleEnd") []];
    match goal with |- plain _ ?t ?u => replace u with (plainf names t) by (vm_compute; reflexivity) end;
    apply plainb_ok; vm_compute; reflexivity|]).
  constructor.
Qed.

Ltac local_end := apply lt_end; [repeat constructor|reflexivity].

Lemma parts_local : forall me p, nth_error parts me = Some p ->
  local_type (map called parts) me (fun _ => True) (sessions_of p) (stack_of p).
Proof.
  intros me p E. destruct me as [|[|[|me]]]; cbn [nth_error parts] in E;
    [injection E as <-..|destruct me; discriminate].
  - apply (lt_offer (map called parts) 0 (fun _ => True) _ (lit "RoleAlltoC") tRoleEnd tRoleEnd 1
             (lit "MeshedChannels") (fst (split_mesh xAl)) (snd (split_mesh xAl))
             (Node [] (lit "RoleA") [tRoleEnd])
             (lit "MeshedChannels") (fst (split_mesh xAr)) (snd (split_mesh xAr))
             (Node [] (lit "RoleA") [tRoleEnd])).
    + reflexivity.
    + vm_compute. reflexivity.
    + intros [|[|[|j]]] D s N; [injection N as <-; reflexivity|congruence|discriminate..].
    + change (snd (split_mesh xAl)) with (Node [] (lit "RoleC") [Node [] (lit "RoleB") [tRoleEnd]]).
      apply (lt_recv _ _ _ _ _ 2 (lit "RoleC") bool_ tEnd); [reflexivity|discriminate|reflexivity|exact I|].
      apply (lt_send _ _ _ _ _ 1 (lit "RoleB") i32 tEnd); [reflexivity|discriminate|reflexivity|].
      local_end.
    + local_end.
  - apply (lt_offer (map called parts) 1 (fun _ => True) _ (lit "RoleAlltoC") tRoleEnd tRoleEnd 1
             (lit "MeshedChannels") (fst (split_mesh xBl)) (snd (split_mesh xBl))
             (Node [] (lit "RoleB") [tRoleEnd])
             (lit "MeshedChannels") (fst (split_mesh xBr)) (snd (split_mesh xBr))
             (Node [] (lit "RoleB") [tRoleEnd])).
    + reflexivity.
    + vm_compute. reflexivity.
    + intros [|[|[|j]]] D s N; [injection N as <-; reflexivity|congruence|discriminate..].
    + change (snd (split_mesh xBl)) with (Node [] (lit "RoleA") [tRoleEnd]).
      apply (lt_recv _ _ _ _ _ 0 (lit "RoleA") i32 tEnd); [reflexivity|discriminate|reflexivity|exact I|].
      local_end.
    + local_end.
  - apply (lt_choose (map called parts) 2 (fun _ => True) _ (lit "RoleCtoAll")
             (Node [] (lit "RoleA") [tRoleEnd]) tRoleEnd
             [tSend bool_ tEnd; tEnd] [tEnd; tEnd]).
    + discriminate.
    + reflexivity.
    + constructor; [|constructor; [|constructor]].
      * exists (lit "MeshedChannels"), (fst (split_mesh xAl)), (snd (split_mesh xAl)), (lit "RoleA"),
          [tRoleEnd], (plainf names xAr). split; [vm_compute; reflexivity|]. split; [reflexivity|].
        exists (tRecv bool_ tEnd). split; [reflexivity|]. repeat constructor.
      * exists (lit "MeshedChannels"), (fst (split_mesh xBl)), (snd (split_mesh xBl)), (lit "RoleB"),
          [tRoleEnd], (plainf names xBr). split; [vm_compute; reflexivity|]. split; [reflexivity|].
        exists tEnd. split; [reflexivity|]. constructor.
    + constructor; [|constructor; [|constructor]].
      * exists (plainf names xAl), (lit "MeshedChannels"), (fst (split_mesh xAr)), (snd (split_mesh xAr)),
          (Node [] (lit "RoleA") [tRoleEnd]). split; [vm_compute; reflexivity|].
        exists tEnd. split; [reflexivity|]. constructor.
      * exists (plainf names xBl), (lit "MeshedChannels"), (fst (split_mesh xBr)), (snd (split_mesh xBr)),
          (Node [] (lit "RoleB") [tRoleEnd]). split; [vm_compute; reflexivity|].
        exists tEnd. split; [reflexivity|]. constructor.
    + apply (lt_send _ _ _ _ _ 0 (lit "RoleA") bool_ tEnd); [reflexivity|discriminate|reflexivity|].
      local_end.
    + local_end.
Qed.

(** The hypotheses hold for this protocol, given in another order, and this is
    the file written. *)
Example checker_example :
  names_fit names /\ Permutation [part xC (lit "RoleC"); part xA (lit "RoleA"); part xB (lit "RoleB")] parts /\
  StronglySorted before (map called parts) /\ Forall (given_as names) parts /\
  (forall me p, nth_error parts me = Some p ->
     local_type (map called parts) me (fun _ => True) (sessions_of p) (stack_of p)) /\
  match checker 20 true (map type_name [xC; xA; xB]) [] [] [] (fun k => if (k =? 2)%nat then Accepts else Rejects) with
  | Ok (_, lines, k) =>
      lines = [lit ".outputs"; lit ".state graph"; lit "RoleA0 2 ? bool RoleA1"; lit "RoleA1 1 ! i32 RoleA2";
               lit ".marking RoleA0"; lit ".end"; [];
               lit ".outputs"; lit ".state graph"; lit "RoleB0 0 ? i32 RoleB1"; lit ".marking RoleB0"; lit ".end"; [];
               lit ".outputs"; lit ".state graph"; lit "RoleC0 0 ! bool RoleC1"; lit ".marking RoleC0"; lit ".end"; []] /\
      k = Some (Some 2%nat)
  | _ => False
  end.
Proof.
  split; [apply fitb_ok; vm_compute; reflexivity|].
  split; [unfold parts; rewrite perm_swap; apply perm_skip, perm_swap|].
  split; [repeat constructor; discriminate|].
  split; [exact parts_given|]. split; [exact parts_local|].
  vm_compute. split; reflexivity.
Qed.

(** ** C33: the smallest bound *)

Lemma kmc_loop_runs : forall kmc fuel k acc, (1 <= k <= 50)%nat -> (50 - k <= fuel)%nat ->
  (acc = true -> kmc k = Accepts) -> (acc = false -> kmc k = Rejects) ->
  (forall j, (1 <= j < k)%nat -> kmc j = Rejects) ->
  match kmc_loop kmc fuel k acc with
  | None => exists j, (1 <= j <= 50)%nat /\ kmc j = Fails /\ forall i, (1 <= i < j)%nat -> kmc i = Rejects
  | Some n => (k <= n <= 50)%nat /\ (forall j, (1 <= j < n)%nat -> kmc j = Rejects) /\
              (kmc n = Accepts \/ n = 50%nat /\ kmc n = Rejects)
  end.
Proof.
  intros kmc fuel. induction fuel as [|fuel IH]; intros k acc K F A R J; cbn [kmc_loop].
  - split; [lia|]. split; [exact J|]. destruct acc; [left; now apply A|right; split; [lia|now apply R]].
  - destruct acc; cbn [negb andb]; [split; [lia|]; split; [exact J|]; left; now apply A|].
    destruct (k <? 50)%nat eqn:E.
    + apply Nat.ltb_lt in E.
      assert (forall j, (1 <= j < S k)%nat -> kmc j = Rejects) as J'.
      { intros j Hj. destruct (Nat.eq_dec j k) as [->|D]; [now apply R|apply J; lia]. }
      destruct (kmc (S k)) eqn:Ek.
      * specialize (IH (S k) true ltac:(lia) ltac:(lia) ltac:(auto) ltac:(discriminate) J').
        destruct (kmc_loop kmc fuel (S k) true); [|exact IH]. destruct IH as (? & ?). split; [lia|assumption].
      * specialize (IH (S k) false ltac:(lia) ltac:(lia) ltac:(discriminate) ltac:(auto) J').
        destruct (kmc_loop kmc fuel (S k) false); [|exact IH]. destruct IH as (? & ?). split; [lia|assumption].
      * exists (S k). split; [lia|]. now split.
    + apply Nat.ltb_ge in E. split; [lia|]. split; [exact J|]. right. split; [lia|now apply R].
Qed.

(** What is returned, for any behaviour of the tool: the smallest bound
    accepted if it is below 50 and the tool rejects all the smaller ones;
    nothing when the bounds below 50 are rejected and the tool answers for 50;
    an error when the tool fails before accepting. *)
Theorem kmc_smallest : forall kmc,
  match kmc_bound kmc with
  | Some (Some k) => (1 <= k < 50)%nat /\ kmc k = Accepts /\ forall j, (1 <= j < k)%nat -> kmc j = Rejects
  | Some None => (forall j, (1 <= j < 50)%nat -> kmc j = Rejects) /\ kmc 50%nat <> Fails
  | None => exists j, (1 <= j <= 50)%nat /\ kmc j = Fails /\ forall i, (1 <= i < j)%nat -> kmc i = Rejects
  end.
Proof.
  intros kmc. unfold kmc_bound. destruct (kmc 1%nat) eqn:E1.
  - change (kmc_loop kmc 50 1 true) with (Some 1%nat). cbn [Nat.eqb].
    split; [lia|]. split; [exact E1|]. lia.
  - pose proof (kmc_loop_runs kmc 50 1 false ltac:(lia) ltac:(lia) ltac:(discriminate) ltac:(auto) ltac:(lia)) as H.
    destruct (kmc_loop kmc 50 1 false) as [k|]; [|exact H].
    destruct H as (H1 & H2 & H3). destruct (k =? 50)%nat eqn:E.
    + apply Nat.eqb_eq in E. subst k. split; [exact H2|]. destruct H3 as [->|[_ ->]]; discriminate.
    + apply Nat.eqb_neq in E. split; [lia|]. split; [destruct H3 as [H3|[H3 _]]; [exact H3|lia]|exact H2].
  - exists 1%nat. split; [lia|]. split; [exact E1|]. lia.
Qed.
Print Assumptions kmc_smallest.

(** So the documented bound is found whenever it is below 50. *)
Theorem kmc_finds : forall kmc k, (1 <= k < 50)%nat -> kmc k = Accepts ->
  (forall j, (1 <= j < k)%nat -> kmc j = Rejects) -> kmc_bound kmc = Some (Some k).
Proof.
  intros kmc k K A R. pose proof (kmc_smallest kmc) as H. destruct (kmc_bound kmc) as [[n|]|].
  - destruct H as (H1 & H2 & H3). do 2 f_equal. destruct (Nat.lt_trichotomy n k) as [L|[L|L]]; [|exact L|].
    + rewrite R in H2 by lia. discriminate.
    + rewrite H3 in A by lia. discriminate.
  - destruct H as (H1 & _). rewrite H1 in A by lia. discriminate.
  - destruct H as (j & J1 & J2 & J3). exfalso. destruct (Nat.lt_trichotomy j k) as [L|[L|L]].
    + rewrite R in J2 by lia. discriminate.
    + congruence.
    + rewrite J3 in A by lia. discriminate.
Qed.
Print Assumptions kmc_finds.

Example kmc_example : kmc_bound (fun k => if (k <? 7)%nat then Rejects else Accepts) = Some (Some 7%nat).
Proof. reflexivity. Qed.

(** "None if k is bigger than 50 or does not exist" (mod.rs:29-30): false at
    50.  The tool accepts the bound 50 and no smaller one, and the checker
    says that there is none. *)
Theorem kmc_fifty_refuted : exists kmc,
  kmc 50%nat = Accepts /\ (forall j, (1 <= j < 50)%nat -> kmc j = Rejects) /\
  kmc_bound kmc = Some None.
Proof.
  exists (fun k => if (k <? 50)%nat then Rejects else Accepts). split; [reflexivity|].
  split; [|reflexivity]. intros j J. assert (j <? 50 = true)%nat as -> by (apply Nat.ltb_lt; lia). reflexivity.
Qed.
Print Assumptions kmc_fifty_refuted.
