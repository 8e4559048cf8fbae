(** C65: [generate!] reads its roles as they are written and writes for each role a choice macro with the index of that role,
    which is the role's own if the names of the macros differ; by it the role makes exactly the choices that fit. Model:
    GenMacros.v; specification: GenSpec.v. *)
From Coq Require Import Arith Bool String Lia.
From Verif Require Import Types Session Mesh MeshSpec Wiring WiringProofs Methods MethodsSpec MethodsProofs ForkTypes ForkSpec ForkProofs.
From Verif Require Import GenMacros GenSpec GenMacrosProofs GenCorpus Properties_Mesh Properties_ForkTypes.
From Coq Require Import List.
Import ListNotations.
Open Scope nat_scope.
Open Scope list_scope.

(** * Reading *)

(** All forms read exactly the roles that were written, in order; a choice reads one label for each that was written. *)
Theorem roles_as_written : forall roles labels, get_all_roles (flat_call roles) = roles /\
  parenthesised_groups (group_call roles) = Some (map TIdent roles) /\
  exists ls, parenthesised_groups (label_call labels) = Some ls /\ List.length ls = List.length labels.
Proof.
  intros roles labels. split; [apply read_flat|]. split; [apply read_groups|]. exists (map TGroup labels). split; [apply read_labels|apply map_length].
Qed.
Print Assumptions roles_as_written.
Example roles_as_written_example : get_all_roles [TIdent "A"; TOther; TIdent "B"; TOther] = ["A"; "B"]%string.
Proof. reflexivity. Qed.
(** The macros behind the forms can be called with other input: roles outside groups are dropped if there is a group with
    roles. *)
Theorem all_roles_read_refuted : exists ts, In (TIdent "A") ts /\ ~ In "A"%string (get_all_roles ts) /\ get_all_roles ts <> [].
Proof. exists [TIdent "A"; TOther; TGroup [TIdent "B"]]. split; [left; reflexivity|]. split; [intros [H|[]]; discriminate H|discriminate]. Qed.
Print Assumptions all_roles_read_refuted.

(** * The macro of a role *)

(** The macro named after a role is that of the role, with its position as index, exactly if no other role has the same macro
    name (in the timed forms: no later role). *)
Theorem macro_is_own : forall lower timed mesh roles p, 1 <= p <= List.length roles ->
  (resolve timed (macro_name lower (role_name roles p)) (choice_macros lower mesh roles) =
     Some (ChoiceMacro (macro_name lower (role_name roles p)) (role_name roles p) mesh p) <->
   forall q, 1 <= q <= List.length roles -> (if timed then p < q else p <> q) ->
     macro_name lower (role_name roles q) <> macro_name lower (role_name roles p)).
Proof. exact resolve_own. Qed.
Print Assumptions macro_is_own.
Example macro_is_own_example :
  resolve false "choose_mpst_roleb_to_all" (choice_macros lower_ascii M ["RoleA"; "RoleB"; "RoleC"]%string) =
    Some (ChoiceMacro "choose_mpst_roleb_to_all" "RoleB" M 2) /\
  resolve false "choose_mpst_a_to_all" (choice_macros lower_ascii M ["A"; "a"; "B"]%string) = None /\
  resolve true "choose_mpst_a_to_all" (choice_macros lower_ascii M ["A"; "a"; "B"]%string) = Some (ChoiceMacro "choose_mpst_a_to_all" "a" M 2).
Proof. repeat split. Qed.

(** Two protocols: also no role of the other protocol. *)
Theorem interleaved_macro_is_own : forall lower mesh1 mesh2 roles1 roles2,
  (forall p, 1 <= p <= List.length roles1 ->
     (resolve false (macro_name lower (role_name roles1 p)) (choice_macros_two lower mesh1 mesh2 roles1 roles2) =
        Some (ChoiceMacro (macro_name lower (role_name roles1 p)) (role_name roles1 p) mesh1 p) <->
      own_macro lower false roles1 p /\ forall q, 1 <= q <= List.length roles2 -> macro_name lower (role_name roles2 q) <> macro_name lower (role_name roles1 p))) /\
  (forall p, 1 <= p <= List.length roles2 ->
     (resolve false (macro_name lower (role_name roles2 p)) (choice_macros_two lower mesh1 mesh2 roles1 roles2) =
        Some (ChoiceMacro (macro_name lower (role_name roles2 p)) (role_name roles2 p) mesh2 p) <->
      own_macro lower false roles2 p /\ forall q, 1 <= q <= List.length roles1 -> macro_name lower (role_name roles1 q) <> macro_name lower (role_name roles2 p))).
Proof.
  intros lower mesh1 mesh2 roles1 roles2. split; [exact (resolve_first lower mesh1 mesh2 roles1 roles2)|exact (resolve_second lower mesh1 mesh2 roles1 roles2)].
Qed.
Print Assumptions interleaved_macro_is_own.
Example interleaved_macro_is_own_example : let defs := choice_macros_two lower_ascii "MA" "MB" ["Barber"; "Shop"]%string ["Client"; "shop"]%string in
  resolve false "choose_mpst_client_to_all" defs = Some (ChoiceMacro "choose_mpst_client_to_all" "Client" "MB" 1) /\
  resolve false "choose_mpst_shop_to_all" defs = None.
Proof. split; reflexivity. Qed.

(** * Choosing by macro *)

(** By its own macro a role makes exactly the choices with one label for each other role that fit the roles. *)
Theorem role_chooses_by_macro : forall lower timed mesh roles sends fields labels fs st nm p, let n := List.length roles in
  2 <= n -> 1 <= p <= n -> own_macro lower timed roles p -> List.length fs = n - 1 ->
  (chooses timed (choice_macros lower mesh roles) (macro_name lower (role_name roles p)) sends fields labels (mesh_t mesh fs st nm) <->
   List.length labels = n - 1 /\
   choice_fits sends mesh n p (role_name roles p) fields (fun i => nth (i - 1) labels (Label end_t end_t)) (mesh_t mesh fs st nm)).
Proof. exact own_choice. Qed.
Print Assumptions role_chooses_by_macro.
Definition bye_fields : list rty := [RApp CSend [pty_t (PChoice 5 1); end_t]; RApp CSend [pty_t (PChoice 5 3); end_t]].
Example role_chooses_by_macro_example :
  chooses false (choice_macros lower_ascii M abc) "choose_mpst_b_to_all" sends_end bye_fields
    [branch_labels M abc bye 5 2 1; branch_labels M abc bye 5 2 2] (content M abc bye 2) /\
  ~ chooses false (choice_macros lower_ascii M abc) "choose_mpst_b_to_all" sends_end bye_fields
    [branch_labels M abc bye 5 2 1] (content M abc bye 2).
Proof.
  assert (O : own_macro lower_ascii false abc 2).
  { intros q Hq Hne. change (List.length abc) with 3 in Hq. destruct q as [|[|[|[|q]]]]; try lia; vm_compute; discriminate. }
  change (content M abc bye 2) with (mesh_t M [end_t; end_t] role_end_t (name_t "B")).
  change "choose_mpst_b_to_all"%string with (macro_name lower_ascii (role_name abc 2)). split.
  - apply role_chooses_by_macro; [cbn; lia|cbn; lia|exact O|reflexivity|]. split; [reflexivity|]. split.
    + intros q Hq Hne. change (List.length abc) with 3 in Hq. destruct q as [|[|[|[|q]]]]; try lia; (eexists; split; [reflexivity|reflexivity]).
    + exists (fun _ _ => end_t), (fun _ => role_end_t), (fun p => name_t (role_name abc p)). split; [intros p q _ _ _; split; reflexivity|].
      split; [intros p _; split; reflexivity|]. split; [reflexivity|]. split; [|reflexivity].
      intros q Hq Hne. change (List.length abc) with 3 in Hq. destruct q as [|[|[|[|q]]]]; try lia; reflexivity.
  - intros H. apply role_chooses_by_macro in H as [H _]; [discriminate H|cbn; lia|cbn; lia|exact O|reflexivity].
Qed.

(** Whatever macro a role chooses with, if its result has the name of the role, then the macro is its own: a macro of another
    role is rejected, also if it hides the role's own. *)
Theorem macro_of_other_rejected : forall lower timed mesh roles x sends fields labels mesh' fs st p, NoDup roles -> 1 <= p <= List.length roles ->
  chooses timed (choice_macros lower mesh roles) x sends fields labels (mesh_t mesh' fs st (name_t (role_name roles p))) ->
  x = macro_name lower (role_name roles p) /\ own_macro lower timed roles p.
Proof.
  intros lower timed mesh roles x sends fields labels mesh' fs st p ND Hp H. apply macro_by_owner in H as [H ->]; try assumption. split; [reflexivity|].
  apply (resolve_own lower timed mesh roles p Hp). exact H.
Qed.
Print Assumptions macro_of_other_rejected.
(** So a role whose name differs from that of a later one only in the case of letters cannot choose by a macro at all. *)
Theorem every_role_can_choose_refuted : exists roles, NoDup roles /\ forall timed x sends fields labels mesh' fs st,
  ~ chooses timed (choice_macros lower_ascii M roles) x sends fields labels (mesh_t mesh' fs st (name_t (role_name roles 1))).
Proof.
  exists ["A"; "a"; "B"]%string. split; [repeat constructor; cbn; intuition discriminate|]. intros timed x sends fields labels mesh' fs st H.
  apply macro_of_other_rejected in H as [_ H]; [|repeat constructor; cbn; intuition discriminate|cbn; lia].
  apply (H 2); [cbn; lia|destruct timed; lia|reflexivity].
Qed.
Print Assumptions every_role_can_choose_refuted.

(** * Programs *)

(** A program whose roles choose by the macros named after them is accepted exactly if its types are dual, from the start and in
    every variant, and every chooser's macro is its own. *)
Theorem compiled_by_macros : forall lower timed sends mesh roles T branch labels chooser, let n := List.length roles in
  2 <= n -> NoDup roles -> (forall E, exists F, sends F E) -> (forall b l, l < labels b -> 1 <= chooser b l <= n) ->
  (compiled_by lower timed sends mesh roles T branch labels chooser <->
   dual_mesh n T /\ forall b l, l < labels b -> dual_mesh n (branch b l) /\ own_macro lower timed roles (chooser b l)).
Proof. exact compiled_by_exact. Qed.
Print Assumptions compiled_by_macros.
Lemma abc_own : forall timed p, 1 <= p <= 3 -> own_macro lower_ascii timed abc p.
Proof.
  intros timed p Hp q Hq Hne. change (List.length abc) with 3 in Hq.
  assert (p <> q) by (destruct timed; lia). destruct p as [|[|[|[|p]]]], q as [|[|[|[|q]]]]; try lia; vm_compute; discriminate.
Qed.
Example compiled_by_macros_example : forall timed, compiled_by lower_ascii timed sends_any M abc ask ask_branch (fun _ => 2) (fun _ _ => 2).
Proof.
  intros timed. apply compiled_by_macros.
  - cbn. lia.
  - repeat constructor; cbn; intuition discriminate.
  - intros E. exists (RApp CSend [E; end_t]), end_t. split; reflexivity.
  - intros b l _. cbn. lia.
  - pose proof compiled_example as H. apply compiled_iff_dual in H as [H1 H2]; [|cbn; lia]. split; [exact H1|]. intros b l Hl. split; [apply H2; exact Hl|].
    apply abc_own. lia.
Qed.

(** * The repository *)

(** The definitions written for a use, and whether they are timed: the forms basic and cancel write no macros. *)
Definition defs_of (g : generated) : bool * list choice_macro :=
  match g with
  | (Atmp, [(m, r)], _) => (true, choice_macros lower_ascii m r)
  | (AtmpInterleaved, [(m1, r1); (m2, r2)], _) => (true, choice_macros_two lower_ascii m1 m2 r1 r2)
  | (Interleaved, [(m1, r1); (m2, r2)], _) => (false, choice_macros_two lower_ascii m1 m2 r1 r2)
  | (Recursive, [(m, r)], _) | (RecAndCancel, [(m, r)], _) => (false, choice_macros lower_ascii m r)
  | _ => (false, [])
  end.
Definition use_ok (g : generated) (u : string * nat) : bool :=
  let '(timed, defs) := defs_of g in
  match resolve timed (fst u) defs with
  | Some m => existsb (fun mr => String.eqb (cm_mesh m) (fst mr) && (snd u =? List.length (snd mr) - 1) &&
                                 String.eqb (cm_sender m) (role_name (snd mr) (cm_index m))) (snd (fst g))
  | None => false
  end.
Definition generated_ok (g : generated) : bool :=
  if forallb (use_ok g) (snd g) then
    let names := map (fun x => macro_name lower_ascii x) (flat_map snd (snd (fst g))) in
    List.length (nodup String.string_dec names) =? List.length names
  else false.
Lemma nodup_len : forall l : list string, List.length (nodup String.string_dec l) = List.length l -> NoDup l.
Proof.
  induction l as [|a l IH]; intros H; [constructor|]. cbn in H.
  assert (L : forall m, List.length (nodup String.string_dec m) <= List.length m).
  { induction m as [|b m IHm]; [auto|]. cbn. destruct (in_dec String.string_dec b m); cbn; lia. }
  destruct (in_dec String.string_dec a l) as [I|I]; [specialize (L l); cbn in H; lia|]. constructor; [exact I|]. apply IH. cbn in H. lia.
Qed.
Lemma defs_roles : forall g m, In m (snd (defs_of g)) -> exists mesh roles, In (mesh, roles) (snd (fst g)) /\ In m (choice_macros lower_ascii mesh roles).
Proof.
  intros [[f ps] us] m H. unfold defs_of in H. cbn [fst snd].
  destruct f; destruct ps as [|[m1 r1] [|[m2 r2] [|]]]; cbn [snd] in H; try contradiction;
    try (exists m1, r1; split; [left; reflexivity|exact H]);
    (apply in_app_or in H as [H|H]; [exists m1, r1; split; [left; reflexivity|exact H]|exists m2, r2; split; [right; left; reflexivity|exact H]]).
Qed.
(** In all 343 uses the names of the macros of all roles differ, and each of the 1041 choices made by a macro is made by that
    of a role of the program, with one label for each other role of its protocol. *)
Theorem repository_macros : forall g, In g all_generated ->
  NoDup (map (macro_name lower_ascii) (flat_map snd (snd (fst g)))) /\
  forall x k, In (x, k) (snd g) -> exists mesh roles p, In (mesh, roles) (snd (fst g)) /\ 1 <= p <= List.length roles /\
    x = macro_name lower_ascii (role_name roles p) /\ k = List.length roles - 1 /\
    resolve (fst (defs_of g)) x (snd (defs_of g)) = Some (ChoiceMacro x (role_name roles p) mesh p).
Proof.
  assert (A : forallb generated_ok all_generated = true) by (vm_compute; reflexivity).
  assert (U : forallb (fun g => List.length (nodup String.string_dec (map fst (snd (fst g)))) =? List.length (map fst (snd (fst g)))) all_generated = true) by (vm_compute; reflexivity).
  intros g Hg. rewrite forallb_forall in A, U. specialize (A g Hg). specialize (U g Hg). apply Nat.eqb_eq, nodup_len in U. unfold generated_ok in A.
  destruct (forallb (use_ok g) (snd g)) eqn:Hu; [|discriminate A]. apply Nat.eqb_eq, nodup_len in A. split; [exact A|].
  intros x k Hx. rewrite forallb_forall in Hu. specialize (Hu (x, k) Hx). unfold use_ok in Hu.
  pose proof (defs_roles g) as DR. destruct (defs_of g) as [timed defs]. cbn [fst snd] in Hu, DR |- *.
  destruct (resolve timed x defs) as [m|] eqn:E; [|discriminate Hu]. destruct (resolve_in _ _ _ _ E) as [I N].
  destruct (DR m I) as (mesh & roles & I1 & I2). apply macros_in in I2 as (p & Hp & ->). exists mesh, roles, p.
  split; [exact I1|]. split; [exact Hp|]. split; [symmetry; exact N|]. split.
  - apply existsb_exists in Hu as ([mesh' roles'] & I3 & Hu). apply andb_true_iff in Hu as [Hu _]. apply andb_true_iff in Hu as [H1 H2].
    apply String.eqb_eq in H1. apply Nat.eqb_eq in H2. cbn in H1, H2. subst mesh'.
    assert (roles' = roles) as ->; [|exact H2].
    clear -I1 I3 U. induction (snd (fst g)) as [|[a b] l IH]; [destruct I1|]. cbn in U. inversion U as [|? ? U1 U2]; subst.
    destruct I1 as [E1|I1], I3 as [E3|I3].
    + congruence.
    + injection E1 as -> ->. exfalso. apply U1. apply in_map_iff. exists (mesh, roles'). auto.
    + injection E3 as -> ->. exfalso. apply U1. apply in_map_iff. exists (mesh, roles). auto.
    + apply IH; assumption.
  - cbn [cm_name mac] in N. rewrite <- N. reflexivity.
Qed.
Print Assumptions repository_macros.
Example repository_macros_example : In generated_001 all_generated /\ snd generated_001 = [("choose_mpst_controller_to_all"%string, 3)].
Proof. split; [right; left; reflexivity|reflexivity]. Qed.
