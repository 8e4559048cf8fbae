(** C67: the printed form of a type ([head_str], [tail_str]) determines everything but payloads, clocks and windows, provided
    the names of the structs differ, and no more; the library's and the macros' forms agree. Model: PrintedTypes.v; specification
    at the beginning of PrintedProofs.v. *)
From Coq Require Import Arith ZArith Bool String Ascii Lia.
From Verif Require Import Types TypesProofs GenCorpus Methods MethodsSpec.
From Coq Require Import List.
From Verif Require Import PrintedTypes PrintedProofs.
Import ListNotations.
Open Scope nat_scope.
Open Scope list_scope.

(** The names used in the examples: RoleA, RoleB, ... *)
Definition letters (x : nat) : string := nth x [""; "A"; "B"; "C"; "D"; "E"; "F"]%string ""%string.
(** A check of [good_names]. *)
Definition kinds : list kind := [KRole; KDual; KToAll; KAllTo].
Definition kind_eqb (k k' : kind) : bool :=
  match k, k' with KRole, KRole | KDual, KDual | KToAll, KToAll | KAllTo, KAllTo => true | _, _ => false end.
Definition good_b (nm : nat -> string) (roles : list nat) : bool :=
  let structs := map (fun kx => (kx, struct_name nm (fst kx) (snd kx))) (list_prod kinds roles) in
  let names := map (fun x => (x, nm x)) roles in
  if forallb (fun a => plain (snd a)) names then
    if forallb (fun a => forallb (fun b => if String.eqb (snd a) (snd b) then kind_eqb (fst (fst a)) (fst (fst b)) && (snd (fst a) =? snd (fst b)) else true) structs) structs then
      forallb (fun a => forallb (fun b => if String.eqb (snd a) (snd b) then fst a =? fst b else true) names) names
    else false
  else false.
Lemma good_b_sound : forall nm roles, good_b nm roles = true -> good_names nm roles.
Proof.
  intros nm roles H. unfold good_b in H. cbv zeta in H.
  destruct (forallb (fun a => plain (snd a)) _) eqn:H1; [|discriminate H].
  destruct (forallb _ (map _ (list_prod kinds roles))) eqn:H2; [|discriminate H].
  rewrite forallb_forall in H, H1, H2. split; [|split].
  - intros x Hx. specialize (H1 (x, nm x)). apply H1, in_map_iff. exists x. split; [reflexivity|exact Hx].
  - intros k k' x x' Hx Hx' E.
    assert (K : forall k, In k kinds) by (intros []; cbn; auto).
    specialize (H2 ((k, x), struct_name nm k x)). rewrite forallb_forall in H2.
    specialize (H2 ltac:(apply in_map_iff; exists (k, x); split; [reflexivity|apply in_prod; [apply K|exact Hx]]) ((k', x'), struct_name nm k' x')).
    specialize (H2 ltac:(apply in_map_iff; exists (k', x'); split; [reflexivity|apply in_prod; [apply K|exact Hx']])).
    cbn [fst snd] in H2. rewrite E, String.eqb_refl in H2. apply andb_true_iff in H2 as [A B]. apply Nat.eqb_eq in B. split; [|exact B].
    destruct k, k'; try discriminate A; reflexivity.
  - intros x x' Hx Hx' E. specialize (H (x, nm x)). rewrite forallb_forall in H.
    specialize (H ltac:(apply in_map_iff; exists x; split; [reflexivity|exact Hx]) (x', nm x')).
    specialize (H ltac:(apply in_map_iff; exists x'; split; [reflexivity|exact Hx'])).
    cbn [fst snd] in H. rewrite E, String.eqb_refl in H. apply Nat.eqb_eq in H. exact H.
Qed.

(** * Stacks *)

(** Two stacks have the same printed form exactly if they are equal. *)
Theorem stack_printed_exact : forall nm r r', good_names nm (stack_roles r ++ stack_roles r') ->
  (rhead nm r = rhead nm r' /\ rtail nm r = rtail nm r' <-> r = r').
Proof.
  intros nm r r' G. split; [|intros ->; split; reflexivity]. intros [H1 H2].
  apply (rfull_exact nm _ G r r' "" ""); [intros y Hy; apply in_or_app; left; exact Hy|intros y Hy; apply in_or_app; right; exact Hy|].
  unfold rfull. rewrite H1, H2. reflexivity.
Qed.
Print Assumptions stack_printed_exact.
Example stack_printed_exact_example :
  let r := SRole 2 (SToAll 1 (SRole 3 SEnd) SBroadcast) in
  good_names letters (stack_roles r ++ stack_roles (sdual r)) /\
  rhead letters r = "RoleB"%string /\ rtail letters r = "RoleAtoAll<RoleC<RoleEnd<>> + RoleBroadcast<>>"%string /\
  rtail letters (sdual r) = "RoleAlltoA<RoleCDual<RoleEnd<>> + RoleBroadcast<>>"%string.
Proof. split; [apply good_b_sound; vm_compute; reflexivity|repeat split]. Qed.
(** The condition is needed: with the roles A and ADual the types RoleADual<R> of two roles have one name (Rust rejects the two
    definitions). *)
Theorem stack_printed_refuted : exists nm r r', (forall x, In x (stack_roles r ++ stack_roles r') -> plain (nm x) = true) /\
  (forall x x', In x (stack_roles r ++ stack_roles r') -> In x' (stack_roles r ++ stack_roles r') -> nm x = nm x' -> x = x') /\
  r <> r' /\ rhead nm r = rhead nm r' /\ rtail nm r = rtail nm r'.
Proof.
  exists (fun x => nth x [""; "A"; "ADual"] "")%string, (SRoleDual 1 SEnd), (SRole 2 SEnd). split.
  - intros x [<-|[<-|[]]]; reflexivity.
  - split; [|split; [discriminate|split; reflexivity]]. intros x x' [<-|[<-|[]]] [<-|[<-|[]]] E; try reflexivity; discriminate E.
Qed.
Print Assumptions stack_printed_refuted.

(** * Sessions and MeshedChannels *)

(** Two types, also with MeshedChannels inside, have the same printed form exactly if they are equal but for payloads, clocks
    and windows. *)
Theorem printed_exact : forall nm (P Q : Type) (t : ty P) (u : ty Q), good_names nm (ty_roles t ++ ty_roles u) ->
  (head nm t = head nm u /\ tail nm t = tail nm u <-> shape t = shape u).
Proof.
  intros nm P Q t u G. split.
  - intros [H1 H2]. apply (full_exact nm _ G t u "" ""); [intros y Hy; apply in_or_app; left; exact Hy|intros y Hy; apply in_or_app; right; exact Hy|].
    unfold full. rewrite H1, H2. reflexivity.
  - intros H. rewrite <- (head_shape nm t), <- (tail_shape nm t), H, head_shape, tail_shape. split; reflexivity.
Qed.
Print Assumptions printed_exact.
Definition endpoint {P} (p : P) : ty P := TMesh [TSend p TEnd; TRecv p TEnd] (SRole 2 (SRole 3 SEnd)) 1.
Example printed_exact_example :
  good_names letters (ty_roles (endpoint 0) ++ ty_roles (TMesh [endpoint true; TEnd] SEnd 2)) /\
  head letters (TMesh [endpoint true; TEnd] SEnd 2) <> head letters (endpoint 0).
Proof. split; [apply good_b_sound; vm_compute; reflexivity|vm_compute; discriminate]. Qed.
(** One of the two texts is not enough. *)
Theorem tail_alone_refuted : exists (t u : ty nat), good_names letters (ty_roles t ++ ty_roles u) /\ tail letters t = tail letters u /\ shape t <> shape u.
Proof. exists (TSend 0 TEnd), (TRecv 0 TEnd). split; [apply good_b_sound; reflexivity|]. split; [reflexivity|discriminate]. Qed.
Print Assumptions tail_alone_refuted.
(** Types that no thread can exchange have the same printed form: other payloads, other windows, timed and untimed. *)
Theorem types_told_apart_refuted : exists (t1 t2 t3 t4 : ty nat),
  NoDup [t1; t2; t3; t4] /\ dual t1 <> dual t2 /\
  Forall (fun t => head letters t = "Send"%string /\ tail letters t = "End<>"%string) [t1; t2; t3; t4].
Proof.
  exists (TSend 0 TEnd), (TSend 1 TEnd), (TSendT 0 (Window 97 0 true 5 true 32) TEnd), (TSendT 0 (Window 97 5 true 6 true 97) TEnd).
  split; [|split; [discriminate|repeat (apply Forall_cons; [split; reflexivity|]); apply Forall_nil]].
  repeat constructor; cbn; intuition discriminate.
Qed.
Print Assumptions types_told_apart_refuted.

(** * Duals *)

(** The printed form of the dual is determined by that of the type: two types printed alike have duals printed alike, and
    conversely. *)
Lemma dual_roles : forall {P} (t : ty P) x, In x (ty_roles (dual t)) <-> In x (ty_roles t).
Proof.
  assert (S : forall r x, In x (stack_roles (sdual r)) <-> In x (stack_roles r)).
  { induction r as [| |a r IH|a r IH|a r1 IH1 r2 IH2|a r1 IH1 r2 IH2]; intros x; cbn [sdual stack_roles]; try reflexivity;
      cbn [List.In]; rewrite ?in_app_iff, ?IH, ?IH1, ?IH2; reflexivity. }
  intros P t. induction t as [|p t IH|p t IH|p w t IH|p w t IH|ss r n IH] using ty_ind'; intros x; cbn [dual ty_roles]; try reflexivity; try apply IH.
  rewrite !in_app_iff, S. rewrite !in_flat_map. rewrite Forall_forall in IH. apply or_iff_compat_r. split.
  - intros (s & H1 & H2). apply in_map_iff in H1 as (s' & <- & H1). exists s'. split; [exact H1|apply (IH s' H1), H2].
  - intros (s & H1 & H2). exists (dual s). split; [apply in_map; exact H1|apply (IH s H1), H2].
Qed.
Lemma good_incl : forall nm l m, (forall x, In x l -> In x m) -> good_names nm m -> good_names nm l.
Proof. intros nm l m I (G1 & G2 & G3). split; [|split]; intros; [apply G1|apply G2|apply G3]; try apply I; assumption. Qed.
Theorem dual_printed : forall nm (P Q : Type) (t : ty P) (u : ty Q), good_names nm (ty_roles t ++ ty_roles u) ->
  (head nm t = head nm u /\ tail nm t = tail nm u <-> head nm (dual t) = head nm (dual u) /\ tail nm (dual t) = tail nm (dual u)).
Proof.
  intros nm P Q t u G. rewrite printed_exact by exact G. rewrite printed_exact.
  - rewrite !shape_dual. split; [intros ->; reflexivity|]. intros H. rewrite <- (dual_involutive _ (shape t)), <- (dual_involutive _ (shape u)), H. reflexivity.
  - apply (good_incl _ _ _ (fun x H => proj2 (in_app_iff _ _ x) (proj1 (or_iff_compat_l _ (dual_roles u x)) (proj1 (or_iff_compat_r _ (dual_roles t x)) (proj1 (in_app_iff _ _ x) H)))) G).
Qed.
Print Assumptions dual_printed.
Example dual_printed_example : head letters (dual (endpoint 0)) = ("Recv" ++ nl ++ "Send" ++ nl ++ "RoleBDual" ++ nl ++ "NameA")%string.
Proof. reflexivity. Qed.
(** A type is printed like its dual exactly if nothing is left to do: all its sessions end, all its stacks are RoleEnd or
    RoleBroadcast. *)
Fixpoint inert {P} (t : ty P) : bool :=
  match t with
  | TEnd => true
  | TMesh ss r _ => forallb inert ss && match r with SEnd | SBroadcast => true | _ => false end
  | _ => false
  end.
Theorem printed_like_dual : forall nm (P : Type) (t : ty P), good_names nm (ty_roles t) ->
  (head nm t = head nm (dual t) /\ tail nm t = tail nm (dual t) <-> inert t = true).
Proof.
  intros nm P t G. rewrite printed_exact.
  2: { apply (good_incl _ _ (ty_roles t)); [|exact G]. intros x Hx. apply in_app_or in Hx as [Hx|Hx]; [exact Hx|apply dual_roles; exact Hx]. }
  clear G. induction t as [|p t IH|p t IH|p w t IH|p w t IH|ss r n IH] using ty_ind'; cbn [shape dual inert];
    try (split; [reflexivity|reflexivity]); try (split; discriminate).
  rewrite map_map, andb_true_iff, forallb_forall. rewrite Forall_forall in IH. split.
  - intros H. injection H as H1 H2. split.
    + intros s Hs. apply (IH s Hs). clear IH. induction ss as [|a ss IHs]; [destruct Hs|]. cbn [map] in H1. injection H1 as H1 H3.
      destruct Hs as [<-|Hs]; [exact H1|apply IHs; assumption].
    + destruct r; cbn in H2; try reflexivity; discriminate H2.
  - intros [H1 H2]. f_equal; [|destruct r; try reflexivity; discriminate H2]. apply map_ext_in. intros s Hs. apply (IH s Hs), (H1 s Hs).
Qed.
Print Assumptions printed_like_dual.
Example printed_like_dual_example : inert (TMesh [TEnd; @TEnd nat] SEnd 1) = true /\ inert (endpoint 0) = false.
Proof. split; reflexivity. Qed.

(** * Three roles and more *)

(** The MeshedChannels of the library and that of the macros for three roles print alike. *)
Theorem three_roles_printed : forall nm (P : Type) (s1 s2 : ty P) r n,
  head nm (TMesh [s1; s2] r n) = head3 nm s1 s2 r n /\ tail nm (TMesh [s1; s2] r n) = tail3 nm s1 s2 r n.
Proof.
  intros nm P s1 s2 r n. split.
  - cbn [head map]. rewrite lines_cons by apply head_nonempty. unfold head3. cbn [more fold_right]. rewrite !app_assoc_s. reflexivity.
  - cbn [tail map]. rewrite lines_cons by apply (full_nonempty nm s1). unfold tail3. cbn [more fold_right]. rewrite !app_assoc_s. reflexivity.
Qed.
Print Assumptions three_roles_printed.
(** The head of MeshedChannels has one line for each session, the stack and the name, if no session is a MeshedChannels. *)
Theorem head_lines : forall nm (P : Type) (ss : list (ty P)) r n, good_names nm (ty_roles (TMesh ss r n)) ->
  (forall s, In s ss -> match s with TMesh _ _ _ => False | _ => True end) -> ss <> [] ->
  nls (head nm (TMesh ss r n)) = List.length ss + 1.
Proof.
  intros nm P ss r n G F N. cbn [head]. rewrite !nls_app, nls_nl.
  assert (HR : nls (rhead nm r) = 0).
  { apply nls_none, plain_has, rhead_plain. intros x Hx. apply (proj1 G). cbn [ty_roles]. apply in_or_app. right. apply in_or_app. left. exact Hx. }
  assert (HN : nls (nhead nm n) = 0).
  { unfold nhead. rewrite nls_app. rewrite (nls_none (nm n)); [reflexivity|]. apply plain_has, (proj1 G). cbn [ty_roles]. rewrite !in_app_iff. right. right. left. reflexivity. }
  rewrite HR, HN.
  assert (H0 : forall s, In s ss -> nls (head nm s) = 0).
  { intros s Hs. pose proof (head_nls nm s) as Hn. specialize (F s Hs). destruct s; try exact Hn. contradiction F. }
  destruct ss as [|s ss]; [contradiction N; reflexivity|]. cbn [map]. rewrite lines_cons by apply head_nonempty. rewrite nls_app, (H0 s) by (left; reflexivity).
  assert (M : nls (more (map (head nm) ss)) = List.length ss).
  { assert (H1 : forall s, In s ss -> nls (head nm s) = 0) by (intros s' Hs; apply H0; right; exact Hs). clear -H1.
    induction ss as [|a ss IH]; [reflexivity|]. cbn [map more fold_right]. rewrite !nls_app, nls_nl, (H1 a) by (left; reflexivity).
    unfold more in IH. rewrite IH; [reflexivity|]. intros s Hs. apply H1. right. exact Hs. }
  rewrite M. cbn [List.length]. lia.
Qed.
Print Assumptions head_lines.
Example head_lines_example : good_names letters (ty_roles (endpoint 0)) /\ nls (head letters (endpoint 0)) = 3.
Proof. split; [apply good_b_sound; reflexivity|reflexivity]. Qed.

(** * The repository *)

(** The texts expected by the tests (tests/macros_multiple_mod/unit_meshedchannels.rs:66-101, unit_roles.rs:211-274,
    tests/binary_atmp_mod/main.rs:19-51). *)
Theorem printed_tests :
  head letters (endpoint 0) = ("Send" ++ nl ++ "Recv" ++ nl ++ "RoleB" ++ nl ++ "NameA")%string /\
  tail letters (endpoint 0) = ("Send<End<>>" ++ nl ++ "Recv<End<>>" ++ nl ++ "RoleB<RoleC<RoleEnd<>>>" ++ nl ++ "NameA<>")%string /\
  head letters (TSend 0 TEnd) = "Send"%string /\ tail letters (TSend 0 TEnd) = "End<>"%string /\
  head letters (TRecv 0 TEnd) = "Recv"%string /\ tail letters (TRecv 0 TEnd) = "End<>"%string /\
  head letters (@TEnd nat) = "End"%string /\ tail letters (@TEnd nat) = ""%string /\
  (forall w, head letters (TSendT 0 w TEnd) = "Send"%string /\ tail letters (TRecvT 0 w TEnd) = "End<>"%string) /\
  map (rhead letters) [SEnd; SRole 4 SEnd; SRoleDual 5 SEnd; SToAll 6 SEnd SEnd; SAllTo 4 SEnd SEnd] =
    ["RoleEnd"; "RoleD"; "RoleEDual"; "RoleFtoAll"; "RoleAlltoD"]%string /\
  map (rtail letters) [SEnd; SRole 4 SEnd; SRoleDual 5 SEnd; SToAll 6 SEnd SEnd; SAllTo 4 SEnd SEnd] =
    [""; "RoleEnd<>"; "RoleEnd<>"; "RoleEnd<> + RoleEnd<>"; "RoleEnd<> + RoleEnd<>"]%string.
Proof. repeat split. Qed.
Print Assumptions printed_tests.

(** In all 343 uses of [generate!] the structs of the roles of a protocol have different names, so the printed form tells their
    types apart but for payloads, clocks and windows. *)
Theorem repository_printed : forall g mesh rs, In g all_generated -> In (mesh, rs) (snd (fst g)) ->
  good_names (role_name rs) (seq 1 (List.length rs)).
Proof.
  assert (A : forallb (fun g => forallb (fun mr : string * list string => good_b (role_name (snd mr)) (seq 1 (List.length (snd mr)))) (snd (fst g))) all_generated = true)
    by (vm_compute; reflexivity).
  intros g mesh rs H1 H2. rewrite forallb_forall in A. specialize (A g H1). rewrite forallb_forall in A. specialize (A (mesh, rs) H2).
  apply good_b_sound. exact A.
Qed.
Print Assumptions repository_printed.
Example repository_printed_example : In generated_001 all_generated /\
  rhead (role_name ["Api"; "Controller"; "Storage"; "User"]%string) (SAllTo 2 SEnd SEnd) = "RoleAlltoController"%string.
Proof. split; [right; left; reflexivity|reflexivity]. Qed.
