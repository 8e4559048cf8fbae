(** C64: what the compiler asks of the types at a fork and at a choice by enum: exactly that the sessions of every two roles
    are dual, in the order of the roles given by the index. Model: ForkTypes.v; specification: ForkSpec.v. *)
From Coq Require Import Arith Bool String Lia.
From Verif Require Import Types Session Mesh MeshSpec Diag DiagProofs Wiring WiringProofs Methods MethodsSpec MethodsProofs ForkTypes ForkSpec ForkProofs ForkCorpus.
From Verif Require Import Properties_Mesh.
From Coq Require Import List.
Import ListNotations.
Open Scope nat_scope.
Open Scope list_scope.

Definition M : string := "MeshedChannels".
Definition bits : rty := RApp (CUser 0) [].
Definition abc : list string := ["A"; "B"; "C"]%string.

(** * Fork *)

(** The generated fork function exists and compiles for every number of roles. *)
Theorem fork_function_compiles : forall mesh n, 1 <= n -> exists f, fork_fn mesh n = Some f /\ fork_ok f.
Proof. intros mesh n Hn. eexists. split; [apply fork_fn_eq; exact Hn|]. apply (fork_fn_ok mesh n). apply fork_fn_eq. exact Hn. Qed.
Print Assumptions fork_function_compiles.

(** It is accepted for functions that take the MeshedChannels of the roles for pairwise dual sessions, and for no others. *)
Theorem fork_accepts_exactly : forall mesh n f Ts, fork_fn mesh n = Some f ->
  (fork_accepts f Ts <-> exists G st nm, dual_family n G /\ (forall p, 1 <= p <= n -> is_role (st p) = true /\ is_name (nm p) = true) /\
     Ts = map (as_role mesh n G st nm) (seq 1 n)).
Proof. exact fork_exact. Qed.
Print Assumptions fork_accepts_exactly.

(** The [fork_mpst] of the library is the generated one for three roles. *)
Theorem library_fork_is_generated : forall mesh, fork_fn mesh 3 = Some (fork_fn_3 mesh).
Proof. exact fork_3. Qed.
Print Assumptions library_fork_is_generated.

(** For the types of the machine: the premise [dual_mesh] of the theorems about sessions is what [fork_mpst] asks. *)
Theorem fork_asks_dual : forall mesh roles T f, let n := List.length roles in fork_fn mesh n = Some f ->
  (fork_accepts f (map (content mesh roles T) (seq 1 n)) <-> dual_mesh n T).
Proof. exact fork_accepts_dual. Qed.
Print Assumptions fork_asks_dual.
Example fork_asks_dual_example : exists f, fork_fn M 3 = Some f /\ fork_accepts f (map (content M abc ask) (seq 1 3)) /\
  ~ fork_accepts f (map (content M abc (fun p => if p =? 1 then ([End; End], SEnd) else ask p)) (seq 1 3)).
Proof.
  eexists. split; [reflexivity|]. split.
  - apply (fork_asks_dual M abc ask); [reflexivity|]. split.
    + intros p Hp. change (List.length abc) with 3 in Hp. destruct p as [|[|[|[|p]]]]; try lia; reflexivity.
    + intros p q Hp Hq Hne. change (List.length abc) with 3 in Hp, Hq. destruct p as [|[|[|[|p]]]], q as [|[|[|[|q]]]]; try lia; reflexivity.
  - intros H. apply (fork_asks_dual M abc) in H; [|reflexivity]. destruct H as [_ H].
    specialize (H 1 3 ltac:(cbn; lia) ltac:(cbn; lia) ltac:(lia)). discriminate H.
Qed.

(** * Choice *)

(** The index must be the number of a role (with one role there is nothing to index). *)
Theorem choice_compiles : forall mesh n e sender, 1 <= n -> ((exists c, choose_code mesh n e sender = Some c) <-> n = 1 \/ 1 <= e <= n).
Proof. exact choose_code_some. Qed.
Print Assumptions choice_compiles.
Example choice_compiles_example : (exists c, choose_code M 3 2 "B" = Some c) /\ choose_code M 3 4 "B" = None /\ choose_code M 3 0 "B" = None.
Proof. split; [apply choice_compiles; lia|]. split; reflexivity. Qed.

(** It is accepted exactly if it fits the roles with role e as the chooser. *)
Theorem choice_accepts_exactly : forall sends mesh n e sender c fields labels R, 1 <= e <= n -> choose_code mesh n e sender = Some c ->
  (choice_accepts sends c fields labels R <-> choice_fits sends mesh n e sender fields labels R).
Proof. exact choice_exact. Qed.
Print Assumptions choice_accepts_exactly.
Theorem cancel_choice_accepts_exactly : forall sends mesh n e sender c fields labels R, 2 <= e <= n -> choose_cancel_code mesh n e sender = Some c ->
  (cancel_accepts sends c fields labels R <-> nth_error fields 0 = Some end_t /\ cancel_fits (with_end sends) mesh n e sender fields labels R).
Proof.
  intros sends mesh n e sender c fields labels R He E. unfold cancel_accepts. rewrite (cancel_choice_exact (with_end sends) mesh n e sender c _ _ _ He E). reflexivity.
Qed.
Print Assumptions cancel_choice_accepts_exactly.

(** For the types of the machine: the contents of the variants must be pairwise dual. *)
Theorem choice_asks_dual : forall sends mesh roles B b e c fields, let n := List.length roles in 1 <= e <= n ->
  choose_code mesh n e (role_name roles e) = Some c ->
  (choice_accepts sends c fields (branch_labels mesh roles B b e) (content mesh roles B e) <->
   dual_mesh n B /\ forall q, 1 <= q <= n -> q <> e -> exists F, nth_error fields (comm_field e q - 1) = Some F /\ sends F (pty_t (PChoice b q))).
Proof. exact choice_accepts_dual. Qed.
Print Assumptions choice_asks_dual.

Lemma bye_dual : dual_mesh 3 bye.
Proof. split; [intros p Hp; reflexivity|]. intros p q Hp Hq Hne. unfold sess. destruct (field_pos p q) as [|[|k]], (field_pos q p) as [|[|j]]; try destruct k; try destruct j; reflexivity. Qed.
Example choice_asks_dual_example : exists c, choose_code M 3 2 "B" = Some c /\
  let fields := [RApp CSend [pty_t (PChoice 5 1); end_t]; RApp CSend [pty_t (PChoice 5 3); end_t]] in
  choice_accepts sends_end c fields (branch_labels M abc bye 5 2) (content M abc bye 2) /\
  ~ choice_accepts sends_end c fields (branch_labels M abc (fun p => if p =? 1 then ([Rcv (PVal 0) End; End], SRole 2 SEnd) else bye p) 5 2) (content M abc bye 2).
Proof.
  eexists. split; [reflexivity|]. cbv zeta. split.
  - apply (choice_asks_dual sends_end M abc bye 5 2); [cbn; lia|reflexivity|]. split; [exact bye_dual|].
    intros q Hq Hne. change (List.length abc) with 3 in Hq. destruct q as [|[|[|[|q]]]]; try lia; (eexists; split; [reflexivity|reflexivity]).
  - intros H. apply (choice_asks_dual sends_end M abc (fun p => if p =? 1 then ([Rcv (PVal 0) End; End], SRole 2 SEnd) else bye p) 5 2) in H; [|cbn; lia|reflexivity].
    destruct H as [[_ H] _]. specialize (H 1 2 ltac:(cbn; lia) ltac:(cbn; lia) ltac:(lia)). discriminate H.
Qed.
Example cancel_choice_example : exists c, choose_cancel_code M 3 2 "B" = Some c /\
  let fields := [end_t; RApp CSend [RApp CTuple [end_t; pty_t (PChoice 5 3)]; end_t]] in
  cancel_accepts sends_any c fields (branch_labels M abc bye 5 2) (content M abc bye 2).
Proof.
  eexists. split; [reflexivity|]. cbv zeta. apply (cancel_choice_accepts_exactly sends_any M 3 2 "B"); [lia|reflexivity|]. split; [reflexivity|]. split.
  - intros q Hq Hne. assert (q = 3) as -> by lia. eexists. split; [reflexivity|]. exists end_t. split; reflexivity.
  - exists (fun _ _ => end_t), (fun _ => role_end_t), (fun p => name_t (role_name abc p)). split; [intros p q _ _ _; split; reflexivity|].
    split; [reflexivity|]. split; [intros p _; split; reflexivity|]. split; [reflexivity|]. split; [|reflexivity].
    intros q Hq Hne. assert (q = 3) as -> by lia. reflexivity.
Qed.

(** A program is accepted at its fork and at its choices exactly if all its tables of types are dual; so its executions have
    the properties of C14. *)
Theorem compiled_iff_dual : forall mesh roles T branch labels, let n := List.length roles in 1 <= n ->
  (compiled mesh roles T branch labels <-> dual_mesh n T /\ forall b l, l < labels b -> dual_mesh n (branch b l)).
Proof. exact compiled_dual. Qed.
Print Assumptions compiled_iff_dual.
Theorem compiled_is_safe : forall mesh roles T branch labels strict tr st, let n := List.length roles in 1 <= n ->
  compiled mesh roles T branch labels -> steps heap_ops n branch labels strict (start n T) tr st ->
  exists hist, faithful n branch labels T hist (fun p => t_log (st_thr st p)) /\
    forall p hs, 1 <= p <= n -> t_prog (st_thr st p) <> PStuck hs.
Proof.
  intros mesh roles T branch labels strict tr st n Hn HC H. apply (compiled_iff_dual mesh roles T branch labels Hn) in HC as [HT HB].
  destruct (multiparty_safe n branch labels strict T tr st HB HT H) as (hist & F & _ & S & _). exists hist. split; [exact F|exact S].
Qed.
Print Assumptions compiled_is_safe.
Example compiled_example : compiled M abc ask ask_branch (fun _ => 2).
Proof.
  apply compiled_iff_dual; [cbn; lia|]. split; [|intros b l Hl].
  - split.
    + intros p Hp. change (List.length abc) with 3 in Hp. destruct p as [|[|[|[|p]]]]; try lia; reflexivity.
    + intros p q Hp Hq Hne. change (List.length abc) with 3 in Hp, Hq. destruct p as [|[|[|[|p]]]], q as [|[|[|[|q]]]]; try lia; reflexivity.
  - destruct l as [|l]; [|exact bye_dual]. split.
    + intros p Hp. change (List.length abc) with 3 in Hp. destruct p as [|[|[|[|p]]]]; try lia; reflexivity.
    + intros p q Hp Hq Hne. change (List.length abc) with 3 in Hp, Hq. destruct p as [|[|[|[|p]]]], q as [|[|[|[|q]]]]; try lia; reflexivity.
Qed.

(** * What is not asked *)

(** "The index is that of the chooser": with three roles, A may choose with index 2. The call is accepted for contents that are
    not dual: B sends to C, but C has nothing to receive from B; what B sends is what C receives from A. *)
Theorem wrong_index_refuted : exists c fields labels R, choose_code M 3 2 "A" = Some c /\
  choice_accepts sends_end c fields labels R /\
  R = mesh_t M [end_t; end_t] role_end_t (name_t "A") /\
  l_content (labels 1) = mesh_t M [end_t; RApp CSend [bits; end_t]] (RApp (CRole "C") [role_end_t]) (name_t "B") /\
  l_content (labels 2) = mesh_t M [RApp CRecv [bits; end_t]; end_t] (RApp (CRole "A") [role_end_t]) (name_t "C") /\
  ~ choice_fits sends_end M 3 1 "A" fields labels R.
Proof.
  eexists. exists [RApp CSend [pty_t (PChoice 0 2); end_t]; RApp CSend [pty_t (PChoice 0 3); end_t]].
  exists (fun i => if i =? 1 then Label (mesh_t M [end_t; RApp CSend [bits; end_t]] (RApp (CRole "C") [role_end_t]) (name_t "B")) (pty_t (PChoice 0 2))
                   else Label (mesh_t M [RApp CRecv [bits; end_t]; end_t] (RApp (CRole "A") [role_end_t]) (name_t "C")) (pty_t (PChoice 0 3))).
  exists (mesh_t M [end_t; end_t] role_end_t (name_t "A")). split; [reflexivity|]. split; [|split; [reflexivity|split; [reflexivity|split; [reflexivity|]]]].
  - apply (choice_accepts_exactly sends_end M 3 2 "A"); [lia|reflexivity|]. split.
    + intros q Hq Hne. destruct q as [|[|[|[|q]]]]; try lia; (eexists; split; reflexivity).
    + exists (fun a b => if (a =? 1) && (b =? 3) then RApp CSend [bits; end_t] else if (a =? 3) && (b =? 1) then RApp CRecv [bits; end_t] else end_t).
      exists (fun p => match p with 1 => RApp (CRole "C") [role_end_t] | 3 => RApp (CRole "A") [role_end_t] | _ => role_end_t end).
      exists (fun p => match p with 1 => name_t "B" | 3 => name_t "C" | _ => name_t "A" end). split.
      { intros p q Hp Hq Hne. destruct p as [|[|[|[|p]]]], q as [|[|[|[|q]]]]; try lia; split; reflexivity. }
      split; [intros p Hp; destruct p as [|[|[|[|p]]]]; try lia; split; reflexivity|]. split; [reflexivity|]. split; [|reflexivity].
      intros q Hq Hne. destruct q as [|[|[|[|q]]]]; try lia; reflexivity.
  - intros [_ (G & st & nm & HG & _ & _ & HC & _)]. pose proof (HC 2 ltac:(lia) ltac:(lia)) as H2. pose proof (HC 3 ltac:(lia) ltac:(lia)) as H3.
    cbn in H2, H3. unfold as_role in H2, H3. apply mesh_t_inj in H2 as (_ & H2 & _). apply mesh_t_inj in H3 as (_ & H3 & _).
    injection H2 as _ E1. injection H3 as _ E2. destruct (HG 2 3 ltac:(lia) ltac:(lia) ltac:(lia)) as [_ D]. cbn in D. rewrite <- E1, <- E2 in D. discriminate D.
Qed.
Print Assumptions wrong_index_refuted.

(** "After a choice nothing is left to do in the old sessions": the macro drops what [send] returns, so every continuation is
    accepted there; the declared functions ask for [End]. *)
Theorem old_sessions_finished_refuted : exists c fields labels R F, choose_code M 2 1 "A" = Some c /\
  choice_accepts sends_any c fields labels R /\ nth_error fields 0 = Some (RApp CSend [F; RApp CRecv [bits; end_t]]).
Proof.
  eexists. exists [RApp CSend [pty_t (PChoice 0 2); RApp CRecv [bits; end_t]]], (branch_labels M ["A"; "B"]%string (fun _ => ([End], SEnd)) 0 1).
  exists (content M ["A"; "B"]%string (fun _ => ([End], SEnd)) 1). eexists. split; [reflexivity|]. split; [|reflexivity].
  apply (choice_asks_dual sends_any M ["A"; "B"]%string (fun _ => ([End], SEnd)) 0 1); [cbn; lia|reflexivity|]. split.
  - split; [intros p Hp; reflexivity|]. intros p q Hp Hq Hne. change (List.length ["A"; "B"]%string) with 2 in Hp, Hq.
    destruct p as [|[|[|p]]], q as [|[|[|q]]]; try lia; reflexivity.
  - intros q Hq Hne. change (List.length ["A"; "B"]%string) with 2 in Hq. assert (q = 2) as -> by lia. eexists. split; [reflexivity|].
    exists (RApp CRecv [bits; end_t]). split; reflexivity.
Qed.
Print Assumptions old_sessions_finished_refuted.

(** * The programs of the repository *)

(** With two roles both indices mean the same. *)
Theorem two_roles_either_index : forall sends mesh sender fields labels R,
  choice_fits sends mesh 2 1 sender fields labels R <-> choice_fits sends mesh 2 2 sender fields labels R.
Proof.
  intros sends mesh sender fields labels R.
  assert (H : forall e e', (e, e') = (1, 2) \/ (e, e') = (2, 1) -> choice_fits sends mesh 2 e sender fields labels R -> choice_fits sends mesh 2 e' sender fields labels R).
  { intros e e' He [HF (G & st & nm & HG & Hst & Hnm & HC & HR)].
    split.
    - intros q Hq Hne. assert (comm_field e' q = comm_field e e') as -> by (destruct He as [He|He]; injection He as -> ->; assert (q = 1 \/ q = 2) as [-> | ->] by lia; try lia; reflexivity).
      apply HF; destruct He as [He|He]; injection He as -> ->; lia.
    - exists (fun p q => G (3 - p) (3 - q)), (fun p => st (3 - p)), (fun p => nm (3 - p)). split; [|split; [|split; [|split]]].
      + intros p q Hp Hq Hne. apply (HG (3 - p) (3 - q)); lia.
      + intros p Hp. apply Hst. lia.
      + destruct He as [He|He]; injection He as -> ->; exact Hnm.
      + intros q Hq Hne. destruct He as [He|He]; injection He as -> ->; [assert (q = 1) as -> by lia; apply (HC 2); lia|assert (q = 2) as -> by lia; apply (HC 1); lia].
      + destruct He as [He|He]; injection He as -> ->; exact HR. }
  split; apply H; auto.
Qed.
Print Assumptions two_roles_either_index.

Definition use_right (n : nat) (u : choice_kind * nat * nat) : bool :=
  let '(k, pos, e) := u in
  (1 <=? pos) && (pos <=? n) && (1 <=? e) && (e <=? n) && ((e =? pos) || (n =? 2)) &&
  match k with MacroCancel | FnsCancel => (2 <=? e) && (e =? pos) | _ => true end.
Lemma corpus_uses_right : forallb (fun f => forallb (use_right (fst f)) (snd f)) choice_files = true.
Proof. vm_compute. reflexivity. Qed.

(** Every choice with an explicit index in these programs is accepted exactly for types that fit its own place among the roles. *)
Theorem corpus_choices_fit : forall f k pos e mesh sender, In f choice_files -> In (k, pos, e) (snd f) ->
  match k with
  | Macro | Fns => exists c, choose_code mesh (fst f) e sender = Some c /\ forall sends fields labels R,
      choice_accepts sends c fields labels R <-> choice_fits sends mesh (fst f) pos sender fields labels R
  | MacroCancel | FnsCancel => exists c, choose_cancel_code mesh (fst f) e sender = Some c /\ forall sends fields labels R,
      cancel_accepts sends c fields labels R <-> nth_error fields 0 = Some end_t /\ cancel_fits (with_end sends) mesh (fst f) pos sender fields labels R
  end.
Proof.
  intros f k pos e mesh sender Hf Hu. assert (A := corpus_uses_right). rewrite forallb_forall in A. specialize (A f Hf). rewrite forallb_forall in A.
  specialize (A _ Hu). unfold use_right in A. rewrite !andb_true_iff in A. destruct A as [[[[[A1 A2] A3] A4] A5] A6].
  apply Nat.leb_le in A1, A2, A3, A4. apply orb_prop in A5.
  assert (P : exists c, choose_code mesh (fst f) e sender = Some c /\ forall sends fields labels R,
      choice_accepts sends c fields labels R <-> choice_fits sends mesh (fst f) pos sender fields labels R).
  { eexists. split; [apply choose_code_eq; lia|]. intros sends fields labels R.
    rewrite (choice_accepts_exactly sends mesh (fst f) e sender _ fields labels R ltac:(lia) (choose_code_eq mesh (fst f) e sender ltac:(lia))).
    destruct (Nat.eq_dec e pos) as [->|Hne]; [reflexivity|]. destruct A5 as [A5|A5]; [apply Nat.eqb_eq in A5; contradiction|]. apply Nat.eqb_eq in A5.
    rewrite A5 in *. assert (HH : (e = 1 /\ pos = 2) \/ (e = 2 /\ pos = 1)) by lia.
    destruct HH as [[-> ->]|[-> ->]]; [apply two_roles_either_index|symmetry; apply two_roles_either_index]. }
  assert (Q : (k = MacroCancel \/ k = FnsCancel) -> exists c, choose_cancel_code mesh (fst f) e sender = Some c /\ forall sends fields labels R,
      cancel_accepts sends c fields labels R <-> nth_error fields 0 = Some end_t /\ cancel_fits (with_end sends) mesh (fst f) pos sender fields labels R).
  { intros Hk. assert (B : (2 <=? e) && (e =? pos) = true) by (destruct Hk as [-> | ->]; exact A6). apply andb_prop in B as [B1 B2].
    apply Nat.leb_le in B1. apply Nat.eqb_eq in B2. subst pos. eexists. split; [apply choose_cancel_code_eq; lia|]. intros sends fields labels R.
    apply (cancel_choice_accepts_exactly sends mesh (fst f) e sender); [lia|apply choose_cancel_code_eq; lia]. }
  destruct k; [exact P|apply Q; auto|exact P|apply Q; auto].
Qed.
Print Assumptions corpus_choices_fit.
Example corpus_choices_example : In (21, [(FnsCancel, 21, 21)]) choice_files /\ In (2, [(Macro, 1, 2); (Macro, 2, 2)]) choice_files.
Proof. split; repeat first [left; reflexivity|right]. Qed.
