(** C72: the attribute [branching] accepts an enum exactly if its variants are in alphabetical order, its advice is right, and
    following the advice leads to an accepted enum. *)
From Coq Require Import Arith Bool String Ascii NArith Lia Sorted Permutation List.
From Verif Require Import Branching BranchingProofs.
Import ListNotations.
Open Scope list_scope.

(** ** Specification *)

(** Byte by byte; a prefix comes first. Specification only. *)
Inductive before : string -> string -> Prop :=
  | before_nil : forall c s, before EmptyString (String c s)
  | before_char : forall c d s t, nat_of_ascii c < nat_of_ascii d -> before (String c s) (String d t)
  | before_same : forall c s t, before s t -> before (String c s) (String c t).

(** No variant is before an earlier one. Specification only. *)
Definition in_order (vs : list string) : Prop :=
  forall i j a b, i < j -> nth_error vs i = Some a -> nth_error vs j = Some b -> ~ before b a.

(** The variants in front of [v] are in order, those of [a] are before [v], [g] is after it. Specification only. *)
Definition out_of_place (vs a : list string) (g : string) (b : list string) (v : string) (rest : list string) : Prop :=
  vs = (a ++ g :: b) ++ v :: rest /\ in_order (a ++ g :: b) /\ (forall x, In x a -> before x v) /\ before v g.

(** Following the advice once, and k times. Specification only. *)
Inductive edited : list string -> list string -> Prop :=
  | edited_move : forall vs a g b v rest, out_of_place vs a g b v rest -> edited vs ((a ++ v :: g :: b) ++ rest).
Inductive edits : nat -> list string -> list string -> Prop :=
  | edits_0 : forall vs, edits 0 vs vs
  | edits_S : forall k vs vs1 vs2, edits k vs vs1 -> edited vs1 vs2 -> edits (S k) vs vs2.

(** ** The specification in terms of the model *)

Lemma ascii_before : forall c d, Ascii.compare c d = Lt <-> nat_of_ascii c < nat_of_ascii d.
Proof. intros c d. unfold Ascii.compare, nat_of_ascii. rewrite N.compare_lt_iff. lia. Qed.

Lemma before_lt : forall a b, before a b <-> lt a b.
Proof.
  intros a b. rewrite lt_compare. split.
  - intros H. induction H as [c s|c d s t H|c s t H IH]; cbn; [reflexivity| |].
    + apply ascii_before in H. rewrite H. reflexivity.
    + rewrite ascii_compare_refl. exact IH.
  - revert b. induction a as [|c a IH]; intros [|d b]; cbn; try discriminate; [constructor|].
    destruct (Ascii.compare c d) eqn:E; try discriminate; intros H.
    + apply Ascii.compare_eq_iff in E. subst. apply before_same. auto.
    + apply before_char. apply ascii_before. exact E.
Qed.

Lemma not_before : forall a b, ~ before b a <-> le a b.
Proof.
  intros a b. rewrite before_lt. unfold lt. rewrite not_true_iff_false. apply not_lt.
Qed.

Lemma in_order_sorted : forall vs, in_order vs <-> StronglySorted le vs.
Proof.
  induction vs as [|v vs IH].
  - split; [constructor|]. intros _ [|i] j a b _ H; discriminate.
  - split.
    + intros H. constructor.
      * apply IH. intros i j a b Hij Ha Hb. apply (H (S i) (S j) a b); auto. lia.
      * apply Forall_forall. intros x Hx. apply In_nth_error in Hx. destruct Hx as [j Hj].
        apply not_before. apply (H 0 (S j) v x); auto. lia.
    + intros H. inversion H as [|? ? H1 H2]; subst. apply IH in H1. rewrite Forall_forall in H2.
      intros [|i] [|j] a b Hij Ha Hb; try lia.
      * cbn in Ha, Hb. inversion Ha; subst. apply not_before. apply H2. eapply nth_error_In. exact Hb.
      * apply (H1 i j a b); auto. lia.
Qed.

Lemma check_prefix : forall p names q, StronglySorted le (names ++ p) -> check_variants names (p ++ q) = check_variants (names ++ p) q.
Proof.
  induction p as [|v p IH]; intros names q H; cbn [app]; [rewrite app_nil_r; reflexivity|]. cbn [check_variants].
  replace (match names with [] => false | _ => smaller v (last names EmptyString) end) with false.
  - rewrite IH; [rewrite <- app_assoc; reflexivity|rewrite <- app_assoc; exact H].
  - destruct names as [|x names]; [reflexivity|]. symmetry. apply not_lt. apply sorted_app in H. destruct H as (_ & _ & H).
    apply H; [apply last_in; discriminate|cbn; auto].
Qed.

Lemma out_sorted : forall vs a g b v rest, out_of_place vs a g b v rest ->
  StronglySorted le (a ++ g :: b) /\ lt v (last (a ++ g :: b) EmptyString) /\ (forall x, In x b -> lt v x) /\ ~ In v (a ++ g :: b).
Proof.
  intros vs a g b v rest (-> & Ho & Ha & Hg). apply in_order_sorted in Ho. apply before_lt in Hg.
  assert (forall x, In x b -> lt v x) as Hb.
  { intros x Hx. apply sorted_app in Ho. destruct Ho as (_ & Ho & _). inversion Ho as [|? ? _ H]; subst.
    rewrite Forall_forall in H. eapply lt_le_trans; [exact Hg|apply H; exact Hx]. }
  split; [exact Ho|]. split; [|split; [exact Hb|]].
  - eapply lt_le_trans; [exact Hg|]. apply last_greatest; [exact Ho|]. apply in_or_app. cbn. auto.
  - intros Hx. apply in_app_or in Hx. destruct Hx as [Hx|[->|Hx]].
    + apply (lt_irrefl v). apply before_lt. auto.
    + exact (lt_irrefl _ Hg).
    + exact (lt_irrefl _ (Hb _ Hx)).
Qed.

(** ** Theorems *)

(** An enum is accepted exactly if its variants are in order. *)
Theorem accepted_iff_in_order : forall vs, branching true (Enum vs) = Accepted <-> in_order vs.
Proof.
  intros vs. cbn. rewrite in_order_sorted. split.
  - intros H. destruct (check_cases vs [] (SSorted_nil _)) as [[H1 _]|(pre & v & rest & _ & [[_ H1]|(a & g & b & _ & _ & _ & _ & H1)])];
      [exact H1|congruence|congruence].
  - intros H. apply check_sorted. exact H.
Qed.
Print Assumptions accepted_iff_in_order.
Example accepted_example : branching true (Enum ["Close"; "Done"; "Video"; "Video2"]%string) = Accepted.
Proof. reflexivity. Qed.

(** It is rejected exactly if a first variant is out of place and new; the message names it and the first greater one. *)
Theorem rejected_exactly : forall vs m, branching true (Enum vs) = Rejected m <->
  exists a g b v rest, out_of_place vs a g b v rest /\ m = (v ++ " should sort before " ++ g)%string.
Proof.
  intros vs m. cbn [branching branching_variants]. split.
  - intros H. destruct (check_cases vs [] (SSorted_nil _)) as [[_ H1]|(pre & v & rest & (H0 & Hs & _) & [[_ H1]|(a & g & b & -> & Ha & Hg & _ & H1)])];
      [congruence|congruence|].
    exists a, g, b, v, rest. split; [|congruence]. split; [exact H0|]. split; [apply in_order_sorted; exact Hs|].
    split; [intros x Hx; apply before_lt; auto|apply before_lt; exact Hg].
  - intros (a & g & b & v & rest & Ho & ->). destruct (out_sorted _ _ _ _ _ _ Ho) as (Hs & Hl & Hb & Hn). destruct Ho as (-> & _ & Ha & Hg).
    rewrite (check_prefix (a ++ g :: b) [] (v :: rest)) by exact Hs. cbn [app].
    destruct (check_cases (v :: rest) (a ++ g :: b) Hs) as [[H1 _]|(pre & w & rest' & Hd & HC)].
    + exfalso. apply sorted_app in H1. destruct H1 as (_ & _ & H1).
      assert (le g v) as H2 by (apply H1; [apply in_or_app; cbn; auto|cbn; auto]). apply before_lt in Hg.
      exact (lt_irrefl _ (lt_le_trans _ _ _ Hg H2)).
    + clear HC Hd pre w rest'. cbn [check_variants].
      replace (match a ++ g :: b with [] => false | _ => smaller v (last (a ++ g :: b) EmptyString) end) with true
        by (symmetry; assert (a ++ g :: b <> []) as Hz by (destruct a; discriminate); destruct (a ++ g :: b); [congruence|exact Hl]).
      destruct (search_some (a ++ g :: b) v Hs Hn Hl) as (a' & g' & b' & i & E & Ha' & Hg' & Hb' & -> & ->); [destruct a; discriminate|].
      assert (g' = g) as ->; [|reflexivity]. clear Hs Hl Hn Hb Hb' i. apply before_lt in Hg.
      revert a' E Ha'. induction a as [|x a IH]; intros [|x' a'] E Ha'; cbn in E; injection E as E1 E2; [congruence| | |].
      * exfalso. apply (lt_irrefl v). eapply lt_trans; [exact Hg|]. rewrite E1. apply Ha'. cbn. auto.
      * exfalso. apply (lt_irrefl v). eapply lt_trans; [exact Hg'|]. rewrite <- E1. apply before_lt. apply Ha. cbn. auto.
      * apply (IH (fun y Hy => Ha y (or_intror Hy)) a'); auto. intros y Hy. apply Ha'. cbn. auto.
Qed.
Print Assumptions rejected_exactly.
Example rejected_example : branching true (Enum ["Close"; "Video"; "Done"; "Add"]%string) = Rejected "Done should sort before Video".
Proof. reflexivity. Qed.

(** The macro panics exactly if the first variant that is out of order has the name of an earlier one. *)
Theorem panics_exactly : forall vs, branching true (Enum vs) = Panics <->
  exists pre v g rest, vs = pre ++ v :: rest /\ in_order pre /\ In v pre /\ In g pre /\ before v g.
Proof.
  intros vs. cbn. split.
  - intros H. destruct (check_cases vs [] (SSorted_nil _)) as [[_ H1]|(pre & v & rest & (H0 & Hs & Hne & Hl) & [[Hv _]|(a & g & b & _ & _ & _ & _ & H1)])];
      [congruence| |congruence].
    exists pre, v, (last pre EmptyString), rest. split; [exact H0|]. split; [apply in_order_sorted; exact Hs|]. split; [exact Hv|].
    split; [apply last_in; exact Hne|apply before_lt; exact Hl].
  - intros (pre & v & g & rest & -> & Ho & Hv & Hg & Hb). apply in_order_sorted in Ho. apply before_lt in Hb.
    rewrite (check_prefix pre [] (v :: rest)) by exact Ho. cbn [app check_variants].
    replace (match pre with [] => false | _ => smaller v (last pre EmptyString) end) with true.
    + apply search_none in Hv. rewrite Hv. reflexivity.
    + symmetry. destruct pre as [|x pre]; [destruct Hg|]. eapply lt_le_trans; [exact Hb|]. apply last_greatest; [exact Ho|exact Hg].
Qed.
Print Assumptions panics_exactly.

(** Not every enum is either accepted or rejected with a message. *)
Theorem branching_panics_refuted : exists vs, branching true (Enum vs) = Panics.
Proof. exists ["Add"; "Bye"; "Add"]%string. reflexivity. Qed.
Print Assumptions branching_panics_refuted.

(** Variants with different names (Rust asks for this later): no panic. *)
Theorem distinct_no_panic : forall vs, NoDup vs -> branching true (Enum vs) <> Panics.
Proof.
  intros vs Hd H. apply panics_exactly in H. destruct H as (pre & v & g & rest & -> & _ & Hv & _).
  apply NoDup_remove_2 in Hd. apply Hd. apply in_or_app. auto.
Qed.
Print Assumptions distinct_no_panic.
Example distinct_example : NoDup ["Close"; "Video"; "Done"; "Add"]%string.
Proof. repeat constructor; cbn; intuition discriminate. Qed.

(** Putting the variant where the message says corrects all up to and including it. *)
Theorem advice_right : forall vs a g b v rest, out_of_place vs a g b v rest -> in_order (a ++ v :: g :: b).
Proof.
  intros vs a g b v rest Ho. destruct (out_sorted _ _ _ _ _ _ Ho) as (Hs & Hl & Hb & Hn). destruct Ho as (-> & _ & Ha & Hg).
  apply in_order_sorted. apply sorted_app in Hs. destruct Hs as (H1 & H2 & H3). apply before_lt in Hg. apply sorted_app.
  split; [exact H1|]. split.
  - constructor; [exact H2|]. apply Forall_forall. intros x [<-|Hx]; right; auto.
  - intros x y Hx [<-|Hy]; [right; apply before_lt; auto|auto].
Qed.
Print Assumptions advice_right.

Lemma edits_inv : forall k vs vs', edits k vs vs' -> Permutation vs vs' /\ exists p q, vs' = p ++ q /\ in_order p /\ k <= List.length p.
Proof.
  intros k vs vs' H. induction H as [vs|k vs vs1 vs2 H (HP & p & q & E & Hp & Hk) H2].
  - split; [apply Permutation_refl|]. exists [], vs. split; [reflexivity|]. split; [|apply le_n]. intros [|i] j a b _ Hx; discriminate.
  - inversion H2 as [? a g b v rest Ho]; subst vs2. subst vs0. split.
    + eapply perm_trans; [exact HP|]. destruct Ho as (-> & _). rewrite <- app_assoc. cbn [app]. rewrite <- app_assoc. cbn [app].
      apply Permutation_app_head. eapply perm_trans; [|apply perm_swap].
      apply perm_skip. apply Permutation_sym. apply Permutation_middle.
    + exists (a ++ v :: g :: b), rest. split; [reflexivity|]. split; [exact (advice_right _ _ _ _ _ _ Ho)|].
      destruct (out_sorted _ _ _ _ _ _ Ho) as (Hs & _ & _ & _). destruct Ho as (E2 & _ & _ & Hg). rewrite E in E2.
      assert (List.length p <= List.length (a ++ g :: b)) as Hle.
      { destruct (le_lt_dec (List.length p) (List.length (a ++ g :: b))) as [Hx|Hx]; [exact Hx|exfalso].
        assert (nth_error p (List.length (a ++ g :: b)) = Some v) as Hv.
        { rewrite <- (nth_error_app1 p q Hx), E2, nth_error_app2, Nat.sub_diag by lia. reflexivity. }
        assert (nth_error p (List.length a) = Some g) as Hgp.
        { rewrite app_length in Hx. cbn in Hx. rewrite <- (nth_error_app1 p q) by lia. rewrite E2, <- app_assoc.
          rewrite nth_error_app2, Nat.sub_diag by lia. reflexivity. }
        apply (Hp (List.length a) (List.length (a ++ g :: b)) g v); auto. rewrite app_length. cbn. lia. }
      rewrite app_length in *. cbn in *. lia.
Qed.

(** Whoever follows the advice is done after at most as many moves as there are variants; only their order has changed; as
    long as the enum is not accepted there is advice. *)
Theorem advice_ends : forall vs k vs', NoDup vs -> edits k vs vs' ->
  k <= List.length vs /\ Permutation vs vs' /\ (branching true (Enum vs') = Accepted \/ exists vs'', edited vs' vs'').
Proof.
  intros vs k vs' Hd H. destruct (edits_inv _ _ _ H) as (HP & p & q & E & _ & Hk). split; [|split; [exact HP|]].
  - rewrite (Permutation_length HP), E, app_length. lia.
  - pose proof (Permutation_NoDup HP Hd) as Hd'. destruct (branching true (Enum vs')) as [|m|] eqn:Eb; [left; reflexivity|right|].
    + apply rejected_exactly in Eb. destruct Eb as (a & g & b & v & rest & Ho & _). eexists. exact (edited_move _ _ _ _ _ _ Ho).
    + exfalso. exact (distinct_no_panic _ Hd' Eb).
Qed.
Print Assumptions advice_ends.
Example advice_example : edits 2 ["Close"; "Video"; "Done"; "Add"]%string ["Add"; "Close"; "Done"; "Video"]%string.
Proof.
  assert (forall vs, check_variants [] vs = Accepted -> in_order vs) as H by (intros vs Hv; apply accepted_iff_in_order; exact Hv).
  apply edits_S with (vs1 := ["Close"; "Done"; "Video"; "Add"]%string); [apply edits_S with (vs1 := ["Close"; "Video"; "Done"; "Add"]%string); [constructor|]|].
  - apply (edited_move _ ["Close"]%string "Video" [] "Done" ["Add"]%string). split; [reflexivity|]. split; [apply H; reflexivity|].
    split; [intros x [<-|[]]|]; apply before_lt; reflexivity.
  - apply (edited_move _ [] "Close" ["Done"; "Video"]%string "Add" []). split; [reflexivity|]. split; [apply H; reflexivity|].
    split; [intros x []|]; apply before_lt; reflexivity.
Qed.
