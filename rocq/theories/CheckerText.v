(** * The checker's parser reads back what is printed: proofs for C31 *)

From Coq Require Import Ascii String ZArith Lia Bool List.
From Verif Require Import Checker CheckerSpec.
Import ListNotations.

Lemma ty_ind' : forall P : ty -> Prop,
  (forall path name args, Forall P args -> P (Node path name args)) -> forall t, P t.
Proof.
  intros P H. fix IH 1. intros [path name args]. apply H.
  induction args as [|a args IHa]; constructor; [apply IH|exact IHa].
Qed.

Lemma seqb_refl : forall a, seqb a a = true.
Proof. intros a. unfold seqb. destruct (list_eq_dec ascii_dec a a); congruence. Qed.

Lemma seqb_true : forall a b, seqb a b = true <-> a = b.
Proof. intros a b. unfold seqb. destruct (list_eq_dec ascii_dec a b); split; congruence. Qed.

Lemma seqb_false : forall a b, seqb a b = false <-> a <> b.
Proof. intros a b. unfold seqb. destruct (list_eq_dec ascii_dec a b); split; congruence. Qed.

(** ** Printing *)

Lemma show_args : forall f sp path name args,
  show_with f sp (Node path name args) =
  f path name ++ match args with
                 | [] => []
                 | _ => lit "<" ++ join (comma sp) (map (show_with f sp) args) ++ lit ">"
                 end.
Proof. reflexivity. Qed.

Lemma join_cons : forall sep a b l, join sep (a :: b :: l) = a ++ sep ++ join sep (b :: l).
Proof. reflexivity. Qed.

(** ** [get_blocks] *)

(** A text without separators, [&] or spaces is added to the current field,
    or ignored before the first bracket. *)
Definition quiet_char (c : ascii) : Prop := is_sep c = false /\ c <> "&"%char.

Lemma quiet_tests : forall c, quiet_char c ->
  Ascii.eqb c "&" = false /\ is_space c = false /\ Ascii.eqb c ">" = false /\
  Ascii.eqb c "<" = false /\ Ascii.eqb c "," = false.
Proof.
  intros c [S A]. unfold is_sep in S.
  apply orb_false_elim in S. destruct S as [S S4].
  apply orb_false_elim in S. destruct S as [S S3].
  apply orb_false_elim in S. destruct S as [S1 S2].
  apply Ascii.eqb_neq in A. repeat split; assumption.
Qed.

Lemma scan_quiet : forall s res temp d,
  Forall quiet_char s -> (0 <= d)%Z ->
  fold_left block_char s (BState res temp d) = (BState res (temp ++ s) d).
Proof.
  induction s as [|c s IH]; intros res temp d Q D; cbn [fold_left].
  - now rewrite app_nil_r.
  - inversion Q as [|? ? Qc Qs]; subst.
    destruct (quiet_tests c Qc) as (E1 & E2 & E3 & E4 & E5).
    assert (block_char (BState res temp d) c = (BState res (temp ++ [c]) d)) as ->.
    { unfold block_char. rewrite E1, E2, E3, E4, E5. cbn [orb andb].
      assert ((0 <=? d)%Z = true) as -> by now apply Z.leb_le. reflexivity. }
    rewrite (IH res (temp ++ [c]) d Qs D), <- app_assoc. reflexivity.
Qed.

Lemma scan_quiet_before : forall s res temp,
  Forall quiet_char s ->
  fold_left block_char s (BState res temp (-1)) = (BState res temp (-1)).
Proof.
  induction s as [|c s IH]; intros res temp Q; cbn [fold_left]; [reflexivity|].
  inversion Q as [|? ? Qc Qs]; subst.
  destruct (quiet_tests c Qc) as (E1 & E2 & E3 & E4 & E5).
  assert (block_char (BState res temp (-1)) c = (BState res temp (-1))) as ->.
  { unfold block_char. rewrite E1, E2, E3, E4, E5. reflexivity. }
  exact (IH res temp Qs).
Qed.

Lemma block_open : forall res temp d, (0 <= d)%Z ->
  block_char (BState res temp d) "<" = BState res (temp ++ lit "<") (d + 1).
Proof.
  intros res temp d D. unfold block_char.
  assert ((0 <=? d)%Z = true) as -> by now apply Z.leb_le. reflexivity.
Qed.

Lemma block_close : forall res temp d, (0 < d)%Z ->
  block_char (BState res temp d) ">" = BState res (temp ++ lit ">") (d - 1).
Proof.
  intros res temp d D. unfold block_char.
  assert ((d =? 0)%Z = false) as -> by (apply Z.eqb_neq; lia).
  assert ((0 <=? d)%Z = true) as -> by (apply Z.leb_le; lia). reflexivity.
Qed.

Lemma scan_comma : forall sp res temp d, (0 < d)%Z ->
  fold_left block_char (comma sp) (BState res temp d) = BState res (temp ++ lit ",") d.
Proof.
  intros sp res temp d D.
  assert (block_char (BState res temp d) "," = BState res (temp ++ lit ",") d) as E.
  { unfold block_char.
    assert ((d =? 0)%Z = false) as -> by (apply Z.eqb_neq; lia).
    assert ((0 <=? d)%Z = true) as -> by (apply Z.leb_le; lia). reflexivity. }
  destruct sp; cbn [comma lit list_ascii_of_string fold_left]; rewrite E; reflexivity.
Qed.

Lemma scan_comma_0 : forall sp res temp,
  fold_left block_char (comma sp) (BState res temp 0) = BState (res ++ [temp]) [] 0.
Proof. intros [|] res temp; reflexivity. Qed.

Section Blocks.
  Variable f : list str -> str -> str.

  Definition calm (t : ty) : Prop :=
    Forall (fun h => Forall quiet_char (f (fst h) (snd h))) (heads t).

  Lemma calm_node : forall path name args,
    calm (Node path name args) -> Forall quiet_char (f path name) /\ Forall calm args.
  Proof.
    intros path name args C. unfold calm in C. cbn [heads] in C.
    inversion C as [|? ? C1 C2]; subst. split; [exact C1|].
    apply Forall_forall. intros t T. unfold calm.
    apply Forall_forall. intros h Hh. rewrite Forall_forall in C2. apply C2.
    apply in_flat_map. now exists t.
  Qed.

  Lemma scan_type : forall sp t, calm t -> forall res temp d, (0 <= d)%Z ->
    fold_left block_char (show_with f sp t) (BState res temp d) =
    BState res (temp ++ show_with f false t) d.
  Proof.
    intros sp t. induction t as [path name args IH] using ty_ind'.
    intros C res temp d D. destruct (calm_node _ _ _ C) as [C1 C2].
    rewrite !show_args, fold_left_app, (scan_quiet _ _ _ _ C1 D).
    destruct args as [|a args]; [cbn [fold_left]; now rewrite app_nil_r|].
    rewrite !fold_left_app. cbn [lit list_ascii_of_string fold_left].
    rewrite (block_open _ _ _ D).
    assert (forall temp', fold_left block_char
              (join (comma sp) (map (show_with f sp) (a :: args))) (BState res temp' (d + 1)) =
            BState res (temp' ++ join (comma false) (map (show_with f false) (a :: args))) (d + 1)) as J.
    { clear temp C C1.
      revert a IH C2. induction args as [|b args IHa]; intros a IH C2 temp'.
      - cbn [map join]. inversion IH; subst. inversion C2; subst. apply H1; [assumption|lia].
      - cbn [map] in *. rewrite !join_cons. inversion IH as [|? ? I1 I2]; subst.
        inversion C2 as [|? ? C3 C4]; subst.
        rewrite !fold_left_app, I1 by (assumption || lia).
        rewrite scan_comma by lia. rewrite (IHa b I2 C4).
        rewrite <- !app_assoc. reflexivity. }
    rewrite J, block_close by lia.
    rewrite <- !app_assoc. cbn [app lit list_ascii_of_string]. f_equal. lia.
  Qed.

  Lemma scan_fields : forall sp args, args <> [] -> Forall calm args -> forall res,
    fold_left block_char (join (comma sp) (map (show_with f sp) args)) (BState res [] 0) =
    BState (res ++ removelast (map (show_with f false) args)) (last (map (show_with f false) args) []) 0.
  Proof.
    intros sp args. induction args as [|a args IH]; intros N C res; [congruence|].
    inversion C as [|? ? C1 C2]; subst. destruct args as [|b args].
    - cbn [map join removelast last]. rewrite (scan_type sp a C1) by lia.
      now rewrite app_nil_r.
    - cbn [map] in *. rewrite join_cons, !fold_left_app, (scan_type sp a C1) by lia.
      cbn [app]. rewrite scan_comma_0, IH by (congruence || assumption).
      rewrite <- app_assoc. reflexivity.
  Qed.

  Theorem get_blocks_type : forall sp path name args,
    calm (Node path name args) ->
    get_blocks (show_with f sp (Node path name args)) = map (show_with f false) args.
  Proof.
    intros sp path name args C. destruct (calm_node _ _ _ C) as [C1 C2].
    unfold get_blocks. rewrite show_args, fold_left_app, (scan_quiet_before _ _ _ C1).
    destruct args as [|a args]; [reflexivity|].
    rewrite !fold_left_app. cbn [lit list_ascii_of_string fold_left].
    change (block_char (BState [] [] (-1)) "<") with (BState [] [] 0).
    rewrite scan_fields by (congruence || assumption).
    cbn [app]. unfold block_char. cbn [Ascii.eqb Bool.eqb orb is_space andb Z.eqb].
    change (nat_of_ascii ">") with 62. cbn [Nat.eqb Nat.leb orb andb].
    rewrite <- app_removelast_last; [reflexivity|discriminate].
  Qed.
End Blocks.

Lemma before_angle_word : forall s r,
  Forall quiet_char s -> before_angle (s ++ lit "<" ++ r) = s /\ before_angle s = s.
Proof.
  induction s as [|c s IH]; intros r Q; [split; reflexivity|].
  inversion Q as [|? ? Qc Qs]; subst. destruct (quiet_tests c Qc) as (_ & _ & _ & E & _).
  destruct (IH r Qs) as [I1 I2]. cbn [app before_angle]. rewrite E. split; f_equal; assumption.
Qed.

Lemma text_has_angle : forall f sp path name args s,
  args <> [] -> ~ In "<"%char s -> show_with f sp (Node path name args) <> s.
Proof.
  intros f sp path name args s N A E. apply A. rewrite <- E, show_args.
  destruct args; [congruence|]. apply in_or_app. right. now left.
Qed.

(** The head, then the fields. *)
Lemma get_hpc_type : forall f sp path name args,
  calm f (Node path name args) ->
  get_hpc (show_with f sp (Node path name args)) =
  f path name :: map (show_with f false) args.
Proof.
  intros f sp path name args C. destruct (calm_node _ _ _ _ C) as [C1 C2].
  unfold get_hpc. destruct args as [|a args].
  - rewrite show_args, app_nil_r. cbn [map].
    destruct (seqb (f path name) (lit "End")) eqn:E1; [apply seqb_true in E1; now rewrite E1|].
    destruct (seqb (f path name) (lit "RoleEnd")) eqn:E2; [apply seqb_true in E2; now rewrite E2|].
    f_equal; [exact (proj2 (before_angle_word _ [] C1))|].
    pose proof (get_blocks_type f sp path name [] C) as B.
    rewrite show_args, app_nil_r in B. exact B.
  - assert (seqb (show_with f sp (Node path name (a :: args))) (lit "End") = false) as ->.
    { apply seqb_false. apply text_has_angle; [discriminate|].
      cbn. intuition discriminate. }
    assert (seqb (show_with f sp (Node path name (a :: args))) (lit "RoleEnd") = false) as ->.
    { apply seqb_false. apply text_has_angle; [discriminate|].
      cbn. intuition discriminate. }
    rewrite (get_blocks_type f sp path name (a :: args) C). f_equal.
    rewrite show_args. exact (proj1 (before_angle_word _ _ C1)).
Qed.

(** ** [build_dual] *)

Lemma word_quiet : forall s, word s -> Forall quiet_char s.
Proof.
  intros s [_ W]. eapply Forall_impl; [|exact W]. cbn. intros c (A & B & _). now split.
Qed.

Lemma short_calm : forall t, wordy t -> calm short_head t.
Proof.
  intros t W. unfold calm. eapply Forall_impl; [|exact W].
  intros [p n] [_ H]. exact (word_quiet _ H).
Qed.

Lemma wordy_node : forall path name args,
  wordy (Node path name args) -> Forall word path /\ word name /\ Forall wordy args.
Proof.
  intros path name args W. unfold wordy in W. cbn [heads] in W.
  inversion W as [|? ? [W0 W1] W2]; subst. split; [exact W0|split; [exact W1|]].
  apply Forall_forall. intros t T. unfold wordy.
  apply Forall_forall. intros h Hh. rewrite Forall_forall in W2. apply W2.
  apply in_flat_map. now exists t.
Qed.

Lemma short_two : forall n p s,
  short (Node [] n [p; s]) = n ++ lit "<" ++ short p ++ lit "," ++ short s ++ lit ">".
Proof. intros n p s. unfold short. rewrite show_args. cbn [map join]. now rewrite <- !app_assoc. Qed.

Lemma hpc_short : forall path n args,
  wordy (Node path n args) -> get_hpc (short (Node path n args)) = n :: map short args.
Proof. intros path n args W. exact (get_hpc_type _ _ _ _ _ (short_calm _ W)). Qed.

Lemma short_not : forall n a args s,
  ~ In "<"%char s -> seqb (short (Node [] n (a :: args))) s = false.
Proof. intros n a args s A. apply seqb_false. apply text_has_angle; [discriminate|exact A]. Qed.

Lemma no_angle_End : ~ In "<"%char (lit "End").
Proof. cbn. intuition discriminate. Qed.

Lemma build_dual_type : forall s s', dual_of s s' -> wordy s ->
  forall fuel, (length (short s) <= fuel)%nat ->
  build_dual (S fuel) (short s) = Ok (short s').
Proof.
  intros s s' D. induction D as [|p s s' D IH|p s s' D IH]; intros W fuel F.
  - reflexivity.
  - destruct (wordy_node _ _ _ W) as (_ & _ & W2).
    inversion W2 as [|? ? Wp W3]; subst. inversion W3 as [|? ? Ws _]; subst.
    cbn [build_dual]. unfold tSend at 1. rewrite (short_not _ _ _ _ no_angle_End).
    unfold tSend in W |- *. rewrite hpc_short by exact W. cbn [map at_ nth_error bind].
    change (seqb (lit "Send") (lit "Recv")) with false. rewrite seqb_refl. cbv iota.
    destruct fuel as [|fuel].
    { exfalso. unfold tSend in F. rewrite short_two, app_length in F. cbn in F. lia. }
    rewrite IH; [|exact Ws|].
    + unfold tRecv. rewrite short_two. reflexivity.
    + unfold tSend in F. rewrite short_two, !app_length in F. cbn in F. lia.
  - destruct (wordy_node _ _ _ W) as (_ & _ & W2).
    inversion W2 as [|? ? Wp W3]; subst. inversion W3 as [|? ? Ws _]; subst.
    cbn [build_dual]. unfold tRecv at 1. rewrite (short_not _ _ _ _ no_angle_End).
    unfold tRecv in W |- *. rewrite hpc_short by exact W. cbn [map at_ nth_error bind].
    rewrite seqb_refl. cbv iota.
    destruct fuel as [|fuel].
    { exfalso. unfold tRecv in F. rewrite short_two, app_length in F. cbn in F. lia. }
    rewrite IH; [|exact Ws|].
    + unfold tSend. rewrite short_two. reflexivity.
    + unfold tRecv in F. rewrite short_two, !app_length in F. cbn in F. lia.
Qed.
