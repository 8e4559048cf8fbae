(** Proofs about Branching.v. *)
From Coq Require Import Arith Bool String Ascii NArith Lia Sorted Permutation List.
From Verif Require Import Branching.
Import ListNotations.
Open Scope list_scope.

(** ** The order of strings *)

Lemma ascii_compare_trans : forall a b c, Ascii.compare a b = Lt -> Ascii.compare b c = Lt -> Ascii.compare a c = Lt.
Proof. intros a b c. unfold Ascii.compare. rewrite !N.compare_lt_iff. lia. Qed.
Lemma ascii_compare_refl : forall a, Ascii.compare a a = Eq.
Proof. intros a. unfold Ascii.compare. apply N.compare_refl. Qed.

Lemma compare_trans : forall a b c, String.compare a b = Lt -> String.compare b c = Lt -> String.compare a c = Lt.
Proof.
  induction a as [|x a IH]; intros [|y b] [|z c]; cbn; try discriminate; auto.
  destruct (Ascii.compare x y) eqn:E1; try discriminate; destruct (Ascii.compare y z) eqn:E2; try discriminate; intros H1 H2.
  - apply Ascii.compare_eq_iff in E1. apply Ascii.compare_eq_iff in E2. subst. rewrite ascii_compare_refl. eauto.
  - apply Ascii.compare_eq_iff in E1. subst. rewrite E2. reflexivity.
  - apply Ascii.compare_eq_iff in E2. subst. rewrite E1. reflexivity.
  - rewrite (ascii_compare_trans _ _ _ E1 E2). reflexivity.
Qed.

Lemma compare_refl : forall a, String.compare a a = Eq.
Proof. induction a as [|x a IH]; cbn; [reflexivity|]. rewrite ascii_compare_refl. exact IH. Qed.

(** The order of the model as a relation. Specification only. *)
Definition lt (a b : string) : Prop := smaller a b = true.
Definition le (a b : string) : Prop := a = b \/ lt a b.

Lemma lt_compare : forall a b, lt a b <-> String.compare a b = Lt.
Proof. intros a b. unfold lt, smaller. destruct (String.compare a b); split; congruence. Qed.
Lemma lt_trans : forall a b c, lt a b -> lt b c -> lt a c.
Proof. intros a b c. rewrite !lt_compare. apply compare_trans. Qed.
Lemma lt_irrefl : forall a, ~ lt a a.
Proof.
  intros a H. apply lt_compare in H. assert (String.compare a a = Eq) as E by (apply compare_refl). congruence.
Qed.
Lemma lt_total : forall a b, lt a b \/ a = b \/ lt b a.
Proof.
  intros a b. rewrite !lt_compare. destruct (String.compare a b) eqn:E; auto.
  - right. left. apply String.compare_eq_iff. exact E.
  - right. right. rewrite String.compare_antisym, E. reflexivity.
Qed.
Lemma not_lt : forall a b, smaller a b = false <-> le b a.
Proof.
  intros a b. split.
  - intros H. destruct (lt_total a b) as [H1|[H1|H1]]; [unfold lt in H1; congruence|left; auto|right; exact H1].
  - intros H. destruct (smaller a b) eqn:E; auto. exfalso. destruct H as [->|H]; [exact (lt_irrefl _ E)|].
    exact (lt_irrefl _ (lt_trans _ _ _ H E)).
Qed.
Lemma le_trans : forall a b c, le a b -> le b c -> le a c.
Proof.
  intros a b c [->|H1] [->|H2]; unfold le; auto. right. exact (lt_trans _ _ _ H1 H2).
Qed.
Lemma le_lt_trans : forall a b c, le a b -> lt b c -> lt a c.
Proof. intros a b c [->|H1] H2; auto. exact (lt_trans _ _ _ H1 H2). Qed.
Lemma lt_le_trans : forall a b c, lt a b -> le b c -> lt a c.
Proof. intros a b c H1 [<-|H2]; auto. exact (lt_trans _ _ _ H1 H2). Qed.

(** ** Sorted lists *)

Notation sorted := (StronglySorted le).

Lemma sorted_app : forall a b, sorted (a ++ b) <-> sorted a /\ sorted b /\ (forall x y, In x a -> In y b -> le x y).
Proof.
  induction a as [|x a IH]; intros b; cbn.
  - split; [intros H; split; [constructor|split; [exact H|intros x y []]]|tauto].
  - split.
    + intros H. inversion H as [|? ? H1 H2]; subst. apply IH in H1. destruct H1 as (H1 & H3 & H4).
      rewrite Forall_forall in H2. split; [constructor; [exact H1|apply Forall_forall; intros y Hy; apply H2; apply in_or_app; auto]|].
      split; [exact H3|]. intros y z [<-|Hy] Hz; [apply H2; apply in_or_app; auto|auto].
    + intros (H1 & H2 & H3). inversion H1 as [|? ? H4 H5]; subst. constructor.
      * apply IH. split; [exact H4|]. split; [exact H2|]. intros y z Hy Hz. apply H3; auto.
      * rewrite Forall_forall in *. intros y Hy. apply in_app_or in Hy. destruct Hy; auto.
Qed.

Lemma last_in : forall (l : list string) d, l <> [] -> In (last l d) l.
Proof. induction l as [|x [|y l] IH]; intros d H; cbn; try congruence; auto. right. apply IH. discriminate. Qed.

Lemma last_greatest : forall l d x, sorted l -> In x l -> le x (last l d).
Proof.
  intros l d x H Hx. destruct l as [|a l] using rev_ind; [destruct Hx|]. rewrite last_last.
  apply sorted_app in H. destruct H as (_ & _ & H). apply in_app_or in Hx. destruct Hx as [Hx|[<-|[]]]; [apply H; cbn; auto|left; auto].
Qed.

Lemma sorted_snoc : forall l x, sorted l -> (l = [] \/ le (last l EmptyString) x) -> sorted (l ++ [x]).
Proof.
  intros l x H H1. apply sorted_app. split; [exact H|]. split; [repeat constructor|]. intros y z Hy [<-|[]].
  destruct H1 as [->|H1]; [destruct Hy|]. eapply le_trans; [apply last_greatest; eassumption|exact H1].
Qed.

(** ** Searching *)

(** The names of a sorted list that are smaller come first. *)
Lemma sorted_split : forall l v, sorted l -> exists a b, l = a ++ b /\ (forall x, In x a -> lt x v) /\ (forall x, In x b -> le v x) /\
  filter (fun x => smaller x v) l = a.
Proof.
  induction l as [|y l IH]; intros v H.
  - exists [], []. split; [reflexivity|]. split; [intros x []|]. split; [intros x []|reflexivity].
  - inversion H as [|? ? H1 H2]; subst. rewrite Forall_forall in H2. destruct (smaller y v) eqn:E.
    + destruct (IH v H1) as (a & b & -> & Ha & Hb & Hf). exists (y :: a), b. split; [reflexivity|]. split; [|split; [exact Hb|]].
      * intros x [<-|Hx]; [exact E|auto].
      * cbn [filter]. rewrite E, Hf. reflexivity.
    + apply not_lt in E. assert (forall x, In x (y :: l) -> le v x) as Hall.
      { intros x [<-|Hx]; [exact E|]. eapply le_trans; [exact E|auto]. }
      exists [], (y :: l). split; [reflexivity|]. split; [intros x []|]. split; [exact Hall|].
      assert (forall m, (forall x, In x m -> le v x) -> filter (fun x => smaller x v) m = []) as Hn.
      { induction m as [|z m IHm]; intros Hm; cbn; [reflexivity|]. rewrite (proj2 (not_lt z v) (Hm z (or_introl eq_refl))).
        apply IHm. intros x Hx. apply Hm. right. exact Hx. }
      apply Hn. exact Hall.
Qed.

Lemma search_none : forall l v, binary_search l v = None <-> In v l.
Proof.
  intros l v. unfold binary_search. destruct (existsb (String.eqb v) l) eqn:E.
  - apply existsb_exists in E. destruct E as (x & Hx & E). apply String.eqb_eq in E. subst. tauto.
  - split; [discriminate|]. intros H. assert (existsb (String.eqb v) l = true); [|congruence].
    apply existsb_exists. exists v. split; [exact H|apply String.eqb_refl].
Qed.

(** The name found is the first one that is greater. *)
Lemma search_some : forall l v, sorted l -> ~ In v l -> lt v (last l EmptyString) -> l <> [] ->
  exists a g b i, l = a ++ g :: b /\ (forall x, In x a -> lt x v) /\ lt v g /\ (forall x, In x b -> lt v x) /\
    binary_search l v = Some i /\ nth_error l i = Some g.
Proof.
  intros l v Hs Hn Hl Hne. destruct (sorted_split l v Hs) as (a & b & -> & Ha & Hb & Hf). destruct b as [|g b].
  - exfalso. rewrite app_nil_r in Hl, Hne. pose proof (Ha _ (last_in a EmptyString Hne)) as H.
    exact (lt_irrefl _ (lt_trans _ _ _ H Hl)).
  - assert (forall x, In x (g :: b) -> lt v x) as Hb'.
    { intros x Hx. destruct (Hb x Hx) as [->|H]; [|exact H]. exfalso. apply Hn. apply in_or_app. auto. }
    exists a, g, b, (List.length a). split; [reflexivity|]. split; [exact Ha|]. split; [apply Hb'; cbn; auto|].
    split; [intros x Hx; apply Hb'; cbn; auto|]. split.
    + destruct (binary_search (a ++ g :: b) v) eqn:E; [|apply search_none in E; contradiction].
      unfold binary_search in E. rewrite Hf in E. destruct (existsb _ _); congruence.
    + rewrite nth_error_app2, Nat.sub_diag by lia. reflexivity.
Qed.

(** ** The check *)

Lemma check_sorted : forall vs names, sorted (names ++ vs) -> check_variants names vs = Accepted.
Proof.
  induction vs as [|v vs IH]; intros names H; cbn; [reflexivity|].
  replace (match names with [] => false | _ => smaller v (last names EmptyString) end) with false.
  - apply IH. rewrite <- app_assoc. exact H.
  - destruct names as [|x names]; [reflexivity|]. symmetry. apply not_lt. apply sorted_app in H. destruct H as (_ & _ & H).
    apply H; [apply last_in; discriminate|cbn; auto].
Qed.

(** Specification only: [vs] is sorted up to [v], which is smaller than the name before it. *)
Definition descends (vs pre : list string) (v : string) (rest : list string) : Prop :=
  vs = pre ++ v :: rest /\ sorted pre /\ pre <> [] /\ lt v (last pre EmptyString).

Lemma check_cases : forall vs names, sorted names ->
  (sorted (names ++ vs) /\ check_variants names vs = Accepted) \/
  exists pre v rest, descends (names ++ vs) pre v rest /\
    ((In v pre /\ check_variants names vs = Panics) \/
     exists a g b, pre = a ++ g :: b /\ (forall x, In x a -> lt x v) /\ lt v g /\ (forall x, In x b -> lt v x) /\
       check_variants names vs = Rejected (v ++ " should sort before " ++ g)).
Proof.
  induction vs as [|v vs IH]; intros names Hs.
  - left. rewrite app_nil_r. split; [exact Hs|reflexivity].
  - cbn [check_variants]. destruct (match names with [] => false | _ => smaller v (last names EmptyString) end) eqn:E.
    + right. exists names, v, vs. assert (names <> []) as Hne by (destruct names; discriminate).
      assert (lt v (last names EmptyString)) as Hl by (destruct names; [discriminate|exact E]).
      split; [split; [reflexivity|split; [exact Hs|split; [exact Hne|exact Hl]]]|].
      destruct (binary_search names v) as [i|] eqn:Eb.
      * right. assert (~ In v names) as Hn by (intros Hx; apply search_none in Hx; congruence).
        destruct (search_some names v Hs Hn Hl Hne) as (a & g & b & i' & H1 & H2 & H3 & H4 & H5 & H6). rewrite Eb in H5. inversion H5; subst i'.
        rewrite H6. exists a, g, b. split; [exact H1|]. split; [exact H2|]. split; [exact H3|]. split; [exact H4|reflexivity].
      * left. split; [apply search_none; exact Eb|reflexivity].
    + assert (sorted (names ++ [v])) as Hs'.
      { apply sorted_snoc; [exact Hs|]. destruct names; [left; reflexivity|right; apply not_lt; exact E]. }
      destruct (IH _ Hs') as [(H & HA)|(pre & w & rest & (H & H0) & HC)]; rewrite <- app_assoc in H; cbn [app] in H.
      * left. split; [exact H|exact HA].
      * right. exists pre, w, rest. split; [split; [exact H|exact H0]|exact HC].
Qed.
