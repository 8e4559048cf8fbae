(** * Deciding the hypotheses of the theorems on enums of branches, for the examples *)

From Coq Require Import Ascii String ZArith Lia Bool List.
From Verif Require Import Checker CheckerSpec CheckerText CheckerClean CheckerDecide CheckerAll
  CheckerLoopSpec CheckerMacro CheckerLoopAll.
Import ListNotations.

Definition memb (x : str) (l : list str) : bool := existsb (seqb x) l.

Lemma memb_ok : forall x l, memb x l = true <-> In x l.
Proof.
  intros x l. unfold memb. rewrite existsb_exists. split.
  - intros (y & I & Q). apply seqb_true in Q. now subst.
  - intros I. exists x. split; [exact I|]. apply seqb_refl.
Qed.

Fixpoint nodupb (l : list str) : bool :=
  match l with [] => true | x :: l' => negb (memb x l') && nodupb l' end.

Lemma nodupb_ok : forall l, nodupb l = true -> NoDup l.
Proof.
  induction l as [|x l IH]; intros H; [constructor|]. cbn [nodupb] in H. apply andb_true_iff in H.
  destruct H as [H1 H2]. constructor; [|now apply IH]. intros I. apply memb_ok in I. now rewrite I in H1.
Qed.

(** The sessions and the stack of a type. *)
Definition conf (N : list str) (t : ty) : config :=
  match plainf N t with
  | Node _ _ args => (firstn (length args - 2) args, nth (length args - 2) args tEnd)
  end.

Definition endpointb (N : list str) (t : ty) : bool :=
  wordyb t && apartb t && plainb N t &&
  match plainf N t with
  | Node [] _ args =>
      (2 <=? length args)%nat &&
      match nth (length args - 1) args tEnd with Node [] _ _ => true | _ => false end
  | _ => false
  end.

Lemma last_two : forall {A} (l : list A) d, (2 <= length l)%nat ->
  l = firstn (length l - 2) l ++ [nth (length l - 2) l d; nth (length l - 1) l d].
Proof.
  intros A l d H. pose proof (firstn_skipn (length l - 2) l) as E.
  assert (skipn (length l - 2) l = [nth (length l - 2) l d; nth (length l - 1) l d]) as S;
    [|now rewrite S in E].
  assert (length (skipn (length l - 2) l) = 2)%nat as L by (rewrite skipn_length; lia).
  destruct (skipn (length l - 2) l) as [|a [|b [|c r]]] eqn:Q; try discriminate L.
  assert (forall k x, nth_error (skipn (length l - 2) l) k = Some x ->
            nth (length l - 2 + k) l d = x) as K.
  { intros k x Hk. apply nth_error_nth. rewrite <- Hk, <- (firstn_skipn (length l - 2) l) at 1.
    rewrite nth_error_app2; [|rewrite firstn_length; lia]. rewrite firstn_length.
    f_equal. lia. }
  rewrite Q in K. pose proof (K 0%nat a eq_refl) as K0. pose proof (K 1%nat b eq_refl) as K1.
  rewrite Nat.add_0_r in K0. replace (length l - 2 + 1)%nat with (length l - 1)%nat in K1 by lia.
  now rewrite K0, K1.
Qed.

Lemma endpointb_ok : forall N t, endpointb N t = true -> endpoint N t (conf N t).
Proof.
  intros N t H. unfold endpointb in H. apply andb_true_iff in H. destruct H as [H H4].
  apply andb_true_iff in H. destruct H as [H H3]. apply andb_true_iff in H. destruct H as [H1 H2].
  split; [now apply wordyb_ok|]. split; [now apply apartb_ok|].
  pose proof (plainb_ok N t H3) as P. unfold conf. destruct (plainf N t) as [path mc args].
  destruct path; [|discriminate H4]. apply andb_true_iff in H4. destruct H4 as [L H4].
  apply Nat.leb_le in L. destruct (nth (length args - 1) args tEnd) as [q r a] eqn:Q.
  destruct q; [|discriminate H4]. exists mc, r, a. cbn [fst snd]. rewrite <- Q.
  rewrite <- (last_two args tEnd L). exact P.
Qed.

(** The tables, from the types. *)
Definition etable (N : list str) (carried : str -> str -> ty) (enums : list (str * list str)) : enum_table :=
  map (fun e => (fst e, map (fun b => (b, conf N (carried (fst e) b))) (snd e))) enums.
Definition ltable (N : list str) (lines : list macro_line) : line_table :=
  map (fun l => (conf N (fst l), snd l)) lines.

Definition pairb (e b : str) (l : list (str * str)) : bool :=
  existsb (fun v => seqb e (fst v) && seqb b (snd v)) l.

Lemma pairb_ok : forall e b l, pairb e b l = true <-> In (e, b) l.
Proof.
  intros e b l. unfold pairb. rewrite existsb_exists. split.
  - intros ([e' b'] & I & Q). apply andb_true_iff in Q. cbn in Q. destruct Q as [Q1 Q2].
    apply seqb_true in Q1, Q2. now subst.
  - intros I. exists (e, b). split; [exact I|]. cbn. now rewrite !seqb_refl.
Qed.

Definition tablesb (N : list str) (carried : str -> str -> ty) (lines : list macro_line)
    (enums : list (str * list str)) : bool :=
  let pairs := concat (map snd lines) in
  forallb (fun l => endpointb N (fst l)) lines &&
  nodupb (map fst enums) && nodupb (map branch_key pairs) &&
  forallb (fun e =>
    nodupb (snd e) && match snd e with [] => false | _ => true end &&
    forallb (fun b => pairb (fst e) b pairs && endpointb N (carried (fst e) b) &&
      negb (namedb (match carried (fst e) b with Node path name _ => full_head path name end))) (snd e)) enums &&
  forallb (fun v => existsb (fun e => seqb (fst v) (fst e)) enums &&
                    forallb (fun e => negb (seqb (fst v) (fst e)) || memb (snd v) (snd e)) enums) pairs.

Lemma tablesb_ok : forall N carried lines enums, tablesb N carried lines enums = true ->
  declared N carried lines (etable N carried enums) (ltable N lines) /\
  well_listed (etable N carried enums) (ltable N lines).
Proof.
  intros N carried lines enums H. unfold tablesb in H. cbv zeta in H.
  apply andb_true_iff in H. destruct H as [H H5]. apply andb_true_iff in H. destruct H as [H H4].
  apply andb_true_iff in H. destruct H as [H H3]. apply andb_true_iff in H. destruct H as [H1 H2].
  rewrite forallb_forall in H1, H4, H5. apply nodupb_ok in H2, H3.
  assert (map snd (ltable N lines) = map snd lines) as Ms.
  { unfold ltable. rewrite map_map. reflexivity. }
  assert (map fst (etable N carried enums) = map fst enums) as Mf.
  { unfold etable. rewrite map_map. reflexivity. }
  assert (forall e vs, In (e, vs) (etable N carried enums) -> exists bs, In (e, bs) enums /\
            vs = map (fun b => (b, conf N (carried e b))) bs) as Ie.
  { intros e vs I. unfold etable in I. apply in_map_iff in I. destruct I as ([e' bs] & Q & I).
    cbn in Q. injection Q as -> <-. now exists bs. }
  assert (forall e bs, In (e, bs) enums -> NoDup bs /\ bs <> [] /\ forall b, In b bs ->
            In (e, b) (concat (map snd lines)) /\ endpoint N (carried e b) (conf N (carried e b)) /\
            ~ named (match carried e b with Node path name _ => full_head path name end)) as He.
  { intros e bs I. specialize (H4 _ I). cbn [fst snd] in H4. apply andb_true_iff in H4.
    destruct H4 as [H4 H6]. apply andb_true_iff in H4. destruct H4 as [H4 H7].
    split; [now apply nodupb_ok|]. split; [intros ->; discriminate H7|]. intros b J.
    rewrite forallb_forall in H6. specialize (H6 b J). apply andb_true_iff in H6. destruct H6 as [H6 H8].
    apply andb_true_iff in H6. destruct H6 as [H6 H9].
    split; [now apply pairb_ok|]. split; [now apply endpointb_ok|].
    apply namedb_ok. now apply negb_true_iff. }
  assert (forall e b bs, In (e, b) (concat (map snd lines)) -> In (e, bs) enums -> In b bs) as Hb.
  { intros e b bs I J. specialize (H5 _ I). cbn [fst snd] in H5. apply andb_true_iff in H5.
    destruct H5 as [_ H5]. rewrite forallb_forall in H5. specialize (H5 _ J). cbn [fst snd] in H5.
    rewrite seqb_refl in H5. now apply memb_ok. }
  split; split.
  - unfold ltable. clear -H1. induction lines as [|l lines IH]; [constructor|]. cbn [map]. constructor.
    + cbn [fst snd]. split; [reflexivity|]. apply endpointb_ok, H1. now left.
    + apply IH. intros x I. apply H1. now right.
  - intros e. rewrite Mf. split.
    + intros I. apply in_map_iff in I. destruct I as ([e' bs] & <- & I). cbn [fst].
      destruct (He e' bs I) as (_ & NE & K). destruct bs as [|b bs]; [congruence|].
      apply in_map_iff. exists (e', b). split; [reflexivity|]. apply K. now left.
    + intros I. apply in_map_iff in I. destruct I as ([e' b] & <- & I). cbn [fst].
      specialize (H5 _ I). apply andb_true_iff in H5. destruct H5 as [H5 _]. cbn [fst] in H5.
      apply existsb_exists in H5. destruct H5 as (x & Ix & Q). apply seqb_true in Q. rewrite Q. now apply in_map.
  - intros e vs I. destruct (Ie e vs I) as (bs & J & ->). destruct (He e bs J) as (D & _ & K).
    rewrite map_map. cbn [fst]. rewrite map_id. split; [exact D|]. intros b. split.
    + intros Ib. now apply K.
    + intros Ib. exact (Hb e b bs Ib J).
  - intros e vs b c I J. destruct (Ie e vs I) as (bs & Jb & ->). apply in_map_iff in J.
    destruct J as (b' & Q & J). injection Q as -> <-. destruct (He e bs Jb) as (_ & _ & K). now apply K.
  - rewrite Mf. exact H2.
  - rewrite Ms. exact H3.
  - intros e vs b v I J. destruct (Ie e vs I) as (bs & Jb & ->). apply in_map_iff in J.
    destruct J as (b' & Q & J). injection Q as -> _. rewrite Ms. destruct (He e bs Jb) as (_ & _ & K). now apply K.
Qed.

Definition togetherb (G : line_table) (k k' : str) : bool :=
  existsb (fun l => memb k (names_of (snd l)) && memb k' (names_of (snd l))) G.

Lemma togetherb_ok : forall G k k', together G k k' -> togetherb G k k' = true.
Proof.
  intros G k k' (c & vs & I & J & J'). unfold togetherb. apply existsb_exists. exists (c, vs).
  split; [exact I|]. cbn [snd]. apply memb_ok in J, J'. now rewrite J, J'.
Qed.
