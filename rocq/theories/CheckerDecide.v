(** * Deciding the hypotheses of the theorems on the checker, for the examples *)

From Coq Require Import Ascii String ZArith Lia Bool List.
From Verif Require Import Checker CheckerSpec CheckerText CheckerClean.
Import ListNotations.

Definition wordb (s : str) : bool :=
  match s with [] => false | _ => true end &&
  forallb (fun c => negb (is_sep c) && negb (Ascii.eqb c "&") && negb (Ascii.eqb c ":")) s.

Lemma wordb_ok : forall s, wordb s = true -> word s.
Proof.
  intros s H. apply andb_true_iff in H. destruct H as [H1 H2]. split; [now destruct s|].
  apply Forall_forall. intros c C. rewrite forallb_forall in H2. specialize (H2 c C).
  apply andb_true_iff in H2. destruct H2 as [H2 H3]. apply andb_true_iff in H2. destruct H2 as [H2 H4].
  apply negb_true_iff in H2, H3, H4. rewrite Ascii.eqb_neq in H3, H4. now split.
Qed.

Definition wordyb (t : ty) : bool :=
  forallb (fun h => forallb wordb (fst h) && wordb (snd h)) (heads t).

Lemma wordyb_ok : forall t, wordyb t = true -> wordy t.
Proof.
  intros t H. apply Forall_forall. intros h I. unfold wordyb in H. rewrite forallb_forall in H.
  specialize (H h I). apply andb_true_iff in H. destruct H as [H1 H2]. split; [|now apply wordb_ok].
  apply Forall_forall. intros s S. rewrite forallb_forall in H1. now apply wordb_ok, H1.
Qed.

Fixpoint insideb (p s : str) : bool :=
  match strip p s with Some _ => true | None => false end ||
  match s with [] => false | _ :: s' => insideb p s' end.

Lemma strip_self : forall p r, strip p (p ++ r) = Some r.
Proof. induction p as [|a p IH]; intros r; [reflexivity|]. cbn. now rewrite Ascii.eqb_refl. Qed.

Lemma insideb_ok : forall p s, inside p s -> insideb p s = true.
Proof.
  intros p s (a & b & ->). induction a as [|x a IH].
  - cbn [app]. destruct (p ++ b) eqn:E; cbn [insideb]; rewrite <- E, strip_self; reflexivity.
  - cbn [app insideb]. rewrite IH. apply orb_true_r.
Qed.

Fixpoint namedb (s : str) : bool :=
  match strip (lit "Name") s with Some (c :: _) => is_alpha c | _ => false end ||
  match s with [] => false | _ :: s' => namedb s' end.

Lemma namedb_ok : forall s, namedb s = false -> ~ named s.
Proof.
  intros s H (c & C & a & b & ->). revert H. induction a as [|x a IH]; intros H.
  - change (is_alpha c || namedb (lit "ame" ++ c :: b) = false) in H. now rewrite C in H.
  - cbn [app namedb] in H. apply orb_false_iff in H. now apply IH.
Qed.

Lemma strip_rest : forall p s r, strip p s = Some r -> s = p ++ r.
Proof.
  induction p as [|a p IH]; intros [|b s] r H; try discriminate; cbn in H |- *; try congruence.
  destruct (Ascii.eqb a b) eqn:E; [|discriminate]. apply Ascii.eqb_eq in E. subst. f_equal. now apply IH.
Qed.

Definition apartb (t : ty) : bool :=
  forallb (fun p => forallb (fun q =>
    match fst p with
    | [] => true
    | _ => let a := full_head (fst p) (snd p) in
           let b := full_head (fst q) (snd q) in
           negb (insideb a b) ||
           match strip a b with
           | Some r => forallb (fun c => negb (Ascii.eqb c ":")) r
           | None => false
           end
    end) (heads t)) (heads t).

Lemma apartb_ok : forall t, apartb t = true -> paths_apart t.
Proof.
  intros t H p q P Q Np I. unfold apartb in H. rewrite forallb_forall in H. specialize (H p P).
  rewrite forallb_forall in H. specialize (H q Q). cbv beta in H.
  destruct (fst p) eqn:Ep; [now contradiction Np|]. rewrite <- Ep in *. cbv zeta in H.
  rewrite (insideb_ok _ _ I) in H. cbn [negb orb] in H.
  destruct (strip _ _) as [r|] eqn:E; [|discriminate]. exists r. split; [now apply strip_rest|].
  rewrite forallb_forall in H. intros C. specialize (H _ C). discriminate.
Qed.

Definition tidyb (t : ty) : bool :=
  forallb (fun h => match fst h with [] => true | _ => false end && wordb (snd h)
                    && negb (namedb (snd h))) (heads t).

Lemma tidyb_ok : forall t, tidyb t = true -> tidy t.
Proof.
  intros t H. apply Forall_forall. intros h I. unfold tidyb in H. rewrite forallb_forall in H.
  specialize (H h I). apply andb_true_iff in H. destruct H as [H H3]. apply andb_true_iff in H.
  destruct H as [H1 H2]. repeat split.
  - now destruct (fst h).
  - now apply wordb_ok.
  - now apply wordb_ok.
  - apply namedb_ok. now apply negb_true_iff.
Qed.

Definition fitb (N : list str) : bool :=
  forallb (fun x => match x with [] => false | _ => true end && forallb is_alpha x
                    && negb (namedb x)) N &&
  forallb (fun x => forallb (fun y =>
    match strip x y with Some (_ :: _) => false | _ => true end) N) N.

Lemma fitb_ok : forall N, fitb N = true -> names_fit N.
Proof.
  intros N H. apply andb_true_iff in H. destruct H as [H1 H2]. split.
  - intros x I. rewrite forallb_forall in H1. specialize (H1 x I).
    apply andb_true_iff in H1. destruct H1 as [H1 H3]. apply andb_true_iff in H1. destruct H1 as [H1 H4].
    repeat split.
    + clear -H1. intros ->. discriminate H1.
    + apply Forall_forall. now apply forallb_forall.
    + apply namedb_ok. now apply negb_true_iff.
  - intros x y r X Y ->. rewrite forallb_forall in H2. specialize (H2 x X).
    rewrite forallb_forall in H2. specialize (H2 _ Y). cbv beta in H2. rewrite strip_self in H2.
    now destruct r.
Qed.

(** The plain form of a type. *)
Fixpoint plainf (N : list str) (t : ty) : ty :=
  match t with
  | Node path name args =>
      match args, strip (lit "Name") name with
      | [], Some x => if existsb (seqb x) N
                      then Node [] (role_of x) [Node [] (lit "RoleEnd") []]
                      else Node [] name []
      | _, _ => Node [] name (map (plainf N) args)
      end
  end.

Fixpoint plainb (N : list str) (t : ty) : bool :=
  match t with
  | Node path name args =>
      match args, strip (lit "Name") name with
      | [], Some x => existsb (seqb x) N || negb (namedb name)
      | _, _ => negb (namedb name) && forallb (plainb N) args
      end
  end.

Lemma plainb_ok : forall N t, plainb N t = true -> plain N t (plainf N t).
Proof.
  intros N t. induction t as [path name args IH] using ty_ind'. intros H.
  assert (plain N (Node path name args) (Node [] name (map (plainf N) args)) \/
          (args = [] /\ exists x, strip (lit "Name") name = Some x /\ existsb (seqb x) N = true)) as Z.
  { cbn [plainb] in H. destruct args as [|a args].
    - destruct (strip (lit "Name") name) as [x|] eqn:E.
      + destruct (existsb (seqb x) N) eqn:E2; [right; split; [reflexivity|]; now exists x|].
        left. cbn [orb] in H. apply pl_node; [apply namedb_ok; now apply negb_true_iff|constructor].
      + left. apply andb_true_iff in H. destruct H as [H _].
        apply pl_node; [apply namedb_ok; now apply negb_true_iff|constructor].
    - left. apply andb_true_iff in H. destruct H as [H1 H2].
      apply pl_node; [apply namedb_ok; now apply negb_true_iff|].
      rewrite forallb_forall in H2. clear H1. revert IH H2. generalize (a :: args).
      intros l. induction l as [|b l IHl]; intros IH H2; [constructor|].
      inversion IH; subst. constructor; [apply H1, H2; now left|].
      apply IHl; [assumption|]. intros x X. apply H2. now right. }
  cbn [plainf]. destruct Z as [Z|(-> & x & E & E2)].
  - destruct args as [|a args]; [|exact Z].
    destruct (strip (lit "Name") name) as [x|] eqn:E; [|exact Z].
    destruct (existsb (seqb x) N) eqn:E2; [|exact Z].
    apply strip_rest in E. subst name. apply existsb_exists in E2. destruct E2 as (y & Y & E2).
    apply seqb_true in E2. subst y. now apply pl_name.
  - rewrite E, E2. apply strip_rest in E. subst name. apply existsb_exists in E2.
    destruct E2 as (y & Y & E2). apply seqb_true in E2. subst y. now apply pl_name.
Qed.
