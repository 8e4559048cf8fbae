(** * Tables: maps whose keys are known *)

From Coq Require Import Ascii String ZArith Bool Lia List.
From Verif Require Import Checker CheckerText Nuscr NuscrSpec.
Import ListNotations.

(** A map with the keys [o]. *)
Definition tab {A} (o : list str) (f : str -> A) : hmap A := map (fun a => (a, f a)) o.
Definition others (a : str) (i : list str) : list str := filter (fun r => negb (seqb r a)) i.
(** A map with the keys [o], whose values have the other keys [i]. *)
Definition tab2 {A} (o i : list str) (f : str -> str -> A) : hmap (hmap A) :=
  tab o (fun a => tab (others a i) (f a)).

Lemma in_others a b i : In b (others a i) <-> In b i /\ b <> a.
Proof.
  unfold others. rewrite filter_In, negb_true_iff. split; intros [H1 H2]; split; auto.
  - intros ->. now rewrite seqb_refl in H2.
  - now apply seqb_false.
Qed.
Lemma nodup_others a i : NoDup i -> NoDup (others a i).
Proof. apply NoDup_filter. Qed.

Lemma hget_tab {A} (o : list str) (f : str -> A) a : In a o -> hget (tab o f) a = Some (f a).
Proof.
  induction o as [|x o IH]; [easy|]. intros [->|H]; cbn; [now rewrite seqb_refl|].
  destruct (seqb x a) eqn:E; [apply seqb_true in E; now subst|auto].
Qed.
Lemma hget_tab_some {A} (o : list str) (f : str -> A) a x :
  hget (tab o f) a = Some x -> In a o /\ x = f a.
Proof.
  induction o as [|y o IH]; [easy|]. cbn.
  destruct (seqb y a) eqn:E.
  - apply seqb_true in E. subst. intros [= <-]. auto.
  - intros H. apply IH in H as [H1 H2]. auto.
Qed.
Lemma tab_ext {A} (o : list str) (f f' : str -> A) :
  (forall a, In a o -> f a = f' a) -> tab o f = tab o f'.
Proof. intros H. apply map_ext_in. intros a Ha. now rewrite H. Qed.
Lemma tab2_ext {A} (o i : list str) (f f' : str -> str -> A) :
  (forall a b, In a o -> In b i -> b <> a -> f a b = f' a b) -> tab2 o i f = tab2 o i f'.
Proof.
  intros H. apply tab_ext. intros a Ha. apply tab_ext. intros b Hb. apply in_others in Hb as [? ?].
  now apply H.
Qed.
Lemma hset_tab {A} (o : list str) (f : str -> A) a x :
  NoDup o -> In a o -> hset a x (tab o f) = tab o (fun y => if seqb y a then x else f y).
Proof.
  induction o as [|y o IH]; [easy|]. intros N [->|H]; inversion N; subst; cbn.
  - rewrite seqb_refl. f_equal. apply tab_ext. intros b Hb.
    destruct (seqb b a) eqn:E; [apply seqb_true in E; now subst|easy].
  - destruct (seqb y a) eqn:E; [apply seqb_true in E; now subst|]. f_equal. now apply IH.
Qed.
Lemma hset_tab2 {A} (o i : list str) (f : str -> str -> A) a b x :
  NoDup o -> NoDup i -> In a o -> In b i -> b <> a ->
  hset a (hset b x (tab (others a i) (f a))) (tab2 o i f) =
  tab2 o i (fun y z => if seqb y a && seqb z b then x else f y z).
Proof.
  intros No Ni Ha Hb Hn. unfold tab2. rewrite hset_tab by auto. apply tab_ext. intros y Hy.
  destruct (seqb y a) eqn:E; cbn.
  - apply seqb_true in E. subst. rewrite hset_tab; auto.
    + now apply nodup_others.
    + now apply in_others.
  - easy.
Qed.

Lemma hset_fresh {A} (k : str) (a : A) (m : hmap A) : ~ In k (map fst m) -> hset k a m = m ++ [(k, a)].
Proof.
  induction m as [|[k' a'] m IH]; [easy|]. cbn. intros H.
  destruct (seqb k' k) eqn:E; [apply seqb_true in E; subst; tauto|]. f_equal. tauto.
Qed.
Lemma fold_hset {A} (f : str -> A) l m :
  NoDup l -> (forall k, In k l -> ~ In k (map fst m)) ->
  fold_left (fun m r => hset r (f r) m) l m = m ++ tab l f.
Proof.
  revert m. induction l as [|x l IH]; intros m N F; cbn; [now rewrite app_nil_r|].
  inversion N; subst. rewrite hset_fresh by (apply F; now left). rewrite IH; auto.
  - now rewrite <- app_assoc.
  - intros k Hk. rewrite map_app, in_app_iff. cbn. intros [G|[->|[]]]; [|easy].
    apply (F k); [now right|easy].
Qed.
Lemma fold_hset_tab {A} (f : str -> A) l : NoDup l -> fold_left (fun m r => hset r (f r) m) l [] = tab l f.
Proof. intros N. now rewrite fold_hset by (auto; easy). Qed.

Lemma fold_proj {T X A} (P : T -> X) (f : T -> A -> T) (g : X -> A -> X) (l : list A) t :
  (forall t a, P (f t a) = g (P t) a) -> P (fold_left f l t) = fold_left g l (P t).
Proof.
  intros H. revert t. induction l as [|a l IH]; intros t; cbn; [easy|]. now rewrite IH, H.
Qed.

Lemma map_tab {A B} (o : list str) (f : str -> A) (g : str -> A -> B) :
  map (fun e => (fst e, g (fst e) (snd e))) (tab o f) = tab o (fun a => g a (f a)).
Proof. unfold tab. now rewrite map_map. Qed.

(** ** The result monad *)

Lemma gbind_fine {A B} (m : gres A) (k : A -> gres B) b :
  gbind m k = Fine b -> exists a, m = Fine a /\ k a = Fine b.
Proof. destruct m; cbn; try easy. eauto. Qed.
Lemma unwrap_fine {A} (o : option A) a : unwrap o = Fine a -> o = Some a.
Proof. destruct o; cbn; now intros [=->]. Qed.
