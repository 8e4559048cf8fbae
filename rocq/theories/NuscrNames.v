(** * The names of the declarations are distinct *)

From Coq Require Import Ascii String ZArith Bool Lia Permutation DecimalString DecimalNat List.
From Verif Require Import Checker CheckerText CheckerAll Nuscr NuscrSpec NuscrMaps NuscrTree NuscrRun NuscrFile.
Import ListNotations.

Lemma lit_inj s s' : lit s = lit s' -> s = s'.
Proof.
  intros H. rewrite <- (string_of_list_ascii_of_string s), <- (string_of_list_ascii_of_string s').
  f_equal. exact H.
Qed.
Lemma num_inj n n' : num n = num n' -> n = n'.
Proof.
  intros H. apply lit_inj in H.
  assert (Some (Nat.to_uint n) = Some (Nat.to_uint n')) as E.
  { now rewrite <- (NilEmpty.usu (Nat.to_uint n)), <- (NilEmpty.usu (Nat.to_uint n')), H. }
  injection E as E. rewrite <- (Unsigned.of_to n), <- (Unsigned.of_to n'). now rewrite E.
Qed.

Lemma uint_chars d c : In c (lit (NilEmpty.string_of_uint d)) -> (48 <= nat_of_ascii c <= 57)%nat.
Proof.
  induction d; cbn [NilEmpty.string_of_uint lit list_ascii_of_string In]; [easy|..];
    (intros [<-|H]; [cbn; lia|auto]).
Qed.
Lemma num_chars n c : In c (num n) -> (48 <= nat_of_ascii c <= 57)%nat.
Proof. apply uint_chars. Qed.

Lemma part_text_chars i c : In c (part_text i) -> (48 <= nat_of_ascii c <= 57)%nat \/ c = "_"%char.
Proof.
  destruct i as [i|]; unfold part_text.
  - rewrite in_app_iff. intros [H|H]; [|left; now apply num_chars in H].
    destruct H as [<-|[<-|[]]]; [left; cbn; lia|now right].
  - intros [<-|[]]. left. cbn. lia.
Qed.
Lemma part_text_inj i i' : part_text i = part_text i' -> i = i'.
Proof.
  destruct i as [i|], i' as [i'|]; unfold part_text; intros H; try discriminate; [|easy].
  injection H as H. now apply num_inj in H as ->.
Qed.

(** Cutting at the first occurrence of a character. *)
Lemma cut_char (c : ascii) u u' w w' :
  ~ In c u -> ~ In c u' -> u ++ c :: w = u' ++ c :: w' -> u = u' /\ w = w'.
Proof.
  revert u'. induction u as [|x u IH]; intros [|y u'] H H' E; cbn [app] in E.
  - injection E as E. auto.
  - injection E as E1 E2. subst y. exfalso. apply H'. now left.
  - injection E as E1 E2. subst x. exfalso. apply H. now left.
  - injection E as E1 E2. subst y. destruct (IH u') as [-> ->]; auto.
    + intros G. apply H. now right.
    + intros G. apply H'. now right.
Qed.

(** A role whose name contains "To". *)
Definition has_to (r : str) : Prop := exists u v, r = u ++ lit "To" ++ v.

Lemma cut_to a a' b b' :
  ~ has_to a -> ~ has_to a' -> a ++ lit "To" ++ b = a' ++ lit "To" ++ b' -> a = a' /\ b = b'.
Proof.
  assert (forall a a' b b' l, ~ has_to a -> a = a' ++ l -> lit "To" ++ b' = l ++ lit "To" ++ b ->
    a = a' /\ b = b') as Half.
  { intros x x' y y' l Hx -> E. destruct l as [|c l].
    - cbn in E. injection E as ->. now rewrite app_nil_r.
    - cbn in E. injection E as <- E. destruct l as [|c' l]; cbn in E; [discriminate|].
      injection E as <- E. exfalso. apply Hx. exists x', l. reflexivity. }
  intros Ha Ha' E. apply app_eq_app in E as (l & [[E1 E2]|[E1 E2]]).
  - now apply (Half a a' b b' l).
  - destruct (Half a' a b' b l) as [-> ->]; auto.
Qed.

Lemma message_name_inj i i' k k' a a' b b' :
  ~ has_to a -> ~ has_to a' ->
  message_name (part_text i) k a b = message_name (part_text i') k' a' b' ->
  i = i' /\ k = k' /\ a = a' /\ b = b'.
Proof.
  intros Ha Ha' H. unfold message_name in H. apply app_inv_head in H.
  assert (forall j (w : str), part_text j ++ lit "_v_" ++ w = (part_text j ++ lit "_") ++ "v"%char :: lit "_" ++ w)
    as R by (intros; now rewrite <- app_assoc).
  rewrite !R in H. clear R.
  apply cut_char in H as [H1 H2].
  2,3: rewrite in_app_iff; intros [G|[G|[]]]; [apply part_text_chars in G as [G|G]; [cbn in G; lia|discriminate]|discriminate].
  apply app_inv_tail in H1. apply part_text_inj in H1 as ->. apply app_inv_head in H2.
  change (lit "_From") with ("_"%char :: lit "From") in H2. cbn [app] in H2.
  apply cut_char in H2 as [H1 H2].
  2,3: intros G; apply num_chars in G; cbn in G; lia.
  apply num_inj in H1 as ->. apply app_inv_head in H2. apply cut_to in H2 as [-> ->]; auto.
Qed.

Lemma ordering_name_inj i i' k k' a a' :
  ordering_name (part_text i) k a = ordering_name (part_text i') k' a' -> i = i' /\ k = k' /\ a = a'.
Proof.
  intros H. unfold ordering_name in H. apply app_inv_head in H.
  assert (forall j (w : str), part_text j ++ lit "_v_" ++ w = (part_text j ++ lit "_") ++ "v"%char :: lit "_" ++ w)
    as R by (intros; now rewrite <- app_assoc).
  rewrite !R in H. clear R.
  apply cut_char in H as [H1 H2].
  2,3: rewrite in_app_iff; intros [G|[G|[]]]; [apply part_text_chars in G as [G|G]; [cbn in G; lia|discriminate]|discriminate].
  apply app_inv_tail in H1. apply part_text_inj in H1 as ->. apply app_inv_head in H2.
  change (lit "_For") with ("_"%char :: lit "For") in H2. cbn [app] in H2.
  apply cut_char in H2 as [H1 H2].
  2,3: intros G; apply num_chars in G; cbn in G; lia.
  apply num_inj in H1 as ->. apply app_inv_head in H2 as ->. auto.
Qed.

Lemma endpoint_name_inj i i' a a' :
  endpoint_name (part_text i) a = endpoint_name (part_text i') a' -> i = i' /\ a = a'.
Proof.
  intros H. unfold endpoint_name in H. apply app_inv_head in H.
  assert (forall j (w : str), part_text j ++ lit "_For" ++ w = (part_text j ++ lit "_") ++ "F"%char :: lit "or" ++ w)
    as R by (intros; now rewrite <- app_assoc).
  rewrite !R in H. clear R.
  apply cut_char in H as [H1 H2].
  2,3: rewrite in_app_iff; intros [G|[G|[]]]; [apply part_text_chars in G as [G|G]; [cbn in G; lia|discriminate]|discriminate].
  apply app_inv_tail in H1. apply part_text_inj in H1 as ->. apply app_inv_head in H2 as ->. auto.
Qed.

(** ** No name is declared twice *)

Lemma nodup_app {A} (l l' : list A) :
  NoDup l -> NoDup l' -> (forall x, In x l -> In x l' -> False) -> NoDup (l ++ l').
Proof.
  induction l as [|a l IH]; intros N N' D; [easy|]. inversion N; subst. cbn. constructor.
  - rewrite in_app_iff. intros [H|H]; [easy|]. apply (D a); [now left|easy].
  - apply IH; auto. intros x Hx Hx'. apply (D x); [now right|easy].
Qed.

Lemma nodup_flat_map {A B} (F : A -> list B) l :
  NoDup l -> (forall a, In a l -> NoDup (F a)) ->
  (forall a a' x, In a l -> In a' l -> In x (F a) -> In x (F a') -> a = a') ->
  NoDup (flat_map F l).
Proof.
  induction l as [|a l IH]; intros N H D; [constructor|]. cbn [flat_map]. inversion N; subst.
  apply nodup_app.
  - apply H. now left.
  - apply IH; auto; intros; [apply H|eapply D; eauto]; now right.
  - intros x Hx Hx'. apply in_flat_map in Hx' as (a' & Ha' & Hx').
    assert (a = a') by (eapply D; eauto; [now left|now right]). congruence.
Qed.

Lemma map_flat_map {A B C} (f : B -> C) (F : A -> list B) l :
  map f (flat_map F l) = flat_map (fun a => map f (F a)) l.
Proof. induction l as [|a l IH]; [reflexivity|]. cbn. now rewrite map_app, IH. Qed.

Section Title.
  Variable title : str -> str.

  Lemma number_messages_names ix k a b l :
    map fst (number_messages title ix k a b l) = map (fun j => message_name ix j a b) (seq k (length l)).
  Proof. revert k. induction l as [|[d m] l IH]; intros k; cbn; [reflexivity|]. now rewrite IH. Qed.
  Lemma number_stacks_names ix k a l :
    map fst (number_stacks ix k a l) = map (fun j => ordering_name ix j a) (seq k (length l)).
  Proof. revert k. induction l as [|r l IH]; intros k; cbn; [reflexivity|]. now rewrite IH. Qed.

  Lemma session_block_names ix ms ch a b :
    map fst (session_block title ix ms ch a b) =
    map (fun j => message_name ix j a b) (seq 0 (S (length (proj a b ms)))).
  Proof.
    unfold session_block. rewrite map_app, number_messages_names, seq_S, map_app. reflexivity.
  Qed.
  Lemma stack_block_names ix ms ch a :
    map fst (stack_block ix ms ch a) =
    map (fun j => ordering_name ix j a) (seq 0 (S (length (partners a ms)))).
  Proof. unfold stack_block. rewrite map_app, number_stacks_names, seq_S, map_app. reflexivity. Qed.

  Definition clean (p : proto) : Prop := NoDup (p_roles p) /\ forall r, In r (p_roles p) -> ~ has_to r.

  Lemma order_nodup p i : NoDup (p_roles p) -> NoDup (order_of p i).
  Proof. destruct i; cbn; [apply sort_nodup|auto]. Qed.
  Lemma order_in p i a : In a (order_of p i) <-> In a (p_roles p).
  Proof. destruct i; cbn; [symmetry; apply sort_in|reflexivity]. Qed.

  Lemma parts_nodup p : NoDup (parts p).
  Proof.
    unfold parts. constructor.
    - destruct (ending p) as [[[s b] bs]|]; [|easy]. rewrite <- in_rev, in_map_iff.
      intros (j & [=] & _).
    - destruct (ending p) as [[[s b] bs]|]; [|constructor]. apply NoDup_rev.
      apply FinFun.Injective_map_NoDup; [intros x y; congruence|apply seq_NoDup].
  Qed.

  Lemma in_part_sessions_name p i x :
    In x (map fst (part_sessions title p i)) ->
    exists k a b, In a (p_roles p) /\ In b (p_roles p) /\ x = message_name (part_text i) k a b.
  Proof.
    unfold part_sessions. rewrite map_flat_map. intros H. apply in_flat_map in H as (a & Ha & H).
    rewrite map_flat_map in H. apply in_flat_map in H as (b & Hb & H).
    rewrite session_block_names in H. apply in_map_iff in H as (k & <- & _).
    apply in_others in Hb as [Hb _]. exists k, a, b. rewrite order_in in Ha. rewrite <- sort_in in Hb. auto.
  Qed.

  Lemma part_sessions_nodup p i : clean p -> NoDup (map fst (part_sessions title p i)).
  Proof.
    intros [N T]. unfold part_sessions. rewrite map_flat_map. apply nodup_flat_map.
    - now apply order_nodup.
    - intros a Ha. rewrite map_flat_map. apply nodup_flat_map.
      + now apply nodup_others, sort_nodup.
      + intros b Hb. rewrite session_block_names. apply FinFun.Injective_map_NoDup; [|apply seq_NoDup].
        intros k k' E. apply message_name_inj in E; [tauto|..]; apply T, order_in with (i := i), Ha.
      + intros b b' x Hb Hb' H H'. rewrite session_block_names in H, H'.
        apply in_map_iff in H as (k & <- & _). apply in_map_iff in H' as (k' & E & _).
        apply message_name_inj in E; [intuition congruence|..]; apply T, order_in with (i := i), Ha.
    - intros a a' x Ha Ha' H H'. rewrite map_flat_map in H, H'.
      apply in_flat_map in H as (b & Hb & H). apply in_flat_map in H' as (b' & Hb' & H').
      rewrite session_block_names in H, H'.
      apply in_map_iff in H as (k & <- & _). apply in_map_iff in H' as (k' & E & _).
      apply message_name_inj in E; [intuition congruence|..].
      + apply T, order_in with (i := i), Ha'.
      + apply T, order_in with (i := i), Ha.
  Qed.

  Lemma in_part_stacks_name p i x :
    In x (map fst (part_stacks p i)) -> exists k a, x = ordering_name (part_text i) k a.
  Proof.
    unfold part_stacks. rewrite map_flat_map. intros H. apply in_flat_map in H as (a & Ha & H).
    rewrite stack_block_names in H. apply in_map_iff in H as (k & <- & _). eauto.
  Qed.
  Lemma part_stacks_nodup p i : NoDup (p_roles p) -> NoDup (map fst (part_stacks p i)).
  Proof.
    intros N. unfold part_stacks. rewrite map_flat_map. apply nodup_flat_map.
    - now apply order_nodup.
    - intros a Ha. rewrite stack_block_names. apply FinFun.Injective_map_NoDup; [|apply seq_NoDup].
      intros k k' E. apply ordering_name_inj in E. tauto.
    - intros a a' x Ha Ha' H H'. rewrite stack_block_names in H, H'.
      apply in_map_iff in H as (k & <- & _). apply in_map_iff in H' as (k' & E & _).
      apply ordering_name_inj in E. intuition congruence.
  Qed.

  (** The type declarations of the file. *)
  Lemma types_nodup p f : clean p -> written title p f -> NoDup (map fst (types f)).
  Proof.
    intros C W. pose proof C as [N T]. rewrite (wr_types _ _ _ W), map_app, !map_flat_map. apply nodup_app.
    - apply nodup_flat_map; [apply parts_nodup|intros i _; now apply part_sessions_nodup|].
      intros i i' x _ _ H H'. apply in_part_sessions_name in H as (k & a & b & Ha & Hb & ->).
      apply in_part_sessions_name in H' as (k' & a' & b' & Ha' & Hb' & E).
      apply message_name_inj in E; [tauto|auto..].
    - apply nodup_flat_map; [apply parts_nodup|intros i _; now apply part_stacks_nodup|].
      intros i i' x _ _ H H'. apply in_part_stacks_name in H as (k & a & ->).
      apply in_part_stacks_name in H' as (k' & a' & E). apply ordering_name_inj in E. tauto.
    - intros x H H'. apply in_flat_map in H as (i & _ & H). apply in_flat_map in H' as (i' & _ & H').
      apply in_part_sessions_name in H as (k & a & b & _ & _ & ->).
      apply in_part_stacks_name in H' as (k' & a' & E). discriminate.
  Qed.

  Lemma types_names p f x : written title p f -> In x (map fst (types f)) ->
    (exists i k a b, x = message_name (part_text i) k a b) \/ (exists i k a, x = ordering_name (part_text i) k a).
  Proof.
    intros W H. rewrite (wr_types _ _ _ W), map_app, !map_flat_map in H. apply in_app_iff in H as [H|H].
    - apply in_flat_map in H as (i & _ & H). apply in_part_sessions_name in H as (k & a & b & _ & _ & ->).
      left. eauto.
    - apply in_flat_map in H as (i & _ & H). apply in_part_stacks_name in H as (k & a & ->). right. eauto.
  Qed.

  (** All the names of the file. *)
  Lemma names_nodup p f : clean p -> written title p f ->
    NoDup (map fst (types f) ++ map fst (enum_types f) ++ map ep_name (endpoint_types f)).
  Proof.
    intros C W. pose proof C as [N T].
    assert (forall x, In x (map fst (enum_types f)) -> exists s r, x = choice_name (lit "0") s r) as He.
    { intros x. rewrite (wr_enums _ _ _ W). destruct (ending p) as [[[s b] bs]|]; [|easy].
      rewrite map_flat_map. intros H. apply in_flat_map in H as (r & _ & H).
      destruct (negb (seqb r s)); [|easy]. destruct H as [<-|[]]. exists s, r. reflexivity. }
    assert (forall x, In x (map ep_name (endpoint_types f)) -> exists i a, x = endpoint_name (part_text i) a) as Hp.
    { intros x. rewrite (wr_endpoints _ _ _ W), map_flat_map. intros H. apply in_flat_map in H as (i & _ & H).
      unfold part_endpoints in H. rewrite map_map in H. apply in_map_iff in H as (a & <- & _). cbn. eauto. }
    apply nodup_app; [now apply (types_nodup p)|apply nodup_app|].
    - rewrite (wr_enums _ _ _ W). destruct (ending p) as [[[s b] bs]|]; [|constructor].
      rewrite map_flat_map. apply nodup_flat_map.
      + now apply sort_nodup.
      + intros r _. destruct (negb (seqb r s)); [constructor; [easy|constructor]|constructor].
      + intros r r' x _ _ H H'. destruct (negb (seqb r s)); [|easy]. destruct (negb (seqb r' s)); [|easy].
        destruct H as [<-|[]]. destruct H' as [E|[]].
        unfold choice_name in E. cbn [fst] in E. do 5 apply app_inv_head in E. congruence.
    - rewrite (wr_endpoints _ _ _ W), map_flat_map. apply nodup_flat_map; [apply parts_nodup|..].
      + intros i _. unfold part_endpoints. rewrite map_map. cbn.
        apply FinFun.Injective_map_NoDup; [|now apply sort_nodup].
        intros a a' E. apply endpoint_name_inj in E. tauto.
      + intros i i' x _ _ H H'. unfold part_endpoints in H, H'. rewrite map_map in H, H'.
        apply in_map_iff in H as (a & <- & _). apply in_map_iff in H' as (a' & E & _). cbn in E.
        apply endpoint_name_inj in E. intuition congruence.
    - intros x H H'. apply He in H as (s & r & ->). apply Hp in H' as (i & a & E). discriminate.
    - intros x H H'. apply (types_names p) in H; [|easy]. apply in_app_iff in H' as [H'|H'].
      + apply He in H' as (s & r & ->). destruct H as [(? & ? & ? & ? & E)|(? & ? & ? & E)]; discriminate.
      + apply Hp in H' as (? & ? & ->). destruct H as [(? & ? & ? & ? & E)|(? & ? & ? & E)]; discriminate.
  Qed.
End Title.

(** ** A name has one meaning *)

Lemma nodup_unique {A B} (env : list (A * B)) n b b' :
  NoDup (map fst env) -> In (n, b) env -> In (n, b') env -> b = b'.
Proof.
  induction env as [|[m c] env IH]; [easy|]. cbn [map fst]. intros N H H'. inversion N as [|? ? Hn N']; subst.
  destruct H as [H|H], H' as [H'|H'].
  - congruence.
  - injection H as -> ->. exfalso. apply Hn. now apply (in_map fst) in H'.
  - injection H' as -> ->. exfalso. apply Hn. now apply (in_map fst) in H.
  - auto.
Qed.

Lemma session_is_unique env n s s' :
  NoDup (map fst env) -> ~ In (lit "End") (map fst env) ->
  session_is env n s -> session_is env n s' -> s = s'.
Proof.
  intros N E H. revert s'. induction H as [|n n' s Hin H IH|n d p c lo loi hi hii r n' s Hin H IH];
    intros s' H'; inversion H' as [|? n2 ? Hin2 H2|? d2 p2 c2 lo2 loi2 hi2 hii2 r2 n2 s2 Hin2 H2]; subst;
    try reflexivity;
    try (exfalso; apply E; now apply (in_map fst) in Hin2);
    try (exfalso; apply E; now apply (in_map fst) in Hin);
    pose proof (nodup_unique _ _ _ _ N Hin Hin2) as Q; try discriminate.
  - injection Q as <-. auto.
  - injection Q as <- <- <- <- <- <- <- <- <-. f_equal. auto.
Qed.

Lemma stack_is_unique env n s s' :
  NoDup (map fst env) -> ~ In (lit "RoleEnd") (map fst env) ->
  stack_is env n s -> stack_is env n s' -> s = s'.
Proof.
  intros N E H. revert s'. induction H as [|n Hin|n n' s Hin H IH|n r n' s Hin H IH];
    intros s' H'; inversion H' as [|? Hin2|? n2 ? Hin2 H2|? r2 n2 s2 Hin2 H2]; subst;
    try reflexivity;
    try (exfalso; apply E; now apply (in_map fst) in Hin2);
    try (exfalso; apply E; now apply (in_map fst) in Hin);
    pose proof (nodup_unique _ _ _ _ N Hin Hin2) as Q; try discriminate.
  - injection Q as <-. auto.
  - injection Q as <- <-. f_equal. auto.
Qed.
