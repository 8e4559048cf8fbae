(** * The graph of a role has exactly its behaviours: proofs for C32 *)

From Coq Require Import Ascii String ZArith Lia Bool List.
From Verif Require Import Checker CheckerSpec CheckerText CheckerClean.
Import ListNotations.

(** ** Tidy types *)

Lemma tidy_node : forall path n args,
  tidy (Node path n args) -> path = [] /\ word n /\ ~ named n /\ Forall tidy args.
Proof.
  intros path n args T. unfold tidy in T. cbn [heads] in T.
  inversion T as [|? ? (T1 & T2 & T3) T4]; subst. cbn [fst snd] in *.
  split; [exact T1|split; [exact T2|split; [exact T3|]]].
  apply Forall_forall. intros t U. unfold tidy. apply Forall_forall. intros h Hh.
  rewrite Forall_forall in T4. apply T4. apply in_flat_map. now exists t.
Qed.

Lemma tidy_make : forall n args,
  word n -> ~ named n -> Forall tidy args -> tidy (Node [] n args).
Proof.
  intros n args W N A. unfold tidy. cbn [heads]. constructor; [split; [reflexivity|split; assumption]|].
  apply Forall_forall. intros h Hh. apply in_flat_map in Hh. destruct Hh as (t & T & Hh).
  rewrite Forall_forall in A. specialize (A t T). unfold tidy in A.
  rewrite Forall_forall in A. now apply A.
Qed.

Lemma tidy_wordy : forall t, tidy t -> wordy t.
Proof.
  intros t T. unfold wordy. eapply Forall_impl; [|exact T].
  intros [p n] (P & W & _). cbn [fst snd] in *. subst. split; [constructor|exact W].
Qed.

Lemma tidy_full : forall sp t, tidy t -> show_with full_head sp t = show_with short_head sp t.
Proof.
  intros sp t T. apply show_ext. intros h Hh. unfold tidy in T. rewrite Forall_forall in T.
  destruct (T h Hh) as (E & _). rewrite E. reflexivity.
Qed.

Lemma tidy_plain : forall t, tidy t -> plain [] t t.
Proof.
  induction t as [path n args IH] using ty_ind'. intros T.
  destruct (tidy_node _ _ _ T) as (-> & _ & N & A). apply pl_node; [exact N|].
  clear T N. induction args as [|a args IHa]; [constructor|].
  inversion IH; subst. inversion A; subst. constructor; auto.
Qed.

Lemma tidy_clean : forall l fs n a, tidy (Node [] l (fs ++ [Node [] n a])) ->
  clean_session (short (Node [] l (fs ++ [Node [] n a]))) =
  Ok (map short (fs ++ [Node [] n a]) ++ [n]).
Proof.
  intros l fs n a T. unfold short at 1. rewrite <- (tidy_full false _ T).
  apply (clean_session_type [] false _ l).
  - now apply tidy_wordy.
  - intros p q P _ NE. exfalso. apply NE. unfold tidy in T. rewrite Forall_forall in T.
    apply (T p P).
  - split; intros; contradiction.
  - now apply tidy_plain.
Qed.

Lemma tidy_offer : forall l ls lst ln, tidy (Node [] l (ls ++ [lst; ln])) ->
  exists full, clean_session (short (Node [] l (ls ++ [lst; ln]))) = Ok full /\
               upto 2 full = Ok (map short ls ++ [short lst]).
Proof.
  intros l ls lst [p n a] T.
  assert (p = []) as ->.
  { destruct (tidy_node _ _ _ T) as (_ & _ & _ & A). apply Forall_app in A.
    destruct A as [_ A]. inversion A as [|? ? _ A2]; subst. inversion A2 as [|? ? A3 _]; subst.
    apply (tidy_node _ _ _ A3). }
  change (ls ++ [lst; Node [] n a]) with (ls ++ [lst] ++ [Node [] n a]) in *.
  rewrite app_assoc in *. eexists. split; [now apply tidy_clean|].
  rewrite !map_app. cbn [map]. unfold upto. rewrite !app_length. cbn [length].
  assert ((2 <=? length (map short ls) + 1 + 1 + 1)%nat = true) as -> by (apply Nat.leb_le; lia).
  f_equal. replace (length (map short ls) + 1 + 1 + 1 - 2)%nat
    with (length (map short ls ++ [short lst])) by (rewrite app_length; cbn; lia).
  rewrite <- !app_assoc. cbn [app].
  change (short lst :: [short (Node [] n a); n]) with ([short lst] ++ [short (Node [] n a); n]).
  rewrite app_assoc, firstn_app, Nat.sub_diag, firstn_all. now rewrite app_nil_r.
Qed.

Ltac word_lit := split; [discriminate|repeat constructor; discriminate].

Lemma named_N : forall s, named s -> In "N"%char s.
Proof. intros s (c & _ & I). apply (inside_in _ _ _ I). now left. Qed.

Ltac not_named := intros NN; apply named_N in NN; cbn in NN; intuition discriminate.

Lemma tidy_end : tidy tEnd.
Proof. apply tidy_make; [word_lit|not_named|constructor]. Qed.

Lemma tidy_send : forall p s, tidy p -> tidy s -> tidy (tSend p s).
Proof. intros. apply tidy_make; [word_lit|not_named|now repeat constructor]. Qed.

Lemma tidy_recv : forall p s, tidy p -> tidy s -> tidy (tRecv p s).
Proof. intros. apply tidy_make; [word_lit|not_named|now repeat constructor]. Qed.

Lemma tidy_two : forall path n a b, tidy (Node path n [a; b]) -> tidy a /\ tidy b.
Proof.
  intros path n a b T. destruct (tidy_node _ _ _ T) as (_ & _ & _ & A).
  inversion A as [|? ? A1 A2]; subst. inversion A2; subst. now split.
Qed.

Lemma tidy_one : forall path n a, tidy (Node path n [a]) -> tidy a.
Proof.
  intros path n a T. destruct (tidy_node _ _ _ T) as (_ & _ & _ & A). now inversion A.
Qed.

Lemma tidy_dual : forall s d, dual_of s d -> tidy s -> tidy d.
Proof.
  intros s d D. induction D as [|p s s' D IH|p s s' D IH]; intros T; [exact T| |];
    apply tidy_two in T; destruct T; [apply tidy_recv|apply tidy_send]; auto.
Qed.

Lemma dual_unique : forall s d, dual_of s d -> forall d', dual_of s d' -> d = d'.
Proof.
  intros s d D. induction D as [|p s s' D IH|p s s' D IH]; intros d' D'; inversion D'; subst.
  - reflexivity.
  - unfold tRecv. now rewrite (IH s'0).
  - unfold tSend. now rewrite (IH s'0).
Qed.

(** ** Lists *)

Lemma put_map : forall {A B} (f : A -> B) v i x, map f (put v i x) = put (map f v) i (f x).
Proof.
  intros A B f v i x. unfold put. rewrite map_app. cbn [map]. now rewrite firstn_map, skipn_map.
Qed.

Lemma put_length : forall {A} (v : list A) i x, (i < length v)%nat -> length (put v i x) = length v.
Proof.
  intros A v i x L. unfold put. rewrite app_length. cbn [length].
  rewrite firstn_length, skipn_length. lia.
Qed.

Lemma set_at_put : forall {A} (v : list A) i x, (i < length v)%nat -> set_at v i x = Ok (put v i x).
Proof.
  intros A v. induction v as [|a v IH]; intros i x L; [cbn in L; lia|].
  destruct i as [|i]; [reflexivity|]. cbn [set_at]. rewrite IH by (cbn in L; lia). reflexivity.
Qed.

Lemma put_app : forall {A} (v w : list A) i x, (i < length v)%nat ->
  put (v ++ w) i x = put v i x ++ w.
Proof.
  intros A v w i x L. unfold put. rewrite firstn_app, skipn_app.
  replace (i - length v)%nat with 0%nat by lia. replace (S i - length v)%nat with 0%nat by lia.
  cbn [firstn skipn]. rewrite app_nil_r, <- app_assoc. reflexivity.
Qed.

Lemma put_last : forall {A} (v : list A) y x, put (v ++ [y]) (length v) x = v ++ [x].
Proof.
  intros A v y x. unfold put. rewrite firstn_app, Nat.sub_diag, firstn_all.
  cbn [firstn]. rewrite app_nil_r. f_equal. f_equal. rewrite skipn_all2; [reflexivity|].
  rewrite app_length. cbn. lia.
Qed.

Lemma put_In : forall {A} (P : A -> Prop) v i x, Forall P v -> P x -> Forall P (put v i x).
Proof.
  intros A P v i x V X. unfold put. apply Forall_app. rewrite Forall_forall in V. split.
  - apply Forall_forall. intros y Y. apply V. rewrite <- (firstn_skipn i v). apply in_or_app. now left.
  - constructor; [exact X|]. apply Forall_forall. intros y Y. apply V.
    rewrite <- (firstn_skipn (S i) v). apply in_or_app. now right.
Qed.

Lemma position_nth : forall roles i r, NoDup roles -> nth_error roles i = Some r ->
  position roles r = Some i.
Proof.
  induction roles as [|x roles IH]; intros i r D E; [destruct i; discriminate|].
  inversion D as [|? ? D1 D2]; subst. cbn [position]. destruct i as [|i]; cbn in E.
  - injection E as ->. now rewrite seqb_refl.
  - assert (seqb x r = false) as ->.
    { apply seqb_false. intros ->. apply D1. now apply nth_error_In in E. }
    now rewrite (IH i r D2 E).
Qed.

Lemma extract_ok : forall ix d, length ix = S d -> exists w, extract_index_node ix d = Ok w.
Proof.
  intros ix d L. unfold extract_index_node.
  assert ((length ix <? d)%nat = false) as -> by (apply Nat.ltb_ge; lia).
  destruct ix as [|a [|b rest]]; [discriminate|eexists; reflexivity|].
  assert ((length (b :: rest) <? d)%nat = false) as -> by (apply Nat.ltb_ge; cbn in *; lia).
  eexists. reflexivity.
Qed.

(** ** Walks *)

Lemma walk_map : forall {L M} (f : L -> M) T a l,
  walk (map (fun e => (fst (fst e), f (snd (fst e)), snd e)) T) a l <->
  exists tr, walk T a tr /\ l = map f tr.
Proof.
  intros L M f T a l. split.
  - induction 1 as [a|a x b ls I W (tr & IH & E)]; [exists []; split; constructor|].
    apply in_map_iff in I. destruct I as ([[a' y] b'] & E' & I). cbn in E'.
    injection E' as <- <- <-. exists (y :: tr). split; [|now rewrite E].
    econstructor; eassumption.
  - intros (tr & W & ->). induction W as [a|a x b ls I W IH]; [constructor|].
    cbn [map]. econstructor; [|exact IH].
    apply in_map_iff. exists (a, x, b). now split.
Qed.

Lemma walk_mono : forall {L} (T U : list (nat * L * nat)) a l,
  (forall e, In e T -> In e U) -> walk T a l -> walk U a l.
Proof.
  intros L T U a l S W. induction W as [a|a x b ls I W IH]; [constructor|].
  econstructor; [apply S; exact I|exact IH].
Qed.

(** Walks from a set of nodes whose edges are all in [U] and stay in the
    set. *)
Lemma walk_closed : forall {L} (P : nat -> Prop) (T U : list (nat * L * nat)),
  (forall a x b, In (a, x, b) T -> P a -> In (a, x, b) U /\ P b) ->
  forall a l, walk T a l -> P a -> walk U a l.
Proof.
  intros L P T U C a l W. induction W as [a|a x b ls I W IH]; intros Pa; [constructor|].
  destruct (C _ _ _ I Pa) as [C1 C2]. econstructor; [exact C1|exact (IH C2)].
Qed.

(** Edges that grow from [prev] with new nodes from [lo] below [hi]. *)
Definition grown {L} (prev lo hi : nat) (T : list (nat * L * nat)) : Prop :=
  (prev < lo)%nat /\ (lo <= hi)%nat /\
  forall a x b, In (a, x, b) T ->
    (a = prev \/ (lo <= a < hi)%nat) /\ (lo <= b < hi)%nat.


Lemma walk_cons : forall {L} prev lo hi (x : L) T,
  (prev < lo)%nat -> grown lo (S lo) hi T -> forall l,
  walk ((prev, x, lo) :: T) prev l <->
  l = [] \/ exists l', l = x :: l' /\ walk T lo l'.
Proof.
  intros L prev lo hi x T Lp (G1 & G2 & G3) l. split.
  - intros W. inversion W as [|? y b ls I W']; subst; [now left|right].
    destruct I as [E|I].
    + injection E as <- <-. exists ls. split; [reflexivity|].
      apply (walk_closed (fun a => (lo <= a)%nat) ((prev, x, lo) :: T)); [|exact W'|lia].
      intros a y c [E|I] Pa; [injection E as <- _ _; lia|].
      split; [exact I|]. destruct (G3 _ _ _ I). lia.
    + destruct (G3 _ _ _ I) as [[E|E] _]; lia.
  - intros [->|(l' & -> & W)]; [constructor|].
    econstructor; [now left|]. eapply walk_mono; [|exact W]. intros e I. now right.
Qed.

Lemma walk_choice : forall {L} prev lo mid hi (T U : list (nat * L * nat)),
  grown prev lo mid T -> grown prev mid hi U -> forall l,
  walk (T ++ U) prev l <-> walk T prev l \/ walk U prev l.
Proof.
  intros L prev lo mid hi T U (G1 & G2 & G3) (K1 & K2 & K3) l. split.
  - intros W. inversion W as [|? x b ls I W']; subst; [left; constructor|].
    apply in_app_or in I. destruct I as [I|I]; [left|right]; (econstructor; [exact I|]).
    + apply (walk_closed (fun a => (lo <= a < mid)%nat) (T ++ U)); [|exact W'|apply (G3 _ _ _ I)].
      intros a y c J Pa. apply in_app_or in J. destruct J as [J|J].
      * split; [exact J|apply (G3 _ _ _ J)].
      * destruct (K3 _ _ _ J) as [[E|E] _]; lia.
    + apply (walk_closed (fun a => (mid <= a < hi)%nat) (T ++ U)); [|exact W'|apply (K3 _ _ _ I)].
      intros a y c J Pa. apply in_app_or in J. destruct J as [J|J].
      * destruct (G3 _ _ _ J) as [[E|E] _]; lia.
      * split; [exact J|apply (K3 _ _ _ J)].
  - intros [W|W]; (eapply walk_mono; [|exact W]); intros e I; apply in_or_app; auto.
Qed.
