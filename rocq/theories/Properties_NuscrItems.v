(** * The names of the generated file: C47

    The model is Nuscr.v, NuscrText.v and NuscrItems.v, which also has the
    specification. *)

From Coq Require Import Ascii String ZArith Bool Lia List.
From Verif Require Import Checker CheckerText CheckerAll Nuscr NuscrSpec NuscrMaps NuscrTree NuscrRun NuscrFile
  NuscrNames NuscrAccept Regex NuscrText NuscrTextSpec NuscrReadAll NuscrPrint Properties_Nuscr
  NuscrStructs NuscrItems NuscrItemsProofs.
Import ListNotations.

(** ** Messages of a text *)

Lemma messages_text_in ms ls m : messages_text ms ls -> In m ms -> exists s, message_text m s.
Proof.
  induction 1 as [|m' ms s ls H H' IH|ms s ls H H' IH]; [easy|..]; [|exact IH].
  intros [->|Hm]; [now exists s|auto].
Qed.
Lemma branch_text_in x b ls m : branch_text x b ls -> In m (said b) -> exists s, message_text m s.
Proof. intros [y s ls' _ _ H _|ls' _ H]; now apply messages_text_in with (1 := H). Qed.
Lemma branches_text_in x bs ls b m : branches_text x bs ls -> In b bs -> In m (said b) -> exists s, message_text m s.
Proof.
  induction 1 as [|b' bs s ls ls' _ H H' IH]; [easy|].
  intros [->|Hb]; [now apply branch_text_in with (1 := H)|auto].
Qed.
Lemma spoken_text name p ls m : protocol_text name p ls -> spoken p m -> exists s, message_text m s.
Proof.
  assert (forall x ls1 ls2 ls3, messages_text (before p) ls1 -> messages_text (inside p) ls2 ->
    ending_text x (ending p) ls3 -> spoken p m -> exists s, message_text m s) as K.
  { intros x ls1 ls2 ls3 H1 H2 H3 (i & Hi & Hm). destruct i as [i|]; cbn [part_messages] in Hm.
    - destruct H3 as [|a b bs s1 s2 s3 l1 l2 _ _ _ Hb Hbs]; [easy|].
      destruct (nth_error (b :: bs) i) as [b'|] eqn:E; [|easy]. apply in_app_iff in Hm as [Hm|Hm].
      + apply nth_error_In in E as [->|E]; [now apply branch_text_in with (1 := Hb)|].
        now apply branches_text_in with (1 := Hbs) (2 := E).
      + destruct (loop p); [|easy]. destruct (again b'); [|easy]. now apply messages_text_in with (1 := H2).
    - apply in_app_iff in Hm as [Hm|Hm]; [now apply messages_text_in with (1 := H1)|now apply messages_text_in with (1 := H2)]. }
  intros [s1 s2 ls1 ls2 ls3 _ _ H1 H2 H3 _|x s1 s2 s3 s4 ls1 ls2 ls3 _ _ H1 _ H2 H3 _ _]; eauto.
Qed.
Lemma spoken_bound name p ls m : protocol_text name p ls -> spoken p m -> lb m <> lit "-2".
Proof.
  intros T S E. destruct (spoken_text name p ls m T S) as (s & H). destruct H as [].
  match goal with H : natural (lb m) |- _ => destruct H as [_ H]; rewrite E in H; inversion H as [|? ? D _]; subst end.
  unfold NuscrTextSpec.digit in D. cbn in D. lia.
Qed.
Lemma spoken_payload name p ls m : protocol_text name p ls -> spoken p m -> payload m <> Some [].
Proof.
  intros T S E. destruct (spoken_text name p ls m T S) as (s & H). destruct H as [].
  match goal with H : option_word (payload m) |- _ => rewrite E in H; destruct H as [H _]; now apply H end.
Qed.
Lemma text_declared title name p ls f : protocol_text name p ls -> no_rec p -> NoDup (p_roles p) ->
  generator_text title ls = Fine f -> declared title p f.
Proof.
  intros T R N H. destruct (read_protocol name p ls T R) as [lt A].
  exact (generator_structs title lt name p _ f A N (text_roles name p ls T) H).
Qed.

(** ** Types *)

(** Every type named in the file is declared in it, imported, or made by
    [generate_atmp!]. *)
Theorem types_known : forall title name p ls f,
  protocol_text name p ls -> no_rec p -> NoDup (p_roles p) -> generator_text title ls = Fine f ->
  incl (uses f) (type_names f ++ given f).
Proof.
  intros title name p ls f T R N H. apply (uses_declared title p).
  - exact (text_written title name p ls f T R N H).
  - exact (text_declared title name p ls f T R N H).
  - intros m. exact (spoken_bound name p ls m T).
Qed.
Print Assumptions types_known.

(** No type is declared twice, nor under a name that is imported or made by
    [generate_atmp!], and these do not collide either. *)
Theorem types_once : forall title name p ls f,
  protocol_text name p ls -> no_rec p -> clean p -> (forall r, In r (p_roles p) -> bakeable r) ->
  generator_text title ls = Fine f -> fresh_titles title p f ->
  NoDup (given f ++ type_names f).
Proof.
  intros title name p ls f T R C B H F. apply (all_nodup title p); auto.
  - exact (text_written title name p ls f T R (proj1 C) H).
  - exact (text_declared title name p ls f T R (proj1 C) H).
Qed.
Print Assumptions types_once.

(** The structs: one for each label and payload, and nothing else; the struct of
    a message has the payload of the message as its field, provided that labels
    equal in title case have the same payload and no label is also the name of a
    payload. *)
Theorem structs_of_messages : forall title name p ls f,
  protocol_text name p ls -> no_rec p -> NoDup (p_roles p) -> generator_text title ls = Fine f ->
  NoDup (map fst (structs f)) /\
  (forall m, spoken p m -> In (title (label m)) (map fst (structs f))) /\
  (forall n pl, In (n, pl) (structs f) -> exists m, spoken p m /\
     (n = title (label m) /\ pl = option_map title (payload m) \/
      pl = None /\ exists q, payload m = Some q /\ n = title q)) /\
  ((forall m m', spoken p m -> spoken p m' -> title (label m) = title (label m') -> payload m = payload m') ->
   (forall m m' q, spoken p m -> spoken p m' -> payload m' = Some q -> title q <> title (label m)) ->
   forall m, spoken p m ->
     In (title (label m), option_map title (payload m)) (structs f) /\
     forall q, payload m = Some q -> In (title q, None) (structs f)).
Proof.
  intros title name p ls f T R N H. pose proof (text_declared title name p ls f T R N H) as D.
  assert (forall m, spoken p m -> struct_field title m = option_map title (payload m)) as E.
  { intros m S. unfold struct_field, pay_text. pose proof (spoken_payload name p ls m T S) as Q.
    destruct (payload m) as [[|c q]|]; [easy|reflexivity..]. }
  assert (forall m, spoken p m -> In (title (label m)) (map fst (structs f))) as L.
  { intros m S. apply (de_label _ _ _ D); [exact S|exact (spoken_bound name p ls m T S)]. }
  split; [apply (de_once _ _ _ D)|]. split; [exact L|]. split.
  - intros n pl Hn. destruct (de_only _ _ _ D n pl Hn) as [(m & M1 & -> & -> & _)|(m & q & M1 & M2 & -> & ->)].
    + exists m. split; [exact M1|]. left. split; [reflexivity|auto].
    + exists m. split; [exact M1|]. right. eauto.
  - intros H1 H2 m S.
    assert (In (title (label m), option_map title (payload m)) (structs f) /\
      forall q, payload m = Some q -> In (title q) (map fst (structs f))) as [A B].
    { pose proof (L m S) as K. apply in_map_iff in K as ([n pl] & En & K). cbn [fst] in En. subst n.
      destruct (de_only _ _ _ D _ _ K) as [(m' & M1 & M2 & -> & M4)|(m' & q & M1 & M2 & M3 & ->)].
      - rewrite (E m' M1) in K. rewrite (H1 m m' S M1 M2) at 1. split; [exact K|].
        intros q Hq. apply M4. rewrite <- Hq. symmetry. now apply H1.
      - exfalso. exact (H2 m m' q S M1 M2 (eq_sym M3)). }
    split; [exact A|]. intros q Hq. pose proof (B q Hq) as K.
    apply in_map_iff in K as ([n pl] & En & K). cbn [fst] in En. subst n.
    destruct (de_only _ _ _ D _ _ K) as [(m' & M1 & M2 & _)|(m' & q' & _ & _ & _ & ->)]; [|exact K].
    exfalso. exact (H2 m' m q M1 S Hq M2).
Qed.
Print Assumptions structs_of_messages.

(** ** Functions *)

(** The functions: for each role and each part, as many as the last number of
    the index plus one, on the endpoint of the role in that part. *)
Theorem functions_exact : forall title name p ls f,
  protocol_text name p ls -> no_rec p -> NoDup (p_roles p) -> generator_text title ls = Fine f ->
  forall r ix n ty, (exists cs, In (r, ix, n, ty, cs) (functions f)) <->
    exists i, part p i /\ In r (p_roles p) /\ ty = endpoint_name (part_text i) r /\
      match i with None => ix = [0%nat] /\ n = 0%nat | Some k => ix = [0%nat; k] /\ (n <= k)%nat end.
Proof.
  intros title name p ls f T R N H r ix n ty. pose proof (text_written title name p ls f T R N H) as W. split.
  - intros [cs Hx]. destruct (function_of title p f r ix n ty cs W Hx) as (i & Hi & Hr & -> & Hn & ->).
    exists i. split; [exact Hi|]. split; [exact Hr|]. split; [reflexivity|].
    destruct i as [k|]; cbn in Hn |- *; split; auto; lia.
  - intros (i & Hi & Hr & -> & E). destruct (function_in title p f i r n W Hi Hr) as (cs & Hx).
    + destruct i as [k|]; cbn; lia.
    + exists cs. replace ix with (part_index i); [exact Hx|]. destruct i as [k|]; cbn; now destruct E as [-> _].
Qed.
Print Assumptions functions_exact.

Lemma nodup_name (f : rust_file) (x y : str * list nat * nat * str * list str) :
  NoDup (function_names f) -> In x (functions f) -> In y (functions f) ->
  (let '(r, ix, n, _, _) := x in function_name r ix n) = (let '(r, ix, n, _, _) := y in function_name r ix n) -> x = y.
Proof.
  unfold function_names. induction (functions f) as [|z l IH]; [easy|]. cbn [map]. intros N Hx Hy E.
  inversion N as [|? ? N1 N2]; subst.
  assert (forall w, In w l -> (let '(r, ix, n, _, _) := w in function_name r ix n) <> (let '(r, ix, n, _, _) := z in function_name r ix n)) as K.
  { intros w Hw Ew. apply N1. rewrite <- Ew. apply in_map_iff. exists w. auto. }
  destruct Hx as [->|Hx], Hy as [->|Hy]; auto.
  - exfalso. now apply (K y Hy).
  - exfalso. now apply (K x Hx).
Qed.

(** No function is declared twice when the roles have no "_" and differ in
    lower case; then [main] gives [fork_mpst], in the order of the roles of the
    mesh, one function for each role, the one on the endpoint of the role at the
    start. *)
Theorem functions_once : forall title name p ls f,
  protocol_text name p ls -> no_rec p -> NoDup (p_roles p) -> apart p -> generator_text title ls = Fine f ->
  NoDup (function_names f) /\ NoDup (main_threads f) /\ NoDup (choice_macros f) /\
  Forall2 (fun r n =>
    exists cs, In (r, [0%nat], 0%nat, endpoint_name (lit "0") r, cs) (functions f) /\
      function_name r [0%nat] 0 = n /\
      forall r' ix' n' ty' cs', In (r', ix', n', ty', cs') (functions f) -> function_name r' ix' n' = n ->
        r' = r /\ ix' = [0%nat] /\ n' = 0%nat /\ ty' = endpoint_name (lit "0") r /\ cs' = cs)
    (meshed_roles f) (main_functions f).
Proof.
  intros title name p ls f T R N A H. pose proof (text_written title name p ls f T R N H) as W.
  pose proof (functions_nodup title p f N A W) as Nd. split; [exact Nd|].
  assert (forall l, NoDup l -> incl l (p_roles p) -> NoDup (map lower l)) as K.
  { induction 1 as [|r l Hr Nl IH]; intros I; cbn [map]; constructor.
    - intros G. apply in_map_iff in G as (r' & E & G). apply (proj2 A) in E; [congruence|..]; apply I; [now right|now left].
    - apply IH. intros x Hx. apply I. now right. }
  assert (NoDup (map lower (meshed_roles f))) as Nl.
  { rewrite (wr_roles _ _ _ W). apply K; [now apply sort_nodup|]. intros r Hr. now apply sort_in. }
  assert (forall (h : str -> str), (forall u v, h u = h v -> u = v) ->
    NoDup (map (fun r => h (lower r)) (meshed_roles f))) as Inj.
  { intros h Hh. rewrite <- (map_map lower h). now apply FinFun.Injective_map_NoDup. }
  split; [|split].
  - apply (Inj (fun s => lit "thread_" ++ s)). intros u v. apply app_inv_head.
  - apply (Inj (fun s => lit "choose_mpst_" ++ s ++ lit "_to_all")). intros u v E.
    apply app_inv_head in E. now apply app_inv_tail in E.
  - assert (forall l, incl l (p_roles p) -> Forall2 (fun r n =>
      exists cs, In (r, [0%nat], 0%nat, endpoint_name (lit "0") r, cs) (functions f) /\
        function_name r [0%nat] 0 = n /\
        forall r' ix' n' ty' cs', In (r', ix', n', ty', cs') (functions f) -> function_name r' ix' n' = n ->
          r' = r /\ ix' = [0%nat] /\ n' = 0%nat /\ ty' = endpoint_name (lit "0") r /\ cs' = cs)
      l (map (fun r => lit "endpoint_" ++ lower r ++ lit "_0_v_0") l)) as G.
    { induction l as [|r l IH]; intros I; cbn [map]; constructor.
      - destruct (function_in title p f None r 0 W Logic.I) as (cs & Hx); [apply I; now left|cbn; lia|].
        exists cs. split; [exact Hx|]. split; [reflexivity|]. intros r' ix' n' ty' cs' Hy E.
        pose proof (nodup_name f (r', ix', n', ty', cs') (r, [0%nat], 0%nat, endpoint_name (lit "0") r, cs) Nd Hy Hx E) as Q.
        injection Q as -> -> -> -> ->. auto.
      - apply IH. intros x Hx. apply I. now right. }
    apply G. rewrite (wr_roles _ _ _ W). intros r Hr. now apply sort_in.
Qed.
Print Assumptions functions_once.

(** ** Examples *)

Example looping_items : exists f,
  generator_text idt (print (lit "P") looping) = Fine f /\ apart looping /\
  (forall r, In r (p_roles looping) -> bakeable r) /\
  main_functions f = [lit "endpoint_a_0_v_0"; lit "endpoint_b_0_v_0"; lit "endpoint_c_0_v_0"] /\
  In (lit "Tell", Some (lit "text")) (structs f) /\ In (lit "text", None) (structs f) /\
  length (function_names f) = 21%nat.
Proof.
  destruct (generator_text idt (print (lit "P") looping)) as [f| | |] eqn:E; [|vm_compute in E; discriminate..].
  exists f. split; [reflexivity|]. split; [|split].
  - split.
    + cbn. intuition (subst; cbn in *; intuition discriminate).
    + cbn. intros r r' H H'. intuition (subst; try reflexivity; discriminate).
  - intros r Hr. unfold bakeable, starts, ends.
    assert (length r = 1%nat) as L by (cbn in Hr; intuition (subst; reflexivity)).
    assert (forall u v w : str, r = u ++ w -> (2 <= length w)%nat -> False) as K.
    { intros u _ w -> Hw. rewrite app_length in L. lia. }
    split; [intros ->; discriminate|]. split; [intros ->; discriminate|].
    split; [|split].
    + intros (v & ->). discriminate.
    + intros (v & Ev). apply (K v [] _ Ev). cbn. lia.
    + intros (v & Ev). apply (K v [] _ Ev). cbn. lia.
  - vm_compute in E. injection E as <-. cbn. intuition.
Qed.
Lemma looping_spoken m : spoken looping m ->
  In m [tm "Init" None "A" "B"; tm "Ask" None "A" "B"; tm "Tell" (Some (lit "text")) "B" "C"; tm "More" None "A" "B"; tm "Stop" None "C" "A"].
Proof.
  intros ([[|[|[|i]]]|] & Hi & Hm); cbn in Hi, Hm |- *; try lia; intuition.
Qed.
Example looping_fresh : exists f,
  generator_text idt (print (lit "P") looping) = Fine f /\ fresh_titles idt looping f /\
  (forall m m', spoken looping m -> spoken looping m' -> idt (label m) = idt (label m') -> payload m = payload m') /\
  (forall m m' q, spoken looping m -> spoken looping m' -> payload m' = Some q -> idt q <> idt (label m)).
Proof.
  destruct (generator_text idt (print (lit "P") looping)) as [f| | |] eqn:E; [|vm_compute in E; discriminate..].
  exists f. split; [reflexivity|]. vm_compute in E. injection E as <-. split; [|split].
  - intros m Hm. apply looping_spoken in Hm. cbn in Hm.
    assert (forall x g, existsb (seqb x) g = false -> ~ In x g) as K.
    { intros x g Eg Hx. assert (existsb (seqb x) g = true) as E'; [|congruence].
      apply existsb_exists. exists x. split; [exact Hx|apply seqb_refl]. }
    destruct Hm as [<-|[<-|[<-|[<-|[<-|[]]]]]]; cbn [label payload tm]; split;
      try (intros q [= <-]); try (intros q; discriminate);
      (split; [cbn; intuition discriminate|apply K; reflexivity]).
  - intros m m' Hm Hm'. apply looping_spoken in Hm, Hm'. cbn in Hm, Hm'.
    intuition (subst; cbn in *; try reflexivity; discriminate).
  - intros m m' q Hm Hm' Hq. apply looping_spoken in Hm, Hm'. cbn in Hm, Hm'.
    intuition (subst; cbn in *; try discriminate; injection Hq as <-; discriminate).
Qed.

(** ** What fails outside the conditions *)

Ltac accepted P f E :=
  destruct (generator_text idt (print (lit "P") P)) as [f| | |] eqn:E; [|vm_compute in E; discriminate..].

(** Two roles that differ only in case share all their functions: [main] gives
    [fork_mpst] the same name for both, declared for two different types. *)
Definition cases : proto := Proto [lit "A"; lit "a"] [tm "One" None "A" "a"] None [] None.
Theorem role_case_refuted : exists p ls f,
  protocol_text (lit "P") p ls /\ no_rec p /\ clean p /\ generator_text idt ls = Fine f /\
  ~ NoDup (function_names f) /\ ~ NoDup (main_threads f) /\ ~ NoDup (choice_macros f) /\
  exists n, main_functions f = [n; n].
Proof.
  accepted cases f E. exists cases, (print (lit "P") cases), f.
  split; [now apply print_ok|]. split; [now left|]. split.
  { split; [repeat constructor; cbn; intuition discriminate|]. intros r H (x & y & Er).
    cbn in H. destruct H as [<-|[<-|[]]]; apply (f_equal (@length _)) in Er; rewrite !app_length in Er; cbn in Er; lia. }
  split; [exact E|]. vm_compute in E. injection E as <-.
  assert (forall x (l : list str), ~ NoDup (x :: x :: l)) as K.
  { intros x l N. inversion N as [|? ? H _]. apply H. now left. }
  split; [apply K|]. split; [apply K|]. split; [apply K|]. eexists. reflexivity.
Qed.
Print Assumptions role_case_refuted.

(** So do roles with "_": the function of [a_0] at the start and the one of [a]
    in the first branch. *)
Definition unders : proto := Proto [lit "a"; lit "a_0"] [] None [] (Some (lit "a", Branch [tm "One" None "a" "a_0"] false, [])).
Theorem role_underscore_refuted : exists p ls f,
  protocol_text (lit "P") p ls /\ no_rec p /\ clean p /\ generator_text idt ls = Fine f /\
  ~ NoDup (function_names f) /\
  (forall r r', In r (p_roles p) -> In r' (p_roles p) -> lower r = lower r' -> r = r').
Proof.
  accepted unders f E. exists unders, (print (lit "P") unders), f.
  split; [now apply print_ok|]. split; [now left|]. split.
  { split; [repeat constructor; cbn; intuition discriminate|]. intros r H (x & y & Er).
    assert (~ In "T"%char r) as K by (cbn in H; destruct H as [<-|[<-|[]]]; cbn; intuition discriminate).
    apply K. rewrite Er, in_app_iff. right. now left. }
  split; [exact E|]. vm_compute in E. injection E as <-. split.
  - intros Nd. apply NoDup_nth_error with (i := 1%nat) (j := 2%nat) in Nd; [discriminate|cbn; lia|reflexivity].
  - cbn. intros r r' H H'. intuition (subst; try reflexivity; discriminate).
Qed.
Print Assumptions role_underscore_refuted.

(** A role called [End] or [All] makes [generate_atmp!] declare a type twice. *)
Theorem role_given_refuted :
  (exists p ls f, protocol_text (lit "P") p ls /\ no_rec p /\ clean p /\ generator_text idt ls = Fine f /\
     In (lit "End") (p_roles p) /\ ~ NoDup (given f)) /\
  (exists p ls f, protocol_text (lit "P") p ls /\ no_rec p /\ clean p /\ generator_text idt ls = Fine f /\
     In (lit "All") (p_roles p) /\ ~ NoDup (baked f)).
Proof.
  assert (forall x, ~ In "T"%char x -> ~ has_to x) as K.
  { intros x Hx (u & v & ->). apply Hx. apply in_app_iff. right. now left. }
  split.
  - set (q := Proto [lit "A"; lit "End"] [tm "One" None "A" "End"] None [] None). accepted q f E.
    exists q, (print (lit "P") q), f. split; [now apply print_ok|]. split; [now left|]. split.
    { split; [repeat constructor; cbn; intuition discriminate|]. intros r H. apply K.
      cbn in H. destruct H as [<-|[<-|[]]]; cbn; intuition discriminate. }
    split; [exact E|]. split; [cbn; auto|]. vm_compute in E. injection E as <-. intros Nd.
    apply NoDup_nth_error with (i := 3%nat) (j := 15%nat) in Nd; [discriminate|cbn; lia|reflexivity].
  - set (q := Proto [lit "A"; lit "All"] [tm "One" None "A" "All"] None [] None). accepted q f E.
    exists q, (print (lit "P") q), f. split; [now apply print_ok|]. split; [now left|]. split.
    { split; [repeat constructor; cbn; intuition discriminate|]. intros r H. apply K.
      cbn in H. destruct H as [<-|[<-|[]]]; cbn; intuition discriminate. }
    split; [exact E|]. split; [cbn; auto|]. vm_compute in E. injection E as <-. intros Nd.
    apply NoDup_nth_error with (i := 8%nat) (j := 9%nat) in Nd; [discriminate|cbn; lia|reflexivity].
Qed.
Print Assumptions role_given_refuted.

(** A message called [End] declares a type that is imported; a message called
    like its payload loses the payload. *)
Theorem label_refuted :
  (exists p ls f, protocol_text (lit "P") p ls /\ no_rec p /\ clean p /\
     (forall r, In r (p_roles p) -> bakeable r) /\ generator_text idt ls = Fine f /\
     ~ NoDup (given f ++ type_names f)) /\
  (exists p ls f m, protocol_text (lit "P") p ls /\ no_rec p /\ clean p /\ generator_text idt ls = Fine f /\
     spoken p m /\ payload m <> None /\ In (label m, None) (structs f) /\
     forall x, ~ In (label m, Some x) (structs f)).
Proof.
  assert (clean (steps [])) as C.
  { split; [repeat constructor; cbn; intuition discriminate|]. intros r H (u & v & Er).
    cbn in H. destruct H as [<-|[<-|[]]]; apply (f_equal (@length _)) in Er; rewrite !app_length in Er; cbn in Er; lia. }
  split.
  - set (q := steps [tm "End" None "A" "B"]). accepted q f E. exists q, (print (lit "P") q), f.
    split; [now apply print_ok|]. split; [now left|]. split; [exact C|]. split.
    { intros r Hr. assert (length r = 1%nat) as L by (cbn in Hr; intuition (subst; reflexivity)).
      unfold bakeable, starts, ends. split; [intros ->; discriminate|]. split; [intros ->; discriminate|].
      split; [intros (v & ->); discriminate|].
      split; intros (v & ->); rewrite app_length in L; cbn in L; lia. }
    split; [exact E|]. vm_compute in E. injection E as <-. intros Nd.
    apply NoDup_nth_error with (i := 0%nat) (j := 20%nat) in Nd; [discriminate|cbn; lia|reflexivity].
  - set (m := tm "Data" (Some (lit "Data")) "A" "B"). set (q := steps [m]). accepted q f E.
    exists q, (print (lit "P") q), f, m.
    split; [now apply print_ok|]. split; [now left|]. split; [exact C|]. split; [exact E|].
    split; [exists None; split; [exact Logic.I|now left]|]. split; [discriminate|].
    vm_compute in E. injection E as <-. split; [now left|]. intros x [H|[]]. discriminate.
Qed.
Print Assumptions label_refuted.

(** ** Two more inputs that are accepted or refused wrongly *)

(** A clock of two letters is accepted, and written between quotes as a
    character (fn_endpoints.rs:41-45). *)
Theorem clock_char_refuted : exists p ls f r ix n ty cs c,
  protocol_text (lit "P") p ls /\ no_rec p /\ clean p /\ generator_text idt ls = Fine f /\
  In (r, ix, n, ty, cs) (functions f) /\ In c cs /\ length c = 2%nat.
Proof.
  set (m := Msg (lit "M") None roleA roleB true (lit "0") (lit "1") true (lit "ab") None).
  set (q := steps [m]). accepted q f E.
  exists q, (print (lit "P") q), f, roleA, [0%nat], 0%nat, (endpoint_name (lit "0") roleA), [lit "ab"], (lit "ab").
  split; [now apply print_ok|]. split; [now left|]. split.
  { split; [repeat constructor; cbn; intuition discriminate|]. intros r H (u & v & Er).
    cbn in H. destruct H as [<-|[<-|[]]]; apply (f_equal (@length _)) in Er; rewrite !app_length in Er; cbn in Er; lia. }
  split; [exact E|]. vm_compute in E. injection E as <-. cbn. auto.
Qed.
Print Assumptions clock_char_refuted.

(** A bound that does not fit in an [i32] is accepted for the last message on a
    clock, but panics when another message follows
    ([parse::<i32>] in
    messages_and_stacks_update/previous_message_wrt_clocks.rs:14-19). *)
Theorem big_bound_refuted : exists m m' ls ls' f,
  protocol_text (lit "P") (steps [m]) ls /\ generator_text idt ls = Fine f /\
  protocol_text (lit "P") (steps [m; m']) ls' /\ generator_text idt ls' = Panic /\
  lb m = lit "3000000000" /\ lb m' = rb m /\ rb m = rb m'.
Proof.
  set (m := Msg (lit "M") None roleA roleB true (lit "3000000000") (lit "3000000001") true (lit "a") None).
  set (m' := Msg (lit "N") None roleB roleA true (lit "3000000001") (lit "3000000001") true (lit "a") None).
  set (q := steps [m]). accepted q f E.
  exists m, m', (print (lit "P") q), (print (lit "P") (steps [m; m'])), f.
  split; [now apply print_ok|]. split; [exact E|]. split; [now apply print_ok|].
  split; [now vm_compute|]. repeat split.
Qed.
Print Assumptions big_bound_refuted.
