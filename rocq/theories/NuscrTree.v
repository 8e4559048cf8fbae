(** * What a tree holds after some messages and perhaps a choice *)

From Coq Require Import Ascii String ZArith Bool Lia List.
From Verif Require Import Checker CheckerText Nuscr NuscrSpec NuscrMaps.
Import ListNotations.

(** The tables of a tree. *)
Record shape (ix : list nat) (o i : list str) (D : str -> str -> list decl) (L : str -> str -> str)
    (K : str -> list decl) (KL : str -> str) (t : tree) : Prop := Shape {
  sh_index : index t = ix;
  sh_messages : messages t = tab2 o i D;
  sh_first : first_message t = tab2 o i (message_name (index_text ix) 0);
  sh_last : last_message t = tab2 o i L;
  sh_stacks : stacks t = tab o K;
  sh_first_stack : first_stack t = tab o (ordering_name (index_text ix) 0);
  sh_last_stack : last_stack t = tab o KL;
  sh_endpoints : endpoints t = tab o (fun r => [endpoint_name (index_text ix) r])
}.

Lemma shape_ext ix o i D L K KL D' L' K' KL' t :
  shape ix o i D L K KL t ->
  (forall a b, In a o -> In b i -> b <> a -> D a b = D' a b) ->
  (forall a b, In a o -> In b i -> b <> a -> L a b = L' a b) ->
  (forall a, In a o -> K a = K' a) -> (forall a, In a o -> KL a = KL' a) ->
  shape ix o i D' L' K' KL' t.
Proof.
  intros [] HD HL HK HKL. constructor; auto.
  - rewrite sh_messages0. now apply tab2_ext.
  - rewrite sh_last0. now apply tab2_ext.
  - rewrite sh_stacks0. now apply tab_ext.
  - rewrite sh_last_stack0. now apply tab_ext.
Qed.

(** ** A new tree *)

Lemma init_roles_fields rs ix t :
  let t' := init_roles rs ix t in
  index t' = index t /\ messages_with_payloads t' = messages_with_payloads t /\
  messages t' = fold_left (fun m r => hset r [] m) rs (messages t) /\
  first_message t' = fold_left (fun m r => hset r [] m) rs (first_message t) /\
  previous t' = previous t /\
  last_message t' = fold_left (fun m r => hset r [] m) rs (last_message t) /\
  stacks t' = fold_left (fun m r => hset r [] m) rs (stacks t) /\
  first_stack t' = fold_left (fun m r => hset r (ordering_name ix 0 r) m) rs (first_stack t) /\
  last_stack t' = fold_left (fun m r => hset r (ordering_name ix 0 r) m) rs (last_stack t) /\
  enums t' = enums t /\
  endpoints t' = fold_left (fun m r => hset r [endpoint_name ix r] m) rs (endpoints t) /\
  sub_trees t' = sub_trees t.
Proof.
  assert (forall X (l : list str) (x : X), fold_left (fun x _ => x) l x = x) as Hid
    by (induction l; auto).
  unfold init_roles.
  set (f2 := fun (t : tree) r => set_endpoints _ _). set (f1 := fun (t : tree) r => set_stacks _ _).
  cbv zeta. repeat split.
  - rewrite (fold_proj index f2 (fun x _ => x)), (fold_proj index f1 (fun x _ => x)), !Hid; auto.
  - rewrite (fold_proj messages_with_payloads f2 (fun x _ => x)),
      (fold_proj messages_with_payloads f1 (fun x _ => x)), !Hid; auto.
  - rewrite (fold_proj messages f2 (fun x _ => x)), Hid by auto. now apply fold_proj.
  - rewrite (fold_proj first_message f2 (fun x _ => x)), Hid by auto. now apply fold_proj.
  - rewrite (fold_proj previous f2 (fun x _ => x)), (fold_proj previous f1 (fun x _ => x)), !Hid; auto.
  - rewrite (fold_proj last_message f2 (fun x _ => x)), Hid by auto. now apply fold_proj.
  - rewrite (fold_proj stacks f2 (fun x _ => x)), Hid by auto. now apply fold_proj.
  - rewrite (fold_proj first_stack f2 (fun m r => hset r (ordering_name ix 0 r) m)) by auto.
    now rewrite (fold_proj first_stack f1 (fun x _ => x)), Hid by auto.
  - rewrite (fold_proj last_stack f2 (fun m r => hset r (ordering_name ix 0 r) m)) by auto.
    now rewrite (fold_proj last_stack f1 (fun x _ => x)), Hid by auto.
  - rewrite (fold_proj enums f2 (fun x _ => x)), (fold_proj enums f1 (fun x _ => x)), !Hid; auto.
  - rewrite (fold_proj endpoints f2 (fun m r => hset r [endpoint_name ix r] m)) by auto.
    now rewrite (fold_proj endpoints f1 (fun x _ => x)), Hid by auto.
  - rewrite (fold_proj sub_trees f2 (fun x _ => x)), (fold_proj sub_trees f1 (fun x _ => x)), !Hid; auto.
Qed.

Lemma fold_names (f : str -> str) l (m : hmap str) :
  fold_left (fun m x => hset (fst x) (snd x) m) (map (fun r => (r, f r)) l) m =
  fold_left (fun m r => hset r (f r) m) l m.
Proof. revert m. induction l as [|a l IH]; intros m; cbn; auto. Qed.

Lemma init_shape rs i ix t :
  NoDup rs -> NoDup i ->
  index t = ix -> messages t = [] -> first_message t = [] -> last_message t = [] -> stacks t = [] ->
  first_stack t = [] -> last_stack t = [] -> endpoints t = [] ->
  let t' := init_messages i (index_text ix) (init_roles rs (index_text ix) t) in
  shape ix rs i (fun _ _ => []) (message_name (index_text ix) 0) (fun _ => [])
    (ordering_name (index_text ix) 0) t' /\
  enums t' = enums t /\ sub_trees t' = sub_trees t /\ previous t' = previous t.
Proof.
  intros Nr Ni H1 H2 H3 H4 H5 H6 H7 H8. cbv zeta.
  destruct (init_roles_fields rs (index_text ix) t)
    as (F1 & F2 & F3 & F4 & F5 & F6 & F7 & F8 & F9 & F10 & F11 & F12).
  rewrite H2 in F3. rewrite H3 in F4. rewrite H4 in F6. rewrite H5 in F7. rewrite H6 in F8.
  rewrite H7 in F9. rewrite H8 in F11.
  rewrite (fold_hset_tab (A := hmap (list decl)) (fun _ => [])) in F3 by auto.
  rewrite (fold_hset_tab (A := hmap str) (fun _ => [])) in F4 by auto.
  rewrite (fold_hset_tab (A := hmap str) (fun _ => [])) in F6 by auto.
  rewrite (fold_hset_tab (A := list decl) (fun _ => [])) in F7 by auto.
  rewrite (fold_hset_tab (ordering_name (index_text ix) 0)) in F8 by auto.
  rewrite (fold_hset_tab (ordering_name (index_text ix) 0)) in F9 by auto.
  rewrite (fold_hset_tab (fun r => [endpoint_name (index_text ix) r])) in F11 by auto.
  unfold init_messages.
  split; [constructor|]; cbn [index messages first_message last_message stacks first_stack last_stack
     endpoints enums sub_trees previous set_messages set_first_message set_last_message]; auto.
  - now rewrite F1.
  - rewrite F3. unfold tab2.
    rewrite (map_tab rs _ (fun a x => fold_left (fun (m : hmap (list decl)) r => hset r [] m)
               (filter (fun r => negb (seqb r a)) i) x)).
    apply tab_ext. intros a _. apply (fold_hset_tab (fun _ => [])). now apply nodup_others.
  - rewrite F4. unfold tab2.
    rewrite (map_tab rs _ (fun a x => fold_left (fun (m : hmap str) x => hset (fst x) (snd x) m)
               (map (fun r => (r, message_name (index_text ix) 0 a r))
                  (filter (fun r => negb (seqb r a)) i)) x)).
    apply tab_ext. intros a _. rewrite fold_names.
    apply (fold_hset_tab (message_name (index_text ix) 0 a)). now apply nodup_others.
  - rewrite F6. unfold tab2.
    rewrite (map_tab rs _ (fun a x => fold_left (fun (m : hmap str) x => hset (fst x) (snd x) m)
               (map (fun r => (r, message_name (index_text ix) 0 a r))
                  (filter (fun r => negb (seqb r a)) i)) x)).
    apply tab_ext. intros a _. rewrite fold_names.
    apply (fold_hset_tab (message_name (index_text ix) 0 a)). now apply nodup_others.
Qed.

(** ** Messages *)

Section Title.
  Variable title : str -> str.

  (** The messages between [a] and [b], with the direction seen by [a]. *)
  Definition proj (a b : str) (ms : list msg) : list (bool * msg) :=
    flat_map (fun m =>
      if seqb (sender m) a && seqb (receiver m) b then [(true, m)]
      else if seqb (sender m) b && seqb (receiver m) a then [(false, m)] else []) ms.
  Definition partners (a : str) (ms : list msg) : list str :=
    flat_map (fun m =>
      if seqb (sender m) a then [receiver m]
      else if seqb (receiver m) a then [sender m] else []) ms.

  Fixpoint number_messages (ix : str) (k : nat) (a b : str) (l : list (bool * msg)) : list decl :=
    match l with
    | [] => []
    | (d, m) :: l' => message_decl title ix k d a b m :: number_messages ix (S k) a b l'
    end.
  Fixpoint number_stacks (ix : str) (k : nat) (a : str) (l : list str) : list decl :=
    match l with
    | [] => []
    | r :: l' => (ordering_name ix k a, RoleOf r (ordering_name ix (S k) a)) :: number_stacks ix (S k) a l'
    end.

  Lemma number_messages_app ix k a b l l' :
    number_messages ix k a b (l ++ l') =
    number_messages ix k a b l ++ number_messages ix (k + length l) a b l'.
  Proof.
    revert k. induction l as [|[d m] l IH]; intros k; cbn; [now rewrite Nat.add_0_r|].
    rewrite IH. now rewrite Nat.add_succ_r.
  Qed.
  Lemma number_stacks_app ix k a l l' :
    number_stacks ix k a (l ++ l') = number_stacks ix k a l ++ number_stacks ix (k + length l) a l'.
  Proof.
    revert k. induction l as [|r l IH]; intros k; cbn; [now rewrite Nat.add_0_r|].
    rewrite IH. now rewrite Nat.add_succ_r.
  Qed.
  Lemma number_messages_length ix k a b l : length (number_messages ix k a b l) = length l.
  Proof. revert k. induction l as [|[d m] l IH]; intros k; cbn; auto. Qed.
  Lemma number_stacks_length ix k a l : length (number_stacks ix k a l) = length l.
  Proof. revert k. induction l as [|r l IH]; intros k; cbn; auto. Qed.

  Ltac open H :=
    let a := fresh "a" in let E := fresh "E" in
    apply gbind_fine in H as (a & E & H).

  Lemma side_messages_shape ix o i D L K KL t send me other m t' :
    NoDup o -> NoDup i -> In other i -> other <> me ->
    shape ix o i D L K KL t ->
    side_messages title (index_text ix) send me other m t = Fine t' ->
    In me o /\
    shape ix o i
      (fun a b => if seqb a me && seqb b other
        then D me other ++ [message_decl title (index_text ix) (length (D me other)) send me other m]
        else D a b)
      (fun a b => if seqb a me && seqb b other
        then message_name (index_text ix) (S (length (D me other))) me other else L a b)
      K KL t' /\
    enums t' = enums t /\ sub_trees t' = sub_trees t /\ previous t' = previous t.
  Proof.
    intros No Ni Ho Hn [] H. unfold side_messages in H.
    open H. apply unwrap_fine in E. rewrite sh_messages0 in E. apply hget_tab_some in E as [Hme ->].
    open H. apply unwrap_fine in E. rewrite hget_tab in E by now apply in_others.
    injection E as <-. open H. apply unwrap_fine in E.
    cbn [last_message set_messages] in E, H. rewrite sh_last0 in E.
    apply hget_tab_some in E as [_ ->]. open H. clear E. injection H as <-.
    split; [easy|]. split; [constructor|]; cbn [index messages first_message last_message stacks
      first_stack last_stack endpoints enums sub_trees previous set_messages set_last_message]; auto.
    - rewrite sh_messages0. now rewrite hset_tab2.
    - rewrite sh_last0. now rewrite hset_tab2.
  Qed.

  Lemma side_stacks_shape ix o i D L K KL t me other t' :
    NoDup o -> shape ix o i D L K KL t ->
    side_stacks (index_text ix) me other t = Fine t' ->
    shape ix o i D L
      (fun a => if seqb a me then K me ++ [(ordering_name (index_text ix) (length (K me)) me,
                     RoleOf other (ordering_name (index_text ix) (S (length (K me))) me))] else K a)
      (fun a => if seqb a me then ordering_name (index_text ix) (S (length (K me))) me else KL a) t' /\
    enums t' = enums t /\ sub_trees t' = sub_trees t /\ previous t' = previous t.
  Proof.
    intros No [] H. unfold side_stacks in H.
    open H. apply unwrap_fine in E. rewrite sh_stacks0 in E. apply hget_tab_some in E as [Hme ->].
    open H. clear E. injection H as <-.
    split; [constructor|]; cbn [index messages first_message last_message stacks
      first_stack last_stack endpoints enums sub_trees previous set_stacks set_last_stack]; auto.
    - rewrite sh_stacks0. now rewrite hset_tab.
    - rewrite sh_last_stack0. now rewrite hset_tab.
  Qed.

  (** The declarations after the messages [ms] and the choice [ch]: the index
      in the name of the enum and the role that chooses. *)
  Definition choice_decl (ix : str) (send : bool) (s r : str) : body :=
    Timed send (choice_name ix s r) (lit " ") (lit "-2") false (lit "-1") false (lit " ") (lit "End").
  Definition Dof (ix : str) (ms : list msg) (ch : option (str * str)) (a b : str) : list decl :=
    number_messages ix 0 a b (proj a b ms) ++
    match ch with
    | Some (cx, s) =>
        if seqb a s then [(message_name ix (length (proj a b ms)) a b, choice_decl cx true s b)]
        else if seqb b s then [(message_name ix (length (proj a b ms)) a b, choice_decl cx false s a)]
        else []
    | None => []
    end.
  Definition Lof (ix : str) (ms : list msg) (ch : option (str * str)) (a b : str) : str :=
    let l := message_name ix (length (proj a b ms)) a b in
    match ch with
    | Some (_, s) => if seqb a s then [] else if seqb b s then [] else l
    | None => l
    end.
  Definition Kof (ix : str) (ms : list msg) (ch : option (str * str)) (a : str) : list decl :=
    number_stacks ix 0 a (partners a ms) ++
    match ch with
    | Some (_, s) =>
        [(ordering_name ix (length (partners a ms)) a,
          if seqb a s then Broadcast else RoleOf s (lit "RoleEnd"))]
    | None => []
    end.
  Definition KLof (ix : str) (ms : list msg) (ch : option (str * str)) (a : str) : str :=
    match ch with
    | Some _ => []
    | None => ordering_name ix (length (partners a ms)) a
    end.

  (** The tests of the clocks on successive messages. *)
  Fixpoint clock_tests (prev : hmap (hmap (str * bool))) (ms : list msg) : gres (hmap (hmap (str * bool))) :=
    match ms with
    | [] => Fine prev
    | m :: ms' => let* p := previous_message_wrt_clocks prev m in clock_tests p ms'
    end.
  Lemma clock_tests_snoc prev ms m :
    clock_tests prev (ms ++ [m]) = let* p := clock_tests prev ms in previous_message_wrt_clocks p m.
  Proof.
    revert prev. induction ms as [|x ms IH]; intros prev; cbn.
    - now destruct (previous_message_wrt_clocks prev m).
    - destruct (previous_message_wrt_clocks prev x); cbn; auto.
  Qed.

  Record holds (ix : list nat) (o i : list str) (ms : list msg) (ch : option (str * str)) (t : tree)
    : Prop := Holds {
    ho_shape : shape ix o i (Dof (index_text ix) ms ch) (Lof (index_text ix) ms ch)
      (Kof (index_text ix) ms ch) (KLof (index_text ix) ms ch) t;
    ho_roles : Forall (fun m => In (sender m) i /\ In (receiver m) i /\ sender m <> receiver m) ms;
    ho_clocks : clock_tests [] ms = Fine (previous t)
  }.

  Lemma proj_snoc a b ms m : proj a b (ms ++ [m]) = proj a b ms ++ proj a b [m].
  Proof. unfold proj. now rewrite flat_map_app. Qed.
  Lemma partners_snoc a ms m : partners a (ms ++ [m]) = partners a ms ++ partners a [m].
  Proof. unfold partners. now rewrite flat_map_app. Qed.

  Ltac cases :=
    repeat match goal with
    | |- context [seqb ?a ?b] =>
        let E := fresh "E" in destruct (seqb a b) eqn:E;
        [apply seqb_true in E; subst | apply seqb_false in E]; cbn [andb negb orb]
    end.

  Lemma seqb_sym a b : seqb a b = seqb b a.
  Proof.
    destruct (seqb a b) eqn:E.
    - apply seqb_true in E. subst. symmetry. apply seqb_refl.
    - symmetry. apply seqb_false. apply seqb_false in E. auto.
  Qed.

  Lemma messages_and_stacks_holds ix o i ms t m t' :
    NoDup o -> NoDup i -> In (sender m) i -> In (receiver m) i -> sender m <> receiver m ->
    holds ix o i ms None t ->
    messages_and_stacks title m t = Fine t' ->
    holds ix o i (ms ++ [m]) None t' /\ enums t' = enums t /\ sub_trees t' = sub_trees t.
  Proof.
    intros No Ni Hs Hr Hn [Hsh Hro Hcl] H. unfold messages_and_stacks in H.
    assert (index t = ix) as Hix by apply Hsh. rewrite Hix in H.
    open H. destruct (side_messages_shape _ _ _ _ _ _ _ _ _ _ _ _ _ No Ni Hr (not_eq_sym Hn) Hsh E)
      as (Ho1 & S1 & E1 & E2 & E3). clear E.
    open H. rewrite E3 in E.
    open H. rename E into Ecl. rename E0 into E.
    assert (shape ix o i _ _ _ _ (set_previous a a0)) as S1' by (destruct S1; constructor; eauto).
    destruct (side_messages_shape _ _ _ _ _ _ _ _ _ _ _ _ _ No Ni Hs Hn S1' E)
      as (Ho2 & S2 & E4 & E5 & E6). clear S1 E.
    open H. rename E into E7.
    eapply side_stacks_shape in E7 as (S3 & E8 & E9 & E10); [|exact No|exact S2].
    eapply side_stacks_shape in H as (S4 & E11 & E12 & E13); [|exact No|exact S3].
    cbn [enums sub_trees previous set_previous] in E4, E5, E6.
    split; [|split; congruence].
    constructor.
    - eapply shape_ext; [exact S4| | | |]; clear S2 S3 S4.
      + intros a3 b Ha Hb Hab. unfold Dof. rewrite !app_nil_r.
        rewrite proj_snoc, number_messages_app. rewrite !number_messages_length. cbn [proj flat_map app].
        rewrite (seqb_sym (sender m) a3), (seqb_sym (sender m) b), (seqb_sym (receiver m) a3),
          (seqb_sym (receiver m) b).
        cases; try congruence; cbn [number_messages app length]; rewrite ?app_nil_r, ?number_messages_length; try easy.
      + intros a3 b Ha Hb Hab. unfold Dof, Lof. rewrite !app_nil_r.
        rewrite proj_snoc, app_length, !number_messages_length. cbn [proj flat_map app].
        rewrite (seqb_sym (sender m) a3), (seqb_sym (sender m) b), (seqb_sym (receiver m) a3),
          (seqb_sym (receiver m) b).
        cases; try congruence; cbn [number_messages app length];
          rewrite ?app_nil_r, ?number_messages_length, ?Nat.add_1_r, ?Nat.add_0_r; try easy.
      + intros a3 Ha. unfold Kof. rewrite !app_nil_r.
        rewrite partners_snoc, number_stacks_app. cbn [partners flat_map app].
        rewrite (seqb_sym (sender m) a3), (seqb_sym (receiver m) a3).
        cases; try congruence; cbn [number_stacks app length];
          rewrite ?app_nil_r, ?number_stacks_length; try easy.
      + intros a3 Ha. unfold Kof, KLof. rewrite !app_nil_r.
        rewrite partners_snoc, app_length. cbn [partners flat_map app].
        rewrite (seqb_sym (sender m) a3), (seqb_sym (receiver m) a3).
        cases; try congruence; cbn [number_stacks app length];
          rewrite ?app_nil_r, ?number_stacks_length, ?Nat.add_1_r, ?Nat.add_0_r; try easy.
    - rewrite Forall_app. auto.
    - rewrite clock_tests_snoc, Hcl. cbn [gbind]. rewrite Ecl. congruence.
  Qed.

  (** ** Choices *)

  Lemma side_choice_shape ix o i D L K KL t cx send s r t' :
    NoDup o -> NoDup i -> In s i -> In r i -> r <> s ->
    shape ix o i D L K KL t ->
    side_choice cx send s r t = Fine t' ->
    shape ix o i
      (fun a b => if seqb a (if send then s else r) && seqb b (if send then r else s)
        then D a b ++ [(L a b, choice_decl cx send s r)] else D a b)
      (fun a b => if seqb a (if send then s else r) && seqb b (if send then r else s) then [] else L a b)
      K KL t' /\
    enums t' = enums t /\ sub_trees t' = sub_trees t /\ previous t' = previous t.
  Proof.
    intros No Ni Hs Hr Hn [] H. unfold side_choice in H.
    set (me := if send then s else r) in *. set (other := if send then r else s) in *.
    assert (In other i /\ other <> me) as [Ho Hne] by (subst me other; destruct send; auto).
    open H. apply unwrap_fine in E. rewrite sh_messages0 in E. apply hget_tab_some in E as [Hme ->].
    open H. apply unwrap_fine in E. rewrite hget_tab in E by now apply in_others.
    injection E as <-. open H. apply unwrap_fine in E. rewrite sh_last0 in E.
    apply hget_tab_some in E as [_ ->].
    open H. apply unwrap_fine in E. rewrite hget_tab in E by now apply in_others.
    injection E as <-. injection H as <-.
    split; [constructor|]; cbn [index messages first_message last_message stacks
      first_stack last_stack endpoints enums sub_trees previous set_messages set_last_message]; auto.
    - rewrite sh_messages0. rewrite hset_tab2 by auto. apply tab2_ext. intros a b _ _ _.
      destruct (seqb a me) eqn:E1; cbn; [|easy]. destruct (seqb b other) eqn:E2; [|easy].
      apply seqb_true in E1, E2. now rewrite E1, E2.
    - rewrite sh_last0. now rewrite hset_tab2.
  Qed.

  Lemma stack_choice_shape ix o i D L K KL t me b t' :
    NoDup o -> shape ix o i D L K KL t ->
    stack_choice me b t = Fine t' ->
    shape ix o i D L
      (fun a => if seqb a me then K a ++ [(KL a, b)] else K a)
      (fun a => if seqb a me then [] else KL a) t' /\
    enums t' = enums t /\ sub_trees t' = sub_trees t /\ previous t' = previous t.
  Proof.
    intros No [] H. unfold stack_choice in H.
    open H. apply unwrap_fine in E. rewrite sh_stacks0 in E. apply hget_tab_some in E as [Hme ->].
    open H. apply unwrap_fine in E. rewrite sh_last_stack0 in E. apply hget_tab_some in E as [_ ->].
    injection H as <-.
    split; [constructor|]; cbn [index messages first_message last_message stacks
      first_stack last_stack endpoints enums sub_trees previous set_stacks set_last_stack]; auto.
    - rewrite sh_stacks0. rewrite hset_tab by auto. apply tab_ext. intros a _.
      destruct (seqb a me) eqn:E1; [|easy]. apply seqb_true in E1. now rewrite E1.
    - rewrite sh_last_stack0. now rewrite hset_tab.
  Qed.

  Definition mem (x : str) (l : list str) : bool := existsb (seqb x) l.
  Lemma mem_in x l : mem x l = true <-> In x l.
  Proof.
    unfold mem. rewrite existsb_exists. split.
    - intros (y & H & E). apply seqb_true in E. now subst.
    - intros H. exists x. split; [easy|apply seqb_refl].
  Qed.
  Lemma mem_app x l l' : mem x (l ++ l') = mem x l || mem x l'.
  Proof. apply existsb_app. Qed.

  Lemma choice_loop_shape ix o i D L K KL cx s rest : forall doneR t t',
    NoDup o -> NoDup i -> In s i -> i = doneR ++ rest ->
    shape ix o i
      (fun a b => if (seqb a s && mem b doneR) || (seqb b s && mem a doneR)
        then D a b ++ [(L a b, choice_decl cx (seqb a s) s (if seqb a s then b else a))] else D a b)
      (fun a b => if (seqb a s && mem b doneR) || (seqb b s && mem a doneR) then [] else L a b)
      (fun a => if mem a doneR
        then K a ++ [(KL a, if seqb a s then Broadcast else RoleOf s (lit "RoleEnd"))] else K a)
      (fun a => if mem a doneR then [] else KL a) t ->
    choice_loop cx s rest t = Fine t' ->
    shape ix o i
      (fun a b => if (seqb a s && mem b i) || (seqb b s && mem a i)
        then D a b ++ [(L a b, choice_decl cx (seqb a s) s (if seqb a s then b else a))] else D a b)
      (fun a b => if (seqb a s && mem b i) || (seqb b s && mem a i) then [] else L a b)
      (fun a => if mem a i
        then K a ++ [(KL a, if seqb a s then Broadcast else RoleOf s (lit "RoleEnd"))] else K a)
      (fun a => if mem a i then [] else KL a) t' /\
    enums t' = enums t /\ sub_trees t' = sub_trees t /\ previous t' = previous t.
  Proof.
    induction rest as [|r rest IH]; intros doneR t t' No Ni Hs Hi Hsh H.
    - injection H as <-. rewrite app_nil_r in Hi. subst i. auto.
    - cbn [choice_loop] in H. open H. rename a into t1.
      assert (In r i) as Hr by (rewrite Hi; apply in_or_app; right; now left).
      assert (~ In r doneR) as Hrd.
      { rewrite Hi in Ni. apply NoDup_remove_2 in Ni. rewrite in_app_iff in Ni. tauto. }
      assert (mem r doneR = false) as Hmr.
      { apply not_true_is_false. now rewrite mem_in. }
      assert (i = (doneR ++ [r]) ++ rest) as Hi' by now rewrite <- app_assoc.
      assert (shape ix o i
        (fun a b => if (seqb a s && mem b (doneR ++ [r])) || (seqb b s && mem a (doneR ++ [r]))
          then D a b ++ [(L a b, choice_decl cx (seqb a s) s (if seqb a s then b else a))] else D a b)
        (fun a b => if (seqb a s && mem b (doneR ++ [r])) || (seqb b s && mem a (doneR ++ [r]))
          then [] else L a b)
        (fun a => if mem a (doneR ++ [r])
          then K a ++ [(KL a, if seqb a s then Broadcast else RoleOf s (lit "RoleEnd"))] else K a)
        (fun a => if mem a (doneR ++ [r]) then [] else KL a) t1 /\
        enums t1 = enums t /\ sub_trees t1 = sub_trees t /\ previous t1 = previous t) as (S1 & F1 & F2 & F3).
      { destruct (seqb r s) eqn:Ers; cbn [negb] in E.
        - apply seqb_true in Ers. subst r.
          destruct (stack_choice_shape _ _ _ _ _ _ _ _ _ _ _ No Hsh E) as (S1 & F1 & F2 & F3).
          split; [|auto]. eapply shape_ext; [exact S1| | | |]; clear S1.
          + intros a b Ha Hb Hab. rewrite !mem_app. cbn [mem existsb]. rewrite !orb_false_r.
            destruct (seqb a s) eqn:E1; destruct (seqb b s) eqn:E2; cbn [andb orb]; rewrite ?orb_false_r; try easy.
            apply seqb_true in E1, E2. congruence.
          + intros a b Ha Hb Hab. rewrite !mem_app. cbn [mem existsb]. rewrite !orb_false_r.
            destruct (seqb a s) eqn:E1; destruct (seqb b s) eqn:E2; cbn [andb orb]; rewrite ?orb_false_r; try easy.
            apply seqb_true in E1, E2. congruence.
          + intros a Ha. rewrite !mem_app. cbn [mem existsb]. rewrite !orb_false_r.
            destruct (seqb a s) eqn:E1; rewrite ?orb_true_r, ?orb_false_r; [|easy].
            apply seqb_true in E1. subst a. now rewrite Hmr.
          + intros a Ha. rewrite !mem_app. cbn [mem existsb]. rewrite !orb_false_r.
            destruct (seqb a s) eqn:E1; rewrite ?orb_true_r, ?orb_false_r; easy.
        - apply seqb_false in Ers.
          open E. destruct (side_choice_shape _ _ _ _ _ _ _ _ _ _ _ _ _ No Ni Hs Hr Ers Hsh E0)
            as (S1 & F1 & F2 & F3). clear E0.
          open E. destruct (side_choice_shape _ _ _ _ _ _ _ _ _ _ _ _ _ No Ni Hs Hr Ers S1 E0)
            as (S2 & F4 & F5 & F6). clear E0 S1.
          destruct (stack_choice_shape _ _ _ _ _ _ _ _ _ _ _ No S2 E) as (S3 & F7 & F8 & F9). clear S2.
          split; [|repeat split; congruence]. eapply shape_ext; [exact S3| | | |]; clear S3.
          + intros a1 b Ha Hb Hab. rewrite !mem_app. cbn [mem existsb]. rewrite !orb_false_r.
            destruct (seqb a1 s) eqn:E1; destruct (seqb b s) eqn:E2; cbn [andb orb];
              rewrite ?orb_false_r, ?andb_false_r, ?andb_true_r; try easy.
            * apply seqb_true in E1, E2. congruence.
            * apply seqb_true in E1. subst a1.
              destruct (seqb s r) eqn:E3; [apply seqb_true in E3; congruence|]. cbn [andb].
              destruct (seqb b r) eqn:E4; [apply seqb_true in E4; subst b; rewrite Hmr; reflexivity|].
              now rewrite orb_false_r.
            * destruct (seqb a1 r) eqn:E4; [apply seqb_true in E4; subst a1; rewrite Hmr; reflexivity|].
              now rewrite orb_false_r.
          + intros a1 b Ha Hb Hab. rewrite !mem_app. cbn [mem existsb]. rewrite !orb_false_r.
            destruct (seqb a1 s) eqn:E1; destruct (seqb b s) eqn:E2; cbn [andb orb];
              rewrite ?orb_false_r, ?andb_false_r, ?andb_true_r; try easy.
            * apply seqb_true in E1, E2. congruence.
            * apply seqb_true in E1. subst a1.
              destruct (seqb s r) eqn:E3; [apply seqb_true in E3; congruence|]. cbn [andb].
              destruct (seqb b r) eqn:E4; rewrite ?orb_true_r, ?orb_false_r; easy.
            * destruct (seqb a1 r) eqn:E4; rewrite ?orb_true_r, ?orb_false_r; easy.
          + intros a1 Ha. rewrite !mem_app. cbn [mem existsb]. rewrite !orb_false_r.
            destruct (seqb a1 r) eqn:E4; rewrite ?orb_true_r, ?orb_false_r; [|easy].
            apply seqb_true in E4. subst a1. rewrite Hmr.
            destruct (seqb r s) eqn:E5; [apply seqb_true in E5; congruence|easy].
          + intros a1 Ha. rewrite !mem_app. cbn [mem existsb]. rewrite !orb_false_r.
            destruct (seqb a1 r) eqn:E4; rewrite ?orb_true_r, ?orb_false_r; easy. }
      destruct (IH _ _ _ No Ni Hs Hi' S1 H) as (S2 & G1 & G2 & G3).
      split; [exact S2|]. repeat split; congruence.
  Qed.

  Lemma choice_loop_sender cx s rest t t' ix o i D L K KL :
    shape ix o i D L K KL t -> choice_loop cx s rest t = Fine t' -> (exists r, In r rest) -> In s o.
  Proof.
    intros [] H [r Hr]. destruct rest as [|r' rest]; [easy|]. cbn [choice_loop] in H. open H.
    destruct (seqb r' s); cbn [negb] in E.
    - unfold stack_choice in E. open E. apply unwrap_fine in E0. rewrite sh_stacks0 in E0.
      now apply hget_tab_some in E0 as [? _].
    - open E. unfold side_choice in E0. open E0. apply unwrap_fine in E1. rewrite sh_messages0 in E1.
      now apply hget_tab_some in E1 as [? _].
  Qed.

  Lemma choice_loop_holds ix o i ms cx s t t' :
    NoDup o -> NoDup i -> (forall a, In a o <-> In a i) -> i <> [] ->
    holds ix o i ms None t ->
    choice_loop cx s i t = Fine t' ->
    In s i /\ holds ix o i ms (Some (cx, s)) t' /\ enums t' = enums t /\ sub_trees t' = sub_trees t.
  Proof.
    intros No Ni Hoi Hne [Hsh Hro Hcl] H.
    assert (In s i) as Hs.
    { apply Hoi. eapply choice_loop_sender; eauto. destruct i as [|r i]; [easy|]. exists r. now left. }
    split; [easy|].
    destruct (choice_loop_shape ix o i _ _ _ _ cx s i [] t t' No Ni Hs eq_refl
      ltac:(eapply shape_ext; [exact Hsh| | | |]; intros; cbn; rewrite ?andb_false_r; reflexivity) H)
      as (S1 & F1 & F2 & F3).
    split; [|auto]. constructor; [|easy|congruence].
    eapply shape_ext; [exact S1| | | |]; clear S1.
    - intros a b Ha Hb Hab. cbv beta.
      assert (mem a i = true) as -> by (apply mem_in, Hoi, Ha).
      assert (mem b i = true) as -> by (apply mem_in, Hb).
      unfold Dof, Lof. rewrite !andb_true_r, app_nil_r.
      destruct (seqb a s), (seqb b s); cbn [orb]; rewrite ?app_nil_r; easy.
    - intros a b Ha Hb Hab. cbv beta.
      assert (mem a i = true) as -> by (apply mem_in, Hoi, Ha).
      assert (mem b i = true) as -> by (apply mem_in, Hb).
      unfold Lof. rewrite !andb_true_r. destruct (seqb a s), (seqb b s); cbn [orb]; easy.
    - intros a Ha. cbv beta. assert (mem a i = true) as -> by (apply mem_in, Hoi, Ha).
      unfold Kof. now rewrite app_nil_r.
    - intros a Ha. cbv beta. now assert (mem a i = true) as -> by (apply mem_in, Hoi, Ha).
  Qed.
End Title.
