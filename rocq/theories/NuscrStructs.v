(** * The structs of the generated file *)

From Coq Require Import Ascii String ZArith Bool Lia List.
From Verif Require Import Checker CheckerText CheckerAll Nuscr NuscrSpec NuscrMaps NuscrTree NuscrRun NuscrFile.
Import ListNotations.

Lemma in_hset {A} k (a : A) m k' a' : In (k', a') (hset k a m) -> k' = k /\ a' = a \/ In (k', a') m.
Proof.
  induction m as [|[x b] m IH]; cbn [hset].
  - intros [[= -> ->]|[]]. now left.
  - destruct (seqb x k) eqn:E.
    + apply seqb_true in E. subst x. intros [[= -> ->]|H]; [now left|right; now right].
    + intros [H|H]; [right; now left|]. destruct (IH H) as [?|?]; [now left|right; now right].
Qed.
Lemma key_hset {A} k (a : A) m x : x = k \/ In x (map fst m) -> In x (map fst (hset k a m)).
Proof.
  induction m as [|[y b] m IH]; cbn [hset map fst].
  - intros [->|[]]. now left.
  - destruct (seqb y k) eqn:E.
    + apply seqb_true in E. subst y. cbn [map fst]. intros [->|H]; [now left|exact H].
    + cbn [map fst]. intros [->|[->|H]]; [right; auto|now left|right; auto].
Qed.
Lemma hget_some_in {A} (m : hmap A) k a : hget m k = Some a -> In (k, a) m.
Proof.
  induction m as [|[x b] m IH]; cbn; [discriminate|]. destruct (seqb x k) eqn:E.
  - apply seqb_true in E. subst x. intros [= ->]. now left.
  - intros H. right. auto.
Qed.
Lemma unwrap_fine {A} (o : option A) a : unwrap o = Fine a -> o = Some a.
Proof. destruct o; [|discriminate]. now intros [= ->]. Qed.

(** The text kept for the payload of a message (line_is_message.rs:98-101, 119-121, 139-142, 154-156). *)
Definition pay_text (m : msg) : str := match payload m with Some p => p | None => [] end.

Section Title.
  Variable title : str -> str.
  (** The messages of the file. *)
  Variable M : msg -> Prop.

  Record known (g : global) : Prop := Known {
    kn_payloads : forall q, In q (payloads g) -> exists m, M m /\ payload m = Some q;
    kn_saved : forall x ix sv rt m, In (x, (ix, sv)) (loops g) -> In (rt, KMessage m) sv -> M m
  }.
  Record entered (ps : list str) (t : tree) : Prop := Entered {
    en_keys : forall l p, In (l, p) (messages_with_payloads t) ->
      exists m, M m /\ label m = l /\ p = pay_text m /\ (forall q, payload m = Some q -> In q ps);
    en_used : forall me ch other ds n sd pay clk lo loi hi hii rst next,
      In (me, ch) (messages t) -> In (other, ds) ch ->
      In (n, Timed sd pay clk lo loi hi hii rst next) ds ->
      lo = lit "-2" \/ exists l, In l (map fst (messages_with_payloads t)) /\ title l = pay
  }.
  Definition all_entered ps t : Prop := Forall (entered ps) (all_trees t).

  Lemma entered_more ps ps' t : incl ps ps' -> entered ps t -> entered ps' t.
  Proof.
    intros I [K U]. constructor; [|exact U]. intros l p H. destruct (K l p H) as (m & A & B & C & D).
    exists m. repeat split; auto.
  Qed.
  Lemma all_more ps ps' t : incl ps ps' -> all_entered ps t -> all_entered ps' t.
  Proof. intros I. apply Forall_impl. intros a. now apply entered_more. Qed.

  (** Only the two tables and the sub trees count. *)
  Lemma entered_same ps t t' :
    messages_with_payloads t' = messages_with_payloads t -> messages t' = messages t ->
    entered ps t -> entered ps t'.
  Proof. intros E1 E2 [K U]. constructor; rewrite ?E1, ?E2; assumption. Qed.
  Lemma entered_last ps t x : entered ps t -> entered ps (set_last_message t x).
  Proof. exact (entered_same ps t (set_last_message t x) eq_refl eq_refl). Qed.
  Lemma all_trees_eq t : all_trees t = t :: flat_map all_trees (sub_trees t).
  Proof. destruct t. reflexivity. Qed.
  Lemma all_root ps t t' : sub_trees t' = sub_trees t -> entered ps t' -> all_entered ps t -> all_entered ps t'.
  Proof.
    intros E H A. unfold all_entered in *. rewrite all_trees_eq in *. rewrite E.
    inversion A; subst. constructor; assumption.
  Qed.
  Lemma all_same ps t t' :
    messages_with_payloads t' = messages_with_payloads t -> messages t' = messages t ->
    sub_trees t' = sub_trees t -> all_entered ps t -> all_entered ps t'.
  Proof.
    intros E1 E2 E3 A. apply (all_root ps t); auto. apply (entered_same ps t); auto.
    unfold all_entered in A. rewrite all_trees_eq in A. inversion A; assumption.
  Qed.
  Lemma all_head ps t : all_entered ps t -> entered ps t.
  Proof. unfold all_entered. rewrite all_trees_eq. inversion 1; assumption. Qed.
  Lemma all_push ps t x : all_entered ps t -> all_entered ps x -> all_entered ps (push_sub_tree t x).
  Proof.
    intros A B. unfold all_entered in *. rewrite all_trees_eq in A |- *.
    inversion A as [|? ? A1 A2]; subst. constructor; [exact (entered_same ps t (push_sub_tree t x) eq_refl eq_refl A1)|].
    cbn [push_sub_tree sub_trees]. rewrite flat_map_app. apply Forall_app. split; [exact A2|].
    cbn [flat_map]. now rewrite app_nil_r.
  Qed.

  (** A declaration pushed into the table of the messages. *)
  Lemma pushed ps t me ch other ds d :
    entered ps t -> hget (messages t) me = Some ch -> hget ch other = Some ds ->
    (forall n sd pay clk lo loi hi hii rst next, d = (n, Timed sd pay clk lo loi hi hii rst next) ->
       lo = lit "-2" \/ exists l, In l (map fst (messages_with_payloads t)) /\ title l = pay) ->
    entered ps (set_messages t (hset me (hset other (ds ++ [d]) ch) (messages t))).
  Proof.
    intros [K U] E1 E2 Hd. apply hget_some_in in E1, E2. constructor; [exact K|].
    cbn [set_messages messages messages_with_payloads].
    intros me' ch' other' ds' n sd pay clk lo loi hi hii rst next H1 H2 H3.
    apply in_hset in H1 as [[-> ->]|H1]; [|eapply U; eauto].
    apply in_hset in H2 as [[-> ->]|H2]; [|eapply U; eauto].
    apply in_app_iff in H3 as [H3|[H3|[]]]; [eapply U; eauto|]. eapply Hd; eauto.
  Qed.

  Lemma side_messages_entered ps ix send me other m t t' :
    side_messages title ix send me other m t = Fine t' -> In (label m) (map fst (messages_with_payloads t)) ->
    entered ps t ->
    entered ps t' /\ messages_with_payloads t' = messages_with_payloads t /\ sub_trees t' = sub_trees t.
  Proof.
    unfold side_messages. intros H Hl He.
    apply gbind_fine in H as (ch & E1 & H). apply unwrap_fine in E1.
    apply gbind_fine in H as (own & E2 & H). apply unwrap_fine in E2.
    apply gbind_fine in H as (lasts & _ & H). apply gbind_fine in H as (? & _ & H). injection H as <-.
    split; [|split; reflexivity].
    apply (entered_last ps), (pushed ps t me ch other own (message_decl title ix (length own) send me other m) He E1 E2).
    intros n sd pay clk lo loi hi hii rst next [= <- <- <- <- <- <- <- <- <- <-]. right. eauto.
  Qed.
  Lemma side_stacks_entered ps ix me other t t' :
    side_stacks ix me other t = Fine t' -> entered ps t ->
    entered ps t' /\ messages_with_payloads t' = messages_with_payloads t /\ sub_trees t' = sub_trees t.
  Proof.
    unfold side_stacks. intros H He. apply gbind_fine in H as (own & _ & H).
    apply gbind_fine in H as (? & _ & H). injection H as <-. split; [|split; reflexivity].
    now apply (entered_same ps t).
  Qed.
  Lemma messages_and_stacks_entered ps m t t' :
    messages_and_stacks title m t = Fine t' -> In (label m) (map fst (messages_with_payloads t)) ->
    entered ps t -> entered ps t' /\ sub_trees t' = sub_trees t.
  Proof.
    unfold messages_and_stacks. intros H Hl He.
    apply gbind_fine in H as (t1 & E1 & H). apply gbind_fine in H as (p & _ & H).
    apply gbind_fine in H as (t3 & E3 & H). apply gbind_fine in H as (t4 & E4 & H).
    destruct (side_messages_entered ps _ _ _ _ _ _ _ E1 Hl He) as (A1 & A2 & A3).
    assert (entered ps (set_previous t1 p)) as A1' by now apply (entered_same ps t1).
    destruct (side_messages_entered ps _ _ _ _ _ _ _ E3) as (B1 & B2 & B3); [cbn; congruence|exact A1'|].
    destruct (side_stacks_entered ps _ _ _ _ _ E4 B1) as (C1 & C2 & C3).
    destruct (side_stacks_entered ps _ _ _ _ _ H C1) as (D1 & D2 & D3).
    split; [exact D1|]. rewrite D3, C3, B3. exact A3.
  Qed.

  Lemma in_sadd' x y s : In y (sadd x s) <-> y = x \/ In y s.
  Proof.
    unfold sadd. destruct (existsb (seqb x) s) eqn:E.
    - apply existsb_exists in E as (z & Hz & E). apply seqb_true in E. subst z.
      split; [auto|]. now intros [->|].
    - rewrite in_app_iff. cbn. intuition.
  Qed.

  Lemma update_messages_entered m g t g' t' :
    update_messages title m g t = Fine (g', t') -> M m -> known g -> all_entered (payloads g) t ->
    known g' /\ all_entered (payloads g') t' /\ incl (payloads g) (payloads g').
  Proof.
    unfold update_messages. intros H Hm [K1 K2] A.
    repeat match type of H with (if ?b then _ else _) = _ => destruct b; [discriminate|] end.
    apply gbind_fine in H as (t2 & E & H). injection H as <- <-. cbn [payloads].
    set (ps' := match payload m with Some p => sadd p (payloads g) | None => payloads g end) in *.
    assert (incl (payloads g) ps') as Hi.
    { unfold ps'. destruct (payload m); [|apply incl_refl]. intros q Hq. apply in_sadd'. now right. }
    split; [|split; [|exact Hi]].
    - constructor; [|exact K2]. cbn [payloads]. intros q Hq. unfold ps' in Hq.
      destruct (payload m) as [p|] eqn:Ep; [|auto]. apply in_sadd' in Hq as [->|Hq]; eauto.
    - apply (all_more _ ps') in A; [|exact Hi].
      assert (entered ps' (set_payloads t (hset (label m) (pay_text m) (messages_with_payloads t)))) as A1.
      { destruct (all_head _ _ A) as [U1 U2]. constructor; cbn [set_payloads messages messages_with_payloads].
        - intros l p H. apply in_hset in H as [[-> ->]|H]; [|auto]. exists m. repeat split; auto.
          intros q Hq. unfold ps'. rewrite Hq. apply in_sadd'. now left.
        - intros. destruct (U2 _ _ _ _ _ _ _ _ _ _ _ _ _ _ H H0 H1) as [?|(l & L1 & L2)]; [now left|right].
          exists l. split; [|exact L2]. apply key_hset. now right. }
      destruct (messages_and_stacks_entered ps' m _ _ E) as [B1 B2]; [|exact A1|].
      { cbn [set_payloads messages_with_payloads]. apply key_hset. now left. }
      now apply (all_root ps' t).
  Qed.

  Lemma side_choice_entered ps ix send s r t t' :
    side_choice ix send s r t = Fine t' -> all_entered ps t -> all_entered ps t'.
  Proof.
    unfold side_choice. intros H A.
    apply gbind_fine in H as (ch & E1 & H). apply unwrap_fine in E1.
    apply gbind_fine in H as (own & E2 & H). apply unwrap_fine in E2.
    apply gbind_fine in H as (lasts & _ & H). apply gbind_fine in H as (lst & _ & H). injection H as <-.
    apply (all_root ps t); [reflexivity| |exact A]. apply (entered_last ps), (pushed ps t _ ch _ own); auto; [now apply all_head|].
    intros n sd pay clk lo loi hi hii rst next [= <- <- <- <- <- <- <- <- <- <-]. now left.
  Qed.
  Lemma stack_choice_entered ps me b t t' :
    stack_choice me b t = Fine t' -> all_entered ps t -> all_entered ps t'.
  Proof.
    unfold stack_choice. intros H A. apply gbind_fine in H as (own & _ & H).
    apply gbind_fine in H as (lst & _ & H). injection H as <-. now apply (all_same ps t).
  Qed.
  Lemma choice_loop_entered ps ix s rs : forall t t',
    choice_loop ix s rs t = Fine t' -> all_entered ps t -> all_entered ps t'.
  Proof.
    induction rs as [|r rs IH]; intros t t' H A; cbn [choice_loop] in H.
    - injection H as <-. exact A.
    - apply gbind_fine in H as (t1 & E & H). apply IH in H; [exact H|].
      destruct (negb (seqb r s)).
      + apply gbind_fine in E as (t2 & E2 & E). apply gbind_fine in E as (t3 & E3 & E).
        eapply stack_choice_entered; [exact E|]. eapply side_choice_entered; [exact E3|].
        eapply side_choice_entered; eauto.
      + eapply stack_choice_entered; eauto.
  Qed.

  Lemma replay_entered ix x sv : forall go g t g' t',
    replay title ix x sv go g t = Fine (g', t') -> (forall rt m, In (rt, KMessage m) sv -> M m) ->
    known g -> all_entered (payloads g) t ->
    known g' /\ all_entered (payloads g') t' /\ incl (payloads g) (payloads g').
  Proof.
    induction sv as [|[rt k] sv IH]; intros go g t g' t' H Hs K A; cbn [replay] in H.
    - injection H as <- <-. split; [exact K|]. split; [exact A|apply incl_refl].
    - assert (forall rt m, In (rt, KMessage m) sv -> M m) as Hs' by (intros; eapply Hs; right; eauto).
      destruct (starts_loop x rt); [eauto|].
      destruct k as [nm rl|m|s| |y|y|]; try (eapply IH; eauto; fail).
      + destruct go; [|eauto]. apply gbind_fine in H as ([g1 t1] & E & H).
        apply update_messages_entered in E as (K1 & A1 & I1); auto; [|eapply Hs; now left].
        destruct (IH _ _ _ _ _ H Hs' K1 A1) as (K2 & A2 & I2). split; [exact K2|]. split; [exact A2|].
        now apply (incl_tran I1).
      + destruct go; [|eauto]. apply gbind_fine in H as (t1 & E & H). injection H as <- <-.
        split; [exact K|]. split; [|apply incl_refl]. eapply choice_loop_entered; eauto.
  Qed.

  Lemma init_messages_entered ps rs ix t :
    (forall me ch, In (me, ch) (messages t) -> ch = []) -> messages_with_payloads t = [] -> sub_trees t = [] ->
    all_entered ps (init_messages rs ix t).
  Proof.
    intros Hc Hm Hs. unfold all_entered. rewrite all_trees_eq. cbn [init_messages set_last_message set_first_message set_messages sub_trees].
    rewrite Hs. cbn [flat_map]. constructor; [|constructor]. constructor.
    - cbn [init_messages set_last_message set_first_message set_messages messages_with_payloads]. rewrite Hm. easy.
    - cbn [init_messages set_last_message set_first_message set_messages messages].
      intros me ch other ds n sd pay clk lo loi hi hii rst next H1 H2 H3. exfalso.
      apply in_map_iff in H1 as ([me' ch'] & [= -> <-] & H1). cbn [fst snd] in H2. apply Hc in H1. subst ch'.
      assert (forall l m, (forall o d, In (o, d) m -> d = []) ->
        forall o d, In (o, d) (fold_left (fun m r => hset r ([] : list decl) m) l m) -> d = []) as K.
      { induction l as [|r l IH]; intros m Hm' o d; cbn [fold_left]; [apply Hm'|].
        apply IH. intros o' d' H. apply in_hset in H as [[-> ->]|H]; [reflexivity|eauto]. }
      apply K in H2; [|easy]. subst ds. exact H3.
  Qed.
  Lemma init_roles_tables rs ix : forall t,
    (forall me ch, In (me, ch) (messages t) -> ch = []) -> messages_with_payloads t = [] -> sub_trees t = [] ->
    let t' := init_roles rs ix t in
    (forall me ch, In (me, ch) (messages t') -> ch = []) /\ messages_with_payloads t' = [] /\ sub_trees t' = [].
  Proof.
    intros t H1 H2 H3. unfold init_roles.
    assert (forall l t, (forall me ch, In (me, ch) (messages t) -> ch = []) /\ messages_with_payloads t = [] /\ sub_trees t = [] ->
      let t' := fold_left (fun t r =>
        set_stacks (set_last_message (set_first_message (set_messages t (hset r [] (messages t)))
        (hset r [] (first_message t))) (hset r [] (last_message t))) (hset r [] (stacks t))) l t in
      (forall me ch, In (me, ch) (messages t') -> ch = []) /\ messages_with_payloads t' = [] /\ sub_trees t' = []) as K1.
    { induction l as [|r l IH]; intros t0 H; cbn [fold_left]; [exact H|]. apply IH.
      destruct H as (A & B & C). cbn [set_stacks set_last_message set_first_message set_messages messages messages_with_payloads sub_trees].
      split; [|auto]. intros me ch Hin. apply in_hset in Hin as [[_ ->]|Hin]; [reflexivity|eauto]. }
    assert (forall l t, (forall me ch, In (me, ch) (messages t) -> ch = []) /\ messages_with_payloads t = [] /\ sub_trees t = [] ->
      let t' := fold_left (fun t r =>
        set_endpoints (set_last_stack (set_first_stack t (hset r (ordering_name ix 0 r) (first_stack t)))
        (hset r (ordering_name ix 0 r) (last_stack t)))
        (hset r [endpoint_name ix r] (endpoints t))) l t in
      (forall me ch, In (me, ch) (messages t') -> ch = []) /\ messages_with_payloads t' = [] /\ sub_trees t' = []) as K2.
    { induction l as [|r l IH]; intros t0 H; cbn [fold_left]; [exact H|]. apply IH. exact H. }
    apply K2, K1. auto.
  Qed.

  Lemma process_line_entered : forall fuel n lines g parent main offset n' rest' g' parent' main' offset',
    process_line title fuel n lines g parent main offset = Fine (n', rest', g', parent', main', offset') ->
    (forall l m, In l lines -> what l = KMessage m -> M m) ->
    (n = 0%nat -> (forall me ch, In (me, ch) (messages main) -> ch = []) /\
       messages_with_payloads main = [] /\ sub_trees main = []) ->
    known g -> all_entered (payloads g) parent -> all_entered (payloads g) main ->
    known g' /\ all_entered (payloads g') parent' /\ all_entered (payloads g') main' /\
    incl (payloads g) (payloads g') /\ incl rest' lines /\
    (n = 0%nat -> main' = main \/ n' <> 0%nat) /\ (n <> 0%nat -> n' <> 0%nat).
  Proof.
    induction fuel as [|f IH]; intros n lines g parent main offset n' rest' g' parent' main' offset' H HM Hz K Ap Am;
      cbn [process_line] in H; [discriminate|].
    destruct lines as [|l rest].
    { injection H as <- <- <- <- <- <-. do 5 (split; [first [assumption|apply incl_refl]|]).
      split; [now left|easy]. }
    assert (forall l0 m, In l0 rest -> what l0 = KMessage m -> M m) as HM' by (intros; eapply HM; [right|]; eauto).
    cbn [opening closing] in H.
    destruct (_ <? _)%nat in H; [discriminate|]. destruct (_ <? _)%nat in H; [discriminate|].
    destruct (_ <=? _)%nat in H.
    { injection H as <- <- <- <- <- <-.
      split; [destruct K as [K1 K2]; now constructor|].
      do 4 (split; [first [assumption|apply incl_refl|apply incl_tl, incl_refl]|]).
      split; [now right|easy]. }
    set (g1 := Global (output g) (roles g) (payloads g) (clocks g) (loops g) (opening g + opens l) (closing g + closes l)) in *.
    assert (known g1) as K1 by (destruct K as [K1 K2]; now constructor).
    assert (forall x, (known g' /\ all_entered (payloads g') parent' /\ all_entered (payloads g') main' /\
      incl (payloads x) (payloads g') /\ incl rest' rest /\
      (S n <> 0%nat -> n' <> 0%nat)) -> incl (payloads g) (payloads x) ->
      known g' /\ all_entered (payloads g') parent' /\ all_entered (payloads g') main' /\
      incl (payloads g) (payloads g') /\ incl rest' (l :: rest) /\
      (n = 0%nat -> main' = main \/ n' <> 0%nat) /\ (n <> 0%nat -> n' <> 0%nat)) as Wrap.
    { intros x (A & B & C & D & E & F) I. do 3 (split; [assumption|]). split; [now apply (incl_tran I)|].
      split; [now apply incl_tl|]. split; [right|intros _]; apply F; lia. }
    assert (forall x gg pp mm oo, process_line title f (S n) rest gg pp mm oo = Fine (n', rest', g', parent', main', offset') ->
      known gg -> all_entered (payloads gg) pp -> all_entered (payloads gg) mm -> payloads gg = payloads x ->
      known g' /\ all_entered (payloads g') parent' /\ all_entered (payloads g') main' /\
      incl (payloads x) (payloads g') /\ incl rest' rest /\ (S n <> 0%nat -> n' <> 0%nat)) as Go.
    { intros x gg pp mm oo E A B C D. apply IH in E; try assumption; [|lia]. rewrite <- D. tauto. }
    destruct (blank l).
    { apply (Wrap g1); [|apply incl_refl]. eapply Go; eauto. }

    assert (forall rt k, what l = k -> known (save (rt, k) g1)) as Hsave.
    { intros rt k Hk. constructor; [apply K1|]. cbn [save loops]. intros x ix sv rt' m Hin Hm.
      apply in_map_iff in Hin as ([x' [ix' sv']] & [= -> -> <-] & Hin). cbn [fst snd] in Hm.
      apply in_app_iff in Hm as [Hm|[[= -> ->]|[]]]; [eapply (kn_saved _ K1); eauto|].
      eapply HM; [now left|exact Hk]. }
    assert (forall rs ix s, all_entered (payloads g1) (init_sub_tree rs ix s)) as Hsub.
    { intros rs ix s. unfold init_sub_tree.
      destruct (init_roles_tables rs (index_text ix) (set_enums (empty_tree ix) [(index_text ix, (s, 0%nat))]))
        as (A & B & C); [easy|reflexivity|reflexivity|].
      now apply init_messages_entered. }
    assert (HM1 := fun m E => HM l m (or_introl eq_refl) E).
    destruct (what l) as [nm rs|m|s| |x|x|] eqn:Ew.
    - destruct (n =? 0)%nat eqn:En; [|discriminate]. apply Nat.eqb_eq in En.
      apply (Wrap g1); [|apply incl_refl].
      match type of H with process_line _ _ _ _ ?gg _ ?mm _ = _ => apply (Go g1 gg parent mm offset H) end.
      + destruct K1 as [A B]. now constructor.
      + exact Ap.
      + destruct (Hz En) as (A & B & C).
        destruct (init_roles_tables rs (lit "0") main A B C) as (A' & B' & C').
        now apply init_messages_entered.
      + reflexivity.
    - destruct (n =? 0)%nat; [discriminate|]. apply gbind_fine in H as ([g2 main2] & E & H).
      apply update_messages_entered in E as (K2 & A2 & I2); [|now apply HM1|now apply Hsave|exact Am].
      apply (Wrap g2); [|exact I2]. eapply Go; eauto. apply (all_more (payloads g)); [exact I2|exact Ap].
    - destruct (n =? 0)%nat; [discriminate|]. apply gbind_fine in H as (main2 & E & H).
      apply gbind_fine in H as ([[[[[n1 rest1] g2] main3] sub'] off'] & E1 & H).
      apply (choice_loop_entered (payloads g)) in E; [|now apply (all_same (payloads g) main)].
      apply IH in E1 as (A1 & A2 & A3 & A4 & A5 & _ & A7);
        [|exact HM'|lia|now apply Hsave|exact E|apply Hsub].
      apply IH in H as (B1 & B2 & B3 & B4 & B5 & _ & B7).
      + apply (Wrap g2); [|exact A4]. do 4 (split; [assumption|]). split; [now apply (incl_tran B5)|].
        intros _. apply B7, A7. lia.
      + intros l0 m Hl. apply HM', A5, Hl.
      + intros ->. exfalso. apply A7; lia.
      + exact A1.
      + apply (all_more (payloads g)); [exact A4|exact Ap].
      + now apply all_push.
    - destruct (n =? 0)%nat; [discriminate|]. destruct (rev (index main)) as [|lst up]; [discriminate|].
      apply gbind_fine in H as ([s count] & _ & H).
      apply gbind_fine in H as ([[[[[n1 rest1] g2] parent2] sub'] off'] & E1 & H).
      apply IH in E1 as (A1 & A2 & A3 & A4 & A5 & _ & A7);
        [|exact HM'|lia|exact K1|now apply (all_same (payloads g) parent)|apply Hsub].
      apply IH in H as (B1 & B2 & B3 & B4 & B5 & _ & B7).
      + apply (Wrap g2); [|exact A4]. do 4 (split; [assumption|]). split; [now apply (incl_tran B5)|].
        intros _. apply B7, A7. lia.
      + intros l0 m Hl. apply HM', A5, Hl.
      + intros ->. exfalso. apply A7; lia.
      + exact A1.
      + now apply all_push.
      + apply (all_more (payloads g)); [exact A4|exact Am].
    - destruct (n =? 0)%nat; [discriminate|]. apply (Wrap g1); [|apply incl_refl].
      match type of H with process_line _ _ _ _ ?gg _ _ _ = _ => apply (Go g1 gg parent main offset H) end; auto.
      constructor; [apply K1|]. cbn [save loops]. intros y ix sv rt' m Hin Hm.
      apply in_map_iff in Hin as ([y' [ix' sv']] & [= -> -> <-] & Hin). cbn [fst snd] in Hm.
      apply in_app_iff in Hm as [Hm|[Hm|[]]]; [|congruence].
      apply in_hset in Hin as [[-> Hin]|Hin]; [injection Hin as -> ->; easy|].
      eapply (kn_saved _ K1); eauto.
    - destruct (n =? 0)%nat; [discriminate|]. destruct (hget (loops g1) x) as [[ix sv]|] eqn:El; [|discriminate H].
      apply gbind_fine in H as ([g2 main2] & E & H).
      apply replay_entered in E as (K2 & A2 & I2); [| |exact K1|exact Am].
      2: { intros rt m Hin. apply hget_some_in in El. eapply (kn_saved _ K1); eauto. }
      apply (Wrap g2); [|exact I2]. eapply Go; eauto. apply (all_more (payloads g)); [exact I2|exact Ap].
    - destruct (n =? 0)%nat; [discriminate|]. apply (Wrap g1); [|apply incl_refl]. eapply Go; eauto.
  Qed.

  (** ** The file *)

  Definition items (ps : list str) (ts : list tree) : list (str * option str) :=
    flat_map (fun t => map (fun p => (p, None)) ps ++
      map (fun e => (fst e, match snd e with [] => None | x => Some x end)) (messages_with_payloads t)) ts.
  Definition add_item (d : list (str * option str)) (e : str * option str) := add_struct title (fst e) (snd e) d.
  Lemma structs_items ps ts d :
    fold_left (fun d t => tree_structs title ps t d) ts d = fold_left add_item (items ps ts) d.
  Proof.
    revert d. induction ts as [|t ts IH]; intros d; [reflexivity|]. cbn [fold_left items flat_map].
    rewrite fold_left_app, IH. unfold items. f_equal. rewrite fold_left_app. unfold tree_structs.
    assert (forall l x, fold_left add_item (map (fun p => (p, None)) l) x = fold_left (fun d p => add_struct title p None d) l x) as E1
      by (induction l as [|a l IHl]; intros x; [reflexivity|apply IHl]).
    rewrite E1. clear E1. generalize (fold_left (fun d p => add_struct title p None d) ps d).
    induction (messages_with_payloads t) as [|[l p] ms IHm]; intros x; [reflexivity|].
    cbn [map fold_left fst snd]. apply IHm.
  Qed.
  Lemma add_facts n pl d :
    let d' := add_struct title n pl d in
    (NoDup (map fst d) -> NoDup (map fst d')) /\ incl d d' /\ In (title n) (map fst d') /\
    (forall x, In x d' -> In x d \/ x = (title n, option_map title pl)).
  Proof.
    unfold add_struct. destruct (existsb (fun d => seqb (fst d) (title n)) d) eqn:E; cbn zeta.
    - apply existsb_exists in E as (x & Hx & E). apply seqb_true in E.
      split; [easy|]. split; [apply incl_refl|]. split; [rewrite <- E; now apply in_map|auto].
    - split; [|split; [apply incl_appl, incl_refl|split]].
      + intros N. rewrite map_app. cbn [map fst]. apply NoDup_rev in N. rewrite <- rev_involutive.
        apply NoDup_rev. rewrite rev_app_distr. cbn [rev app]. constructor; [|exact N].
        rewrite <- in_rev. intros Hin. apply in_map_iff in Hin as (x & Ex & Hx).
        assert (existsb (fun d => seqb (fst d) (title n)) d = true) as E'.
        { apply existsb_exists. exists x. split; [exact Hx|]. rewrite Ex. apply seqb_refl. }
        congruence.
      + rewrite map_app, in_app_iff. right. now left.
      + intros x Hx. apply in_app_iff in Hx as [Hx|[<-|[]]]; [now left|right]. now destruct pl.
  Qed.
  Lemma fold_facts its : forall d,
    let d' := fold_left add_item its d in
    (NoDup (map fst d) -> NoDup (map fst d')) /\ incl d d' /\
    (forall n pl, In (n, pl) its -> In (title n) (map fst d')) /\
    (forall x, In x d' -> In x d \/ exists n pl, In (n, pl) its /\ x = (title n, option_map title pl)).
  Proof.
    induction its as [|[n pl] its IH]; intros d; cbn zeta; cbn [fold_left].
    - split; [easy|]. split; [apply incl_refl|]. split; [easy|auto].
    - destruct (add_facts n pl d) as (A1 & A2 & A3 & A4). destruct (IH (add_item d (n, pl))) as (B1 & B2 & B3 & B4).
      split; [intros N; apply B1, A1, N|]. split; [now apply (incl_tran A2)|]. split.
      + intros n' pl' [[= <- <-]|H]; [|eauto]. eapply incl_map; [exact B2|exact A3].
      + intros x Hx. destruct (B4 x Hx) as [H|(n' & pl' & H & ->)].
        * destruct (A4 x H) as [H'| ->]; [now left|right]. exists n, pl. split; [now left|reflexivity].
        * right. exists n', pl'. split; [now right|reflexivity].
  Qed.
End Title.

(** A message of a part of the protocol. *)
Definition spoken (p : proto) (m : msg) : Prop := exists i, part p i /\ In m (part_messages p i).

Lemma messages_as_in safe ms ls l m :
  messages_as safe ms ls -> In l ls -> what l = KMessage m -> In m ms.
Proof.
  induction 1 as [|m' rt ms ls _ H IH|b ms ls H IH]; [easy|..].
  - intros [<-|Hl] E; [injection E as ->; now left|right; auto].
  - intros [<-|Hl] E; [discriminate|auto].
Qed.
Lemma branch_as_in x b ls l m : branch_as x b ls -> In l ls -> what l = KMessage m -> In m (said b).
Proof.
  intros [ls' H] Hl E. apply in_app_iff in Hl as [Hl|Hl]; [eapply messages_as_in; eauto|].
  unfold continue_as in Hl. destruct x as [x|]; [|easy]. destruct (again b); [|easy].
  destruct Hl as [<-|[]]. discriminate.
Qed.
Lemma branches_as_in x bs ls l m : branches_as x bs ls -> In l ls -> what l = KMessage m ->
  exists b, In b bs /\ In m (said b).
Proof.
  induction 1 as [|b bs ls ls' H H' IH]; [easy|].
  intros [<-|Hl] E; [discriminate|]. apply in_app_iff in Hl as [Hl|Hl].
  - exists b. split; [now left|]. eapply branch_as_in; eauto.
  - destruct (IH Hl E) as (b' & ? & ?). exists b'. split; [now right|auto].
Qed.
Lemma proto_spoken lt name p ls l m : proto_as lt name p ls -> In l ls -> what l = KMessage m -> spoken p m.
Proof.
  intros [ht ls1 ls2 ls3 H1 H2 H3 _] Hl E.
  assert (forall i b, nth_error (match ending p with Some (_, b, bs) => b :: bs | None => [] end) i = Some b ->
    In m (said b) -> spoken p m) as K.
  { intros i b Hn Hm. destruct (ending p) as [[[s b0] bs]|] eqn:Ee; [|now destruct i].
    exists (Some i). unfold part, part_messages. rewrite Ee. split.
    - apply Nat.lt_succ_r. change (S (length bs)) with (length (b0 :: bs)). apply nth_error_Some. congruence.
    - rewrite Hn. apply in_app_iff. now left. }
  destruct Hl as [<-|Hl]; [discriminate|]. rewrite !in_app_iff in Hl.
  destruct Hl as [Hl|[Hl|[Hl|[Hl|[Hl|Hl]]]]].
  - exists None. split; [exact Logic.I|]. apply in_app_iff. left. eapply messages_as_in; eauto.
  - unfold loop_open in Hl. destruct (loop p); [|easy]. destruct Hl as [<-|[]]. discriminate.
  - exists None. split; [exact Logic.I|]. apply in_app_iff. right. eapply messages_as_in; eauto.
  - destruct H3 as [|s b bs l1 l2 Hb Hbs]; [easy|].
    destruct Hl as [<-|[<-|Hl]]; [discriminate..|]. rewrite !in_app_iff in Hl.
    destruct Hl as [Hl|[Hl|[<-|[]]]]; [| |discriminate].
    + apply (K 0%nat b); [reflexivity|]. eapply branch_as_in; eauto.
    + destruct (branches_as_in _ _ _ _ _ Hbs Hl E) as (b' & Hb' & Hm).
      apply In_nth_error in Hb' as (j & Hj). apply (K (S j) b'); [exact Hj|exact Hm].
  - unfold loop_close in Hl. destruct (loop p); [|easy]. destruct Hl as [<-|[]]. discriminate.
  - destruct Hl as [<-|[]]. discriminate.
Qed.

Section File.
  Variable title : str -> str.
  (** The type of the field of the struct of a message. *)
  Definition struct_field (m : msg) : option str :=
    option_map title (match pay_text m with [] => None | x => Some x end).

  Record declared (p : proto) (f : rust_file) : Prop := Declared {
    de_once : NoDup (map fst (structs f));
    de_label : forall m, spoken p m -> lb m <> lit "-2" -> In (title (label m)) (map fst (structs f));
    de_only : forall n pl, In (n, pl) (structs f) ->
      (exists m, spoken p m /\ n = title (label m) /\ pl = struct_field m /\
         forall q, payload m = Some q -> In (title q) (map fst (structs f))) \/
      (exists m q, spoken p m /\ payload m = Some q /\ n = title q /\ pl = None)
  }.

  Lemma in_proj m ms a b : In m ms -> sender m = a -> receiver m = b -> a <> b -> In (true, m) (proj a b ms).
  Proof.
    intros Hm <- <- N. unfold proj. apply in_flat_map. exists m. split; [exact Hm|].
    rewrite !seqb_refl. now left.
  Qed.
  Lemma number_has ix a b l m : forall k, In (true, m) l ->
    exists j, In (message_decl title ix j true a b m) (number_messages title ix k a b l).
  Proof.
    induction l as [|[d m'] l IH]; intros k; [easy|]. intros [[= -> ->]|H]; cbn [number_messages].
    - exists k. now left.
    - destruct (IH (S k) H) as (j & Hj). exists j. now right.
  Qed.

  Theorem generator_structs lt name p lines f :
    proto_as lt name p lines -> NoDup (p_roles p) -> p_roles p <> [] ->
    generator title lines = Fine f -> declared p f.
  Proof.
    intros Hlines Nr Hne H. unfold generator in H.
    apply gbind_fine in H as (res & E & H).
    destruct (run_proto title lt name p lines _ _ Hlines Nr Hne E) as (n' & rest' & g & parent & main & off & subs & -> & Hoc & Hp).
    rewrite Hoc, Nat.eqb_refl in H. cbn [negb] in H. rewrite (pa_output _ _ _ _ _ Hp) in H. cbn [negb] in H.
    destruct (parsed_trees title p g main subs Hp) as (ts & Hts & Hall & _).
    destruct (process_line_entered title (spoken p) _ _ _ _ _ _ _ _ _ _ _ _ _ E) as (Kg & _ & Km & _).
    { intros l m. now apply (proto_spoken lt name). }
    { intros _. easy. }
    { constructor; easy. }
    { constructor; [|constructor]. constructor; cbn; intros; easy. }
    { constructor; [|constructor]. constructor; cbn; intros; easy. }
    apply gbind_fine in H as (s1 & _ & H). apply gbind_fine in H as (s2 & _ & H).
    apply gbind_fine in H as (s3 & _ & H). apply gbind_fine in H as (s4 & _ & H). injection H as <-.
    cbn [structs]. unfold all_entered in Km. rewrite Hts in *. clear Hts.
    rewrite structs_items. destruct (fold_facts title (items (payloads g) ts) []) as (F1 & _ & F3 & F4).
    assert (forall l p, In (l, p) (flat_map messages_with_payloads ts) ->
      In (l, match p with [] => None | x => Some x end) (items (payloads g) ts)) as Hin.
    { intros l q Hl. apply in_flat_map in Hl as (t & Ht & Hl). apply in_flat_map. exists t. split; [exact Ht|].
      apply in_app_iff. right. apply in_map_iff. exists (l, q). split; [now destruct q|exact Hl]. }
    constructor; cbn [structs].
    - apply F1. constructor.
    - intros m (i & Hi & Hm) Hlb. apply parts_ok in Hi.
      assert (exists t, In t ts /\ holds title (part_index i) (order_of p i) (sort_by (fun r => r) (p_roles p))
        (part_messages p i) (choice_of (part_choice p i)) t) as (t & Ht & Hh).
      { clear - Hall Hi. induction Hall as [|j t js ts Hj _ IH]; [easy|]. destruct Hi as [->|Hi].
        - exists t. split; [now left|apply Hj].
        - destruct (IH Hi) as (t' & ? & ?). exists t'. split; [now right|auto]. }
      pose proof (proj1 (Forall_forall _ _) Km t Ht) as [_ U].
      destruct Hh as [Sh Hr _]. pose proof (proj1 (Forall_forall _ _) Hr m Hm) as (R1 & R2 & R3).
      assert (In (sender m) (order_of p i)) as R1'.
      { destruct i; cbn [order_of]; [exact R1|]. now apply sort_in. }
      destruct (number_has (index_text (part_index i)) (sender m) (receiver m) (proj (sender m) (receiver m) (part_messages p i)) m 0)
        as (j & Hj). { now apply in_proj. }
      pose proof (sh_messages _ _ _ _ _ _ _ _ Sh) as Em.
      assert (exists ch ds, In (sender m, ch) (messages t) /\ In (receiver m, ds) ch /\
        In (message_decl title (index_text (part_index i)) j true (sender m) (receiver m) m) ds) as (ch & ds & I1 & I2 & I3).
      { rewrite Em. unfold tab2, tab. eexists _, _. split; [apply in_map_iff; exists (sender m); now split|].
        split; [apply in_map_iff; exists (receiver m); split; [reflexivity|]|].
        - unfold others. apply filter_In. split; [exact R2|]. apply negb_true_iff, seqb_false. auto.
        - unfold Dof. apply in_app_iff. left. exact Hj. }
      destruct (U _ _ _ _ _ _ _ _ _ _ _ _ _ _ I1 I2 I3) as [L|(l & L1 & L2)]; [easy|].
      rewrite <- L2. apply in_map_iff in L1 as ([l' q] & <- & L1). eapply F3, Hin.
      apply in_flat_map. exists t. split; [exact Ht|exact L1].
    - intros n pl Hx. destruct (F4 _ Hx) as [[]|(n0 & pl0 & Hi & Ex)].
      injection Ex as -> ->. apply in_flat_map in Hi as (t & Ht & Hi). apply in_app_iff in Hi as [Hi|Hi].
      + apply in_map_iff in Hi as (q & [= -> <-] & Hq). right.
        destruct (kn_payloads _ _ Kg _ Hq) as (m & Hm & Eq). exists m, n0. repeat split; auto.
      + apply in_map_iff in Hi as ([l q] & [= <- <-] & Hl). left. cbn [fst snd] in *.
        pose proof (proj1 (Forall_forall _ _) Km t Ht) as [U _].
        destruct (U l q Hl) as (m & M1 & <- & -> & M4). exists m. split; [exact M1|]. split; [reflexivity|].
        split; [reflexivity|]. intros q' Hq'. apply (F3 q' None).
        apply in_flat_map. exists t. split; [exact Ht|]. apply in_app_iff. left.
        apply in_map_iff. exists q'. split; [reflexivity|]. now apply M4.
  Qed.
End File.
