(** * The generator for timed nuscr protocols: C34, C35, C37, C38

    The model is Nuscr.v and, for the text of the lines, NuscrText.v; the
    specification (reading the declarations of the file, the types a protocol
    asks for, time) is NuscrSpec.v, the text of a protocol NuscrTextSpec.v. *)

From Coq Require Import Ascii String ZArith QArith Bool Lia Permutation Sorted Lqa List.
From Verif Require Import Checker CheckerText CheckerAll Nuscr NuscrSpec NuscrMaps NuscrTree NuscrRun NuscrFile
  NuscrNames NuscrClocks NuscrAccept Regex NuscrText NuscrTextSpec NuscrReadAll NuscrPrint.
Import ListNotations.

Lemma text_roles name p ls : protocol_text name p ls -> p_roles p <> [].
Proof.
  intros T E. assert (exists s, header_text name (p_roles p) s) as [s H] by (destruct T; eauto).
  destruct H as [i g1 g2 g3 t q t' _ _ _ _ _ H _ _]. rewrite E in H. inversion H.
Qed.
Lemma text_written title name p ls f : protocol_text name p ls -> no_rec p -> NoDup (p_roles p) ->
  generator_text title ls = Fine f -> written title p f.
Proof.
  intros T R N H. destruct (read_protocol name p ls T R) as [lt A].
  exact (generator_written title lt name p _ f A N (text_roles name p ls T) H).
Qed.

(** ** C34: the types *)

(** The endpoint of each role in each part (the start, or a branch): one field
    per other role, in the order of the roles given to [generate_atmp!], which
    are the roles in alphabetical order; each field stands for the messages
    exchanged with that role in the order of the protocol, with their payload,
    clock, window and reset; the stack lists the partners in the order of the
    protocol. *)
Theorem generated_endpoints : forall title name p ls f i a,
  protocol_text name p ls -> no_rec p -> NoDup (p_roles p) ->
  generator_text title ls = Fine f -> part p i -> In a (p_roles p) ->
  Permutation (meshed_roles f) (p_roles p) /\ StronglySorted (fun x y => str_le x y = true) (meshed_roles f) /\
  exists e, In e (endpoint_types f) /\ ep_name e = endpoint_name (part_text i) a /\ ep_role e = a /\
    Forall2 (fun b n => session_is (types f) n
                          (wanted_session title a b (part_messages p i) (part_choice p i)))
      (filter (fun b => negb (seqb b a)) (meshed_roles f)) (ep_sessions e) /\
    stack_is (types f) (ep_stack e) (wanted_stack a (part_messages p i) (part_choice p i)).
Proof.
  intros title name p ls f i a T R N H Hi Ha. pose proof (text_written title name p ls f T R N H) as W.
  rewrite (wr_roles _ _ _ W). split; [apply sort_perm|]. split; [apply sort_sorted|].
  exists (Endpoint (endpoint_name (part_text i) a)
    (map (message_name (part_text i) 0 a) (others a (sort_by (fun r => r) (p_roles p))))
    (ordering_name (part_text i) 0 a) a).
  assert (In i (parts p)) as Hp by now apply parts_ok.
  assert (In a (order_of p i)) as Ho by now apply order_in.
  split; [|do 2 (split; [reflexivity|]); split].
  - rewrite (wr_endpoints _ _ _ W). apply in_flat_map. exists i. split; [exact Hp|].
    apply in_map_iff. exists a. split; [reflexivity|]. now apply sort_in in Ha.
  - cbn [ep_sessions].
    change (filter (fun b => negb (seqb b a)) (sort_by (fun r => r) (p_roles p)))
      with (others a (sort_by (fun r => r) (p_roles p))).
    assert (forall l, incl l (others a (sort_by (fun r => r) (p_roles p))) ->
      Forall2 (fun b n => session_is (types f) n
        (wanted_session title a b (part_messages p i) (part_choice p i))) l
        (map (message_name (part_text i) 0 a) l)) as K.
    { induction l as [|b l IH]; intros Hl; [constructor|]. cbn [map]. constructor.
      - apply (block_session title (types f) (part_text i) (lit "0") a b _ (part_choice p i)); [reflexivity|].
        intros x Hx. rewrite (wr_types _ _ _ W). apply in_app_iff. left. apply in_flat_map.
        exists i. split; [exact Hp|]. unfold part_sessions. apply in_flat_map. exists a. split; [exact Ho|].
        apply in_flat_map. exists b. split; [apply Hl; now left|]. exact Hx.
      - apply IH. intros x Hx. apply Hl. now right. }
    apply K, incl_refl.
  - apply (block_stack (types f) (part_text i) (lit "0") a _ (part_choice p i)).
    intros x Hx. rewrite (wr_types _ _ _ W). apply in_app_iff. right. apply in_flat_map.
    exists i. split; [exact Hp|]. unfold part_stacks. apply in_flat_map. exists a. split; [exact Ho|]. exact Hx.
Qed.
Print Assumptions generated_endpoints.

(** There are no other endpoints. *)
Theorem generated_endpoints_only : forall title name p ls f e,
  protocol_text name p ls -> no_rec p -> NoDup (p_roles p) ->
  generator_text title ls = Fine f -> In e (endpoint_types f) ->
  exists i, part p i /\ In (ep_role e) (p_roles p) /\ ep_name e = endpoint_name (part_text i) (ep_role e).
Proof.
  intros title name p ls f e T R N H He. pose proof (text_written title name p ls f T R N H) as W.
  rewrite (wr_endpoints _ _ _ W) in He. apply in_flat_map in He as (i & Hi & He).
  apply in_map_iff in He as (a & <- & Ha). exists i. split; [now apply parts_ok|].
  cbn. split; [now apply sort_in|reflexivity].
Qed.
Print Assumptions generated_endpoints_only.

Lemma wanted_dual title a b ms ch : a <> b ->
  sdual (wanted_session title a b ms ch) = wanted_session title b a ms ch.
Proof.
  intros Hab. induction ms as [|m ms IH]; cbn [wanted_session].
  - destruct ch as [s|]; [|reflexivity]. destruct (seqb a s) eqn:Ea, (seqb b s) eqn:Eb; try reflexivity.
    apply seqb_true in Ea, Eb. congruence.
  - destruct (seqb (sender m) a && seqb (receiver m) b) eqn:E1,
      (seqb (sender m) b && seqb (receiver m) a) eqn:E2; cbn [sdual negb]; rewrite ?IH; try reflexivity.
    apply andb_prop in E1 as [E1 _]. apply andb_prop in E2 as [E2 _]. apply seqb_true in E1, E2. congruence.
Qed.

(** The position of a role among the fields of another. *)
Definition field (f : rust_file) (e : endpoint) (b n : str) : Prop :=
  In (b, n) (combine (filter (fun r => negb (seqb r (ep_role e))) (meshed_roles f)) (ep_sessions e)).

Lemma forall2_field {A B} (R : A -> B -> Prop) l l' : Forall2 R l l' ->
  forall a, In a l -> exists b, In (a, b) (combine l l') /\ R a b.
Proof.
  induction 1 as [|x y l l' H F IH]; intros a; [easy|]. intros [->|Ha].
  - exists y. split; [now left|easy].
  - destruct (IH a Ha) as (b & Hb & HR). exists b. split; [now right|easy].
Qed.

(** The field of [a] for [b] and the field of [b] for [a] are dual: the
    endpoints of a part can be given to [fork] together. *)
Theorem generated_fields_dual : forall title name p ls f i a b,
  protocol_text name p ls -> no_rec p -> NoDup (p_roles p) ->
  generator_text title ls = Fine f -> part p i ->
  In a (p_roles p) -> In b (p_roles p) -> a <> b ->
  exists ea eb na nb s,
    In ea (endpoint_types f) /\ ep_name ea = endpoint_name (part_text i) a /\ ep_role ea = a /\
    In eb (endpoint_types f) /\ ep_name eb = endpoint_name (part_text i) b /\ ep_role eb = b /\
    field f ea b na /\ field f eb a nb /\
    session_is (types f) na s /\ session_is (types f) nb (sdual s).
Proof.
  intros title name p ls f i a b T R N H Hi Ha Hb Hab.
  destruct (generated_endpoints title name p ls f i a T R N H Hi Ha) as (P & S & ea & E1 & E2 & E3 & E4 & _).
  destruct (generated_endpoints title name p ls f i b T R N H Hi Hb) as (_ & _ & eb & F1 & F2 & F3 & F4 & _).
  assert (forall x y, In y (p_roles p) -> y <> x -> In y (filter (fun r => negb (seqb r x)) (meshed_roles f))) as K.
  { intros x y Hy Hne. apply filter_In. split; [eapply Permutation_in; [symmetry; exact P|exact Hy]|].
    apply seqb_false in Hne. now rewrite Hne. }
  destruct (forall2_field _ _ _ E4 b (K a b Hb (not_eq_sym Hab))) as (na & Hna & Sa).
  destruct (forall2_field _ _ _ F4 a (K b a Ha Hab)) as (nb & Hnb & Sb).
  exists ea, eb, na, nb, (wanted_session title a b (part_messages p i) (part_choice p i)).
  unfold field. rewrite E3, F3, (wanted_dual title a b _ _ Hab).
  do 9 (split; [first [assumption|reflexivity]|]). exact Sb.
Qed.
Print Assumptions generated_fields_dual.

(** The choices: when role [s] chooses, every other role gets one enum whose
    variants are its endpoints in the branches, one per branch and in order;
    the payload of the choice in the sessions above is that enum. *)
Theorem generated_enums : forall title name p ls f s b bs,
  protocol_text name p ls -> no_rec p -> NoDup (p_roles p) ->
  generator_text title ls = Fine f -> ending p = Some (s, b, bs) ->
  forall n vs, In (n, vs) (enum_types f) <->
    exists r, In r (p_roles p) /\ r <> s /\ n = choice_name (lit "0") s r /\
      vs = map (fun k => endpoint_name (part_text (Some k)) r) (seq 0 (length (b :: bs))).
Proof.
  intros title name p ls f s b bs T R N H He n vs. pose proof (text_written title name p ls f T R N H) as W.
  rewrite (wr_enums _ _ _ W), He, in_flat_map. split.
  - intros (r & Hr & Hin). destruct (seqb r s) eqn:E; [easy|]. destruct Hin as [[= <- <-]|[]].
    exists r. apply sort_in in Hr. apply seqb_false in E. auto.
  - intros (r & Hr & Hne & -> & ->). exists r. split; [now apply sort_in in Hr|].
    apply seqb_false in Hne. rewrite Hne. now left.
Qed.
Print Assumptions generated_enums.

(** When no role has [To] in its name no two declarations of the file have
    the same name, so that a name stands for one type only. *)
Theorem generated_names_distinct : forall title name p ls f,
  protocol_text name p ls -> no_rec p -> clean p -> generator_text title ls = Fine f ->
  NoDup (map fst (types f) ++ map fst (enum_types f) ++ map ep_name (endpoint_types f)) /\
  (forall n s s', session_is (types f) n s -> session_is (types f) n s' -> s = s') /\
  (forall n k k', stack_is (types f) n k -> stack_is (types f) n k' -> k = k').
Proof.
  intros title name p ls f T R C H. pose proof (text_written title name p ls f T R (proj1 C) H) as W.
  split; [exact (names_nodup title p f C W)|].
  pose proof (types_nodup title p f C W) as Nd.
  assert (forall x, In x (map fst (types f)) -> (exists i k a b, x = message_name i k a b) \/ exists i k a, x = ordering_name i k a)
    as K by (intros x Hx; destruct (types_names title p f x W Hx) as [(i & k & a & b & ->)|(i & k & a & ->)]; eauto 8).
  split; intros n s s'.
  - apply session_is_unique; [exact Nd|]. intros Hx.
    destruct (K _ Hx) as [(i & k & a & b & E)|(i & k & a & E)]; discriminate E.
  - apply stack_is_unique; [exact Nd|]. intros Hx.
    destruct (K _ Hx) as [(i & k & a & b & E)|(i & k & a & E)]; discriminate E.
Qed.
Print Assumptions generated_names_distinct.

(** The clocks used in the messages of a role are started by its functions,
    and the roles of the messages are declared and different. *)
Theorem generated_clocks : forall title name p ls f i m,
  protocol_text name p ls -> no_rec p -> NoDup (p_roles p) ->
  generator_text title ls = Fine f -> part p i -> In m (part_messages p i) ->
  In (sender m) (p_roles p) /\ In (receiver m) (p_roles p) /\ sender m <> receiver m /\
  forall r ix n ty cs, In (r, ix, n, ty, cs) (functions f) -> r = sender m \/ r = receiver m -> In (clock m) cs.
Proof.
  intros title name p ls f i m T R N H Hi Hm. pose proof (text_written title name p ls f T R N H) as W.
  pose proof (wr_roles_ok _ _ _ W i Hi) as K. rewrite Forall_forall in K. destruct (K m Hm) as (R1 & R2 & R3).
  do 3 (split; [assumption|]). intros r ix n ty cs Hx.
  exact (wr_clocks _ _ _ W i m (r, ix, n, ty, cs) Hi Hm Hx).
Qed.
Print Assumptions generated_clocks.

(** A protocol like tests/nuscr_mod/correct/Recursion.nuscr. *)
Definition tm (l : string) (p : option str) (a b : string) : msg :=
  Msg (lit l) p (lit a) (lit b) true (lit "0") (lit "1") true (lit "a") None.
Definition rolesABC : list str := [lit "C"; lit "A"; lit "B"].
Definition looping : proto :=
  Proto rolesABC [tm "Init" None "A" "B"] (Some (lit "Loop"))
    [tm "Ask" None "A" "B"; tm "Tell" (Some (lit "text")) "B" "C"]
    (Some (lit "A", Branch [tm "More" None "A" "B"] true,
           [Branch [tm "Stop" None "C" "A"] false; Branch [] false])).
Definition idt (x : str) : str := x.
Definition fine {A} (r : gres A) : bool := match r with Fine _ => true | _ => false end.

Lemma rolesABC_ok : NoDup rolesABC /\ rolesABC <> [].
Proof. split; [|discriminate]. repeat constructor; cbn; intuition discriminate. Qed.

Example looping_accepted :
  protocol_text (lit "P") looping (print (lit "P") looping) /\ no_rec looping /\
  fine (generator_text idt (print (lit "P") looping)) = true /\ clean looping /\
  part looping (Some 0%nat) /\ part looping (Some 2%nat) /\ ~ part looping (Some 3%nat) /\
  wanted_session idt (lit "A") (lit "B") (part_messages looping (Some 0%nat)) (part_choice looping (Some 0%nat)) =
    STimed true (lit "More") (lit "a") (lit "0") true (lit "1") true (lit " ")
      (STimed true (lit "Ask") (lit "a") (lit "0") true (lit "1") true (lit " ")
        (STimed true (choice_name (lit "0") (lit "A") (lit "B")) (lit " ") (lit "-2") false (lit "-1") false (lit " ")
          SEnd)) /\
  wanted_stack (lit "B") (part_messages looping (Some 0%nat)) (part_choice looping (Some 0%nat)) =
    KRole (lit "A") (KRole (lit "A") (KRole (lit "C") (KRole (lit "A") KEnd))).
Proof.
  split; [now apply print_ok|]. split; [now apply no_rec_ok|]. split; [now vm_compute|]. split.
  { split; [apply rolesABC_ok|]. intros r H (x & y & E).
    cbn in H. destruct H as [<-|[<-|[<-|[]]]]; apply (f_equal (@length _)) in E;
      rewrite !app_length in E; cbn in E; lia. }
  split; [cbn; lia|]. split; [cbn; lia|]. split; [cbn; lia|]. split; reflexivity.
Qed.

(** With [To] in names of roles two declarations can have the same name: the
    file is not valid Rust. *)
Definition colliding : proto :=
  Proto [lit "A"; lit "BToC"; lit "AToB"; lit "C"]
    [tm "One" None "A" "BToC"; tm "Two" None "AToB" "C"] None [] None.
Theorem names_distinct_refuted : exists name p ls f,
  protocol_text name p ls /\ no_rec p /\ NoDup (p_roles p) /\ generator_text idt ls = Fine f /\
  ~ NoDup (map fst (types f)) /\
  exists n s s', session_is (types f) n s /\ session_is (types f) n s' /\ s <> s'.
Proof.
  destruct (generator_text idt (print (lit "P") colliding)) as [f| | |] eqn:E; [|vm_compute in E; discriminate..].
  assert (NoDup (p_roles colliding)) as N by (repeat constructor; cbn; intuition discriminate).
  assert (protocol_text (lit "P") colliding (print (lit "P") colliding)) as T by now apply print_ok.
  assert (no_rec colliding) as R by now apply no_rec_ok.
  exists (lit "P"), colliding, (print (lit "P") colliding), f.
  split; [exact T|]. split; [exact R|]. split; [exact N|]. split; [exact E|].
  assert (exists s s', session_is (types f) (lit "Message_0_v_0_FromAToBToC") s /\
    session_is (types f) (lit "Message_0_v_0_FromAToBToC") s' /\ s <> s') as (s & s' & H1 & H2 & H3).
  { pose proof (text_written idt (lit "P") colliding _ f T R N E) as W.
    exists (wanted_session idt (lit "A") (lit "BToC") (before colliding) None),
      (wanted_session idt (lit "AToB") (lit "C") (before colliding) None).
    split; [|split; [|discriminate]];
      [refine (block_session idt (types f) (lit "0") (lit "0") (lit "A") (lit "BToC") (before colliding) None 0%nat eq_refl _)
      |refine (block_session idt (types f) (lit "0") (lit "0") (lit "AToB") (lit "C") (before colliding) None 0%nat eq_refl _)];
      intros x Hx; rewrite (wr_types _ _ _ W); apply in_app_iff; left; apply in_flat_map;
      exists None; (split; [now left|]); apply in_flat_map.
    - exists (lit "A"). split; [now left|]. apply in_flat_map. exists (lit "BToC"). split; [|exact Hx].
      vm_compute. tauto.
    - exists (lit "AToB"). split; [cbn; tauto|]. apply in_flat_map. exists (lit "C"). split; [|exact Hx].
      vm_compute. tauto. }
  split; [|eauto 6].
  intros Nd. apply H3. refine (session_is_unique (types f) _ _ _ Nd _ H1 H2).
  vm_compute in E. injection E as <-. cbn. intuition discriminate.
Qed.
Print Assumptions names_distinct_refuted.

(** ** C35: the windows that are accepted *)

(** A protocol is accepted exactly when the roles of its messages are declared
    and different, the chooser is declared, and the windows pass the tests
    (stated below without the generator for the cases where they are right). *)
Theorem accepted_iff : forall title name p ls,
  protocol_text name p ls -> no_rec p -> NoDup (p_roles p) ->
  ((exists f, generator_text title ls = Fine f) <->
   (forall i, part p i ->
      Forall (fun m => In (sender m) (p_roles p) /\ In (receiver m) (p_roles p) /\ sender m <> receiver m)
        (part_messages p i) /\
      exists q, clock_tests [] (part_messages p i) = Fine q) /\
   match ending p with Some (s, _, _) => In s (p_roles p) | None => True end).
Proof.
  intros title name p ls T R N. destruct (read_protocol name p ls T R) as [lt A]. pose proof (text_roles name p ls T) as Ne.
  unfold generator_text. split.
  - intros [f H]. exact (accepted_acceptable title lt name p _ f A N Ne H).
  - intros H. exact (generator_accepts title lt name p _ A N Ne H).
Qed.
Print Assumptions accepted_iff.

(** When no role uses the same clock twice in a part, and the bounds of each
    window are written with as many digits, the protocol is accepted exactly
    when each left bound is at most the right one. *)
Theorem windows_accepted_iff : forall title name p ls,
  protocol_text name p ls -> no_rec p -> NoDup (p_roles p) ->
  (forall i m, part p i -> In m (part_messages p i) ->
     In (sender m) (p_roles p) /\ In (receiver m) (p_roles p) /\ sender m <> receiver m /\
     exists x y, number (lb m) = Some x /\ number (rb m) = Some y /\ length (lb m) = length (rb m)) ->
  (forall i, part p i -> clocks_once (part_messages p i)) ->
  match ending p with Some (s, _, _) => In s (p_roles p) | None => True end ->
  ((exists f, generator_text title ls = Fine f) <->
   forall i m x y, part p i -> In m (part_messages p i) ->
     number (lb m) = Some x -> number (rb m) = Some y -> (x <= y)%Z).
Proof.
  intros title name p ls T R N Hm Ho Hc. rewrite (accepted_iff title name p ls T R N). split.
  - intros [H _] i m x y Hi Hin Hx Hy. destruct (H i Hi) as [_ [q Hq]].
    destruct (Hm i m Hi Hin) as (_ & _ & _ & x' & y' & _ & _ & L).
    apply (number_order _ _ _ _ L Hx Hy). exact (clock_tests_le _ _ _ _ Hq Hin).
  - intros H. split; [|exact Hc]. intros i Hi. split.
    + apply Forall_forall. intros m Hin. destruct (Hm i m Hi Hin) as (? & ? & ? & _). auto.
    + apply once_accepted; [exact (Ho i Hi)| | |].
      * apply Forall_forall. intros m Hin. apply (Hm i m Hi Hin).
      * intros r m _ _. reflexivity.
      * apply Forall_forall. intros m Hin. destruct (Hm i m Hi Hin) as (_ & _ & _ & x & y & Hx & Hy & L).
        apply (number_order _ _ _ _ L Hx Hy). exact (H i m x y Hi Hin Hx Hy).
Qed.
Print Assumptions windows_accepted_iff.

Definition roleA : str := lit "A".
Definition roleB : str := lit "B".

(** In any protocol that is accepted the bounds written with as many digits
    are in order. *)
Theorem windows_in_order : forall title name p ls f i m x y,
  protocol_text name p ls -> no_rec p -> NoDup (p_roles p) ->
  generator_text title ls = Fine f -> part p i -> In m (part_messages p i) ->
  number (lb m) = Some x -> number (rb m) = Some y -> length (lb m) = length (rb m) -> (x <= y)%Z.
Proof.
  intros title name p ls f i m x y T R N H Hi Hm Hx Hy L. pose proof (text_written title name p ls f T R N H) as W.
  destruct (wr_clock_tests _ _ _ W i Hi) as (prev & Hp).
  apply (number_order _ _ _ _ L Hx Hy). exact (clock_tests_le _ _ _ _ Hp Hm).
Qed.
Print Assumptions windows_in_order.

Example once_looping : clocks_once (part_messages looping (Some 1%nat)) /\
  ~ clocks_once (part_messages looping None).
Proof.
  split.
  - intros r. cbn -[involves]. destruct (involves r _); repeat constructor; cbn; tauto.
  - intros H. specialize (H (lit "A")). vm_compute in H. inversion H as [|? ? Hn _]. apply Hn. now left.
Qed.

Example window_digits : number (lit "07") = Some 7%Z /\ number (lit "42") = Some 42%Z /\
  fine (generator_text idt (print (lit "P") (Proto [roleA; roleB]
    [Msg (lit "M") None roleA roleB true (lit "07") (lit "42") true (lit "a") None] None [] None))) = true.
Proof. now vm_compute. Qed.

Definition window_message (l r : string) (i1 i2 : bool) : msg :=
  Msg (lit "M") None roleA roleB i1 (lit l) (lit r) i2 (lit "a") None.
Definition one (m : msg) : proto := Proto [roleA; roleB] [m] None [] None.

(** With different numbers of digits, the sound window [9;10] is rejected and
    the empty one [10;9] is accepted; the empty window ]3;3[ is accepted too. *)
Theorem windows_refuted :
  (exists m x y, protocol_text (lit "P") (one m) (print (lit "P") (one m)) /\
     number (lb m) = Some x /\ number (rb m) = Some y /\ (x < y)%Z /\
     generator_text idt (print (lit "P") (one m)) = Error) /\
  (exists m x y f, protocol_text (lit "P") (one m) (print (lit "P") (one m)) /\
     number (lb m) = Some x /\ number (rb m) = Some y /\ (y < x)%Z /\
     generator_text idt (print (lit "P") (one m)) = Fine f) /\
  (exists m f, protocol_text (lit "P") (one m) (print (lit "P") (one m)) /\
     generator_text idt (print (lit "P") (one m)) = Fine f /\ ~ sound_window m /\
     length (lb m) = length (rb m)).
Proof.
  split; [|split].
  - exists (window_message "9" "10" true true), 9%Z, 10%Z.
    split; [now apply print_ok|]. split; [reflexivity|]. split; [reflexivity|]. split; [lia|]. now vm_compute.
  - destruct (generator_text idt (print (lit "P") (one (window_message "10" "9" true true)))) as [f| | |] eqn:E;
      [|vm_compute in E; discriminate..].
    exists (window_message "10" "9" true true), 10%Z, 9%Z, f.
    split; [now apply print_ok|]. split; [reflexivity|]. split; [reflexivity|]. split; [lia|exact E].
  - destruct (generator_text idt (print (lit "P") (one (window_message "3" "3" false false)))) as [f| | |] eqn:E;
      [|vm_compute in E; discriminate..].
    exists (window_message "3" "3" false false), f. split; [now apply print_ok|]. split; [exact E|]. split; [|reflexivity].
    intros [v H]. unfold in_window in H. cbn in H. destruct H. lra.
Qed.
Print Assumptions windows_refuted.

(** ** C37: an accepted protocol can be followed in time *)

(** If the windows of a role on a clock are not empty and all closed, or all
    open, on the right, then the role can make all its messages of the part in
    their windows. *)
Theorem accepted_feasible : forall title name p ls f i r c closed,
  protocol_text name p ls -> no_rec p -> NoDup (p_roles p) ->
  generator_text title ls = Fine f -> part p i -> c <> lit " " ->
  (forall m, In m (part_messages p i) -> involves r m = true -> clock m = c ->
     sound_window m /\ ri m = closed) ->
  feasible r c 0 (part_messages p i).
Proof.
  intros title name p ls f i r c closed T R N H Hi Hc Hw. pose proof (text_written title name p ls f T R N H) as W.
  destruct (wr_clock_tests _ _ _ W i Hi) as (prev & Hp).
  apply (tests_feasible r c closed _ [] prev); try assumption.
  - eapply Forall_impl; [|exact (wr_roles_ok _ _ _ W i Hi)]. now intros m (_ & _ & ?).
  - apply Forall_forall. exact Hw.
  - apply Qle_refl.
  - apply Qle_refl.
Qed.
Print Assumptions accepted_feasible.

Definition steps (ms : list msg) : proto := Proto [roleA; roleB] ms None [] None.
Definition tmsg (i1 : bool) (l r : string) (i2 : bool) (rst : option str) : msg :=
  Msg (lit "M") None roleA roleB i1 (lit l) (lit r) i2 (lit "a") rst.

Example feasible_steps :
  fine (generator_text idt (print (lit "P") (steps
    [tmsg true "1" "4" true None; tmsg false "3" "9" true (Some (lit "a")); tmsg true "0" "1" true None]))) = true /\
  (forall m, In m [tmsg true "1" "4" true None; tmsg false "3" "9" true (Some (lit "a")); tmsg true "0" "1" true None] ->
     sound_window m /\ ri m = true).
Proof.
  split; [now vm_compute|].
  cbn. intros m [<-|[<-|[<-|[]]]]; (split; [|reflexivity]);
    [exists 4|exists 9|exists 1]; vm_compute; split; first [discriminate|reflexivity].
Qed.

(** With mixed brackets an accepted protocol may be impossible to follow:
    ]4;5[ then [0;4]. *)
Theorem accepted_feasible_refuted : exists p ls f r c,
  protocol_text (lit "P") p ls /\ generator_text idt ls = Fine f /\
  (forall m, In m (part_messages p None) -> sound_window m) /\
  ~ feasible r c 0 (part_messages p None).
Proof.
  destruct (generator_text idt (print (lit "P")
    (steps [tmsg false "4" "5" false None; tmsg true "0" "4" true None]))) as [f| | |] eqn:E;
    [|vm_compute in E; discriminate..].
  exists (steps [tmsg false "4" "5" false None; tmsg true "0" "4" true None]), (print (lit "P")
    (steps [tmsg false "4" "5" false None; tmsg true "0" "4" true None])), f, roleA, (lit "a").
  split; [now apply print_ok|]. split; [exact E|]. clear E. split.
  - cbn. intros m [<-|[<-|[]]]; [exists (9 # 2)|exists 1]; vm_compute; split; first [discriminate|reflexivity].
  - cbn -[in_window]. intros (v & H1 & [H2 H3] & w & H4 & [H5 H6] & _).
    change (4 < v) in H2. change (w <= 4) in H6. lra.
Qed.
Print Assumptions accepted_feasible_refuted.

(** A protocol that can be followed may be rejected: [0;5] then [0;2]. *)
Theorem feasible_accepted_refuted : exists p ls,
  protocol_text (lit "P") p ls /\ generator_text idt ls = Error /\
  NoDup (p_roles p) /\
  (forall m, In m (part_messages p None) -> sound_window m /\ sender m = roleA /\ receiver m = roleB) /\
  (forall r c, feasible r c 0 (part_messages p None)).
Proof.
  exists (steps [tmsg true "0" "5" true None; tmsg true "0" "2" true None]),
    (print (lit "P") (steps [tmsg true "0" "5" true None; tmsg true "0" "2" true None])).
  split; [now apply print_ok|]. split; [now vm_compute|]. split; [repeat constructor; cbn; intuition discriminate|]. split.
  - cbn. intros m [<-|[<-|[]]]; (split; [|easy]); exists 1; vm_compute; split; first [discriminate|reflexivity].
  - intros r c. cbn [steps part_messages before inside app feasible].
    assert (forall m, In m [tmsg true "0" "5" true None; tmsg true "0" "2" true None] -> in_window 1 m) as K.
    { cbn. intros m [<-|[<-|[]]]; vm_compute; split; first [discriminate|reflexivity]. }
    repeat match goal with
    | |- context [if ?b then _ else _] => destruct b eqn:?
    end; try exact Logic.I; try discriminate;
    repeat match goal with
    | |- exists v, _ => exists 1; split; [lra|]; split; [apply K; cbn; tauto|]
    end; try exact Logic.I;
    repeat match goal with
    | |- exists v, _ => exists 1; split; [lra|]; split; [apply K; cbn; tauto|]
    end; try exact Logic.I.
Qed.
Print Assumptions feasible_accepted_refuted.

(** ** C38: what an accepted file can lose *)

Definition file (ls : list string) : list str := map lit ls.
Definition header : string := "timed global protocol P(role A, role B) {".
Definition say (l : string) (p : option str) : msg :=
  Msg (lit l) p roleA roleB true (lit "0") (lit "1") true (lit "a") None.
Definition named (x : str) (d : decl) : bool :=
  match snd d with Timed _ y _ _ _ _ _ _ _ => seqb x y | _ => false end.

(** A message after the end of a choice is accepted and appears in no type. *)
Theorem messages_kept_refuted : exists ls s f,
  In s ls /\ message_text (say "Last" None) s /\
  generator_text idt ls = Fine f /\ existsb (named (lit "Last")) (types f) = false.
Proof.
  set (ls := file [header; "choice at A"; "{"]%string ++ [print_message (say "X" None)] ++ file ["} or {"]%string ++
    [print_message (say "Y" None)] ++ file ["}"]%string ++ [print_message (say "Last" None)] ++ file ["}"]%string).
  destruct (generator_text idt ls) as [f| | |] eqn:E; [|vm_compute in E; discriminate..].
  exists ls, (print_message (say "Last" None)), f.
  split; [do 7 right; now left|]. split; [now apply print_message_ok|]. split; [exact E|].
  vm_compute in E. injection E as <-. now vm_compute.
Qed.
Print Assumptions messages_kept_refuted.

(** A loop without a choice is accepted and becomes two rounds. *)
Theorem loops_kept_refuted : exists ls s f,
  In s ls /\ continue_text (lit "L") s /\ generator_text idt ls = Fine f /\
  session_is (types f) (message_name (lit "0") 0 roleA roleB)
    (let round := STimed true (lit "X") (lit "a") (lit "0") true (lit "1") true (lit " ") in
     round (round SEnd)).
Proof.
  set (ls := file [header; "rec L {"]%string ++ [print_message (say "X" None)] ++ file ["continue L;"; "}"; "}"]%string).
  destruct (generator_text idt ls) as [f| | |] eqn:E; [|vm_compute in E; discriminate..].
  exists ls, (lit "continue L;"), f. split; [do 3 right; now left|]. split.
  { apply (continue_text_intro (lit "L") [] (lit " ") [] []); try blanks. now apply word_ok. }
  split; [exact E|]. vm_compute in E. injection E as <-.
  eapply si_timed; [now left|]. eapply si_timed; [right; now left|]. eapply si_alias; [right; right; now left|].
  constructor.
Qed.
Print Assumptions loops_kept_refuted.

(** One label with two payloads: the struct has the last payload only. *)
Theorem payloads_kept_refuted : exists p ls f q,
  protocol_text (lit "P") p ls /\ In (say "X" (Some q)) (before p) /\ generator_text idt ls = Fine f /\
  In (lit "X") (map fst (structs f)) /\ ~ In (lit "X", Some q) (structs f).
Proof.
  set (p := steps [say "X" (Some (lit "i32")); say "X" (Some (lit "u8"))]).
  destruct (generator_text idt (print (lit "P") p)) as [f| | |] eqn:E; [|vm_compute in E; discriminate..].
  exists p, (print (lit "P") p), f, (lit "i32"). split; [now apply print_ok|]. split; [now left|]. split; [exact E|].
  vm_compute in E. injection E as <-. split; [cbn; tauto|]. cbn. intuition discriminate.
Qed.
Print Assumptions payloads_kept_refuted.

(** A clock that is reset but not used is not started: the first send there
    panics (C20: [Timed] unwraps the clock to reset). *)
Theorem reset_clocks_started_refuted : exists p ls f m q,
  protocol_text (lit "P") p ls /\ In m (before p) /\ reset m = Some q /\ generator_text idt ls = Fine f /\
  forall r ix n ty cs, In (r, ix, n, ty, cs) (functions f) -> ~ In q cs.
Proof.
  set (m := Msg (lit "X") None roleA roleB true (lit "0") (lit "1") true (lit "a") (Some (lit "b"))).
  destruct (generator_text idt (print (lit "P") (steps [m]))) as [f| | |] eqn:E; [|vm_compute in E; discriminate..].
  exists (steps [m]), (print (lit "P") (steps [m])), f, m, (lit "b").
  split; [now apply print_ok|]. split; [now left|]. split; [reflexivity|]. split; [exact E|].
  vm_compute in E. injection E as <-. cbn.
  intros r ix n ty cs [[= <- <- <- <- <-]|[[= <- <- <- <- <-]|[]]]; cbn; intuition discriminate.
Qed.
Print Assumptions reset_clocks_started_refuted.

(** A choice by a role that is not declared makes the generator panic. *)
Theorem no_panic_refuted : exists p ls, protocol_text (lit "P") p ls /\ generator_text idt ls = Panic.
Proof.
  set (p := Proto [roleA; roleB] [] None []
    (Some (lit "Z", Branch [say "X" None] false, [Branch [say "Y" None] false]))).
  exists p, (print (lit "P") p). split; [now apply print_ok|]. now vm_compute.
Qed.
Print Assumptions no_panic_refuted.

(** In a loop, a message whose line contains the name of the loop is lost when
    the loop continues if the sender (or the receiver, or the clock) has a name
    ending with "rec": the line matches [REC]. *)
Definition rec_proto : proto :=
  Proto [lit "Direc"; lit "B"] [] (Some (lit "L"))
    [Msg (lit "Load") None (lit "Direc") (lit "B") true (lit "0") (lit "1") true (lit "a") None]
    (Some (lit "B", Branch [] true, [Branch [] false])).
Theorem loop_messages_kept_refuted : exists p ls f,
  protocol_text (lit "P") p ls /\ NoDup (p_roles p) /\ generator_text idt ls = Fine f /\
  exists a b s, part p (Some 0%nat) /\ In a (p_roles p) /\ In b (p_roles p) /\ a <> b /\
    session_is (types f) (message_name (part_text (Some 0%nat)) 0 a b) s /\
    s <> wanted_session idt a b (part_messages p (Some 0%nat)) (part_choice p (Some 0%nat)) /\
    NoDup (map fst (types f)).
Proof.
  destruct (generator_text idt (print (lit "P") rec_proto)) as [f| | |] eqn:E; [|vm_compute in E; discriminate..].
  exists rec_proto, (print (lit "P") rec_proto), f. split; [now apply print_ok|].
  split; [repeat constructor; cbn; intuition discriminate|]. split; [exact E|].
  exists (lit "Direc"), (lit "B"), (wanted_session idt (lit "Direc") (lit "B") [] (part_choice rec_proto (Some 0%nat))).
  split; [cbn; lia|]. split; [now left|]. split; [right; now left|]. split; [discriminate|].
  vm_compute in E. injection E as <-. split; [|split; [discriminate|]].
  - vm_compute. eapply si_timed; [cbn; tauto|]. constructor.
  - vm_compute. repeat constructor; cbn; intuition discriminate.
Qed.
Print Assumptions loop_messages_kept_refuted.
