(** * The generated types are projections: proofs

    Statements are in Properties_NuscrGlobal.v. *)

From Coq Require Import Ascii String Arith Bool Lia Permutation List.
From Verif Require Types Session Mesh Global.
From Verif Require Import Checker CheckerText CheckerAll Nuscr NuscrSpec NuscrFile NuscrNames NuscrText NuscrTextSpec
  Properties_Nuscr NuscrGlobalSpec.
Import ListNotations.
Open Scope nat_scope.
Open Scope list_scope.

(** ** Positions in a list *)

Lemma place_lt a l : In a l -> place a l < length l.
Proof.
  induction l as [|x l IH]; [easy|]. cbn. destruct (seqb x a) eqn:E; [lia|]. intros [->|H]; [now rewrite seqb_refl in E|].
  apply IH in H. lia.
Qed.
Lemma place_nth a l : In a l -> nth_error l (place a l) = Some a.
Proof.
  induction l as [|x l IH]; [easy|]. cbn. destruct (seqb x a) eqn:E.
  - intros _. apply seqb_true in E. now subst.
  - intros [->|H]; [now rewrite seqb_refl in E|]. now apply IH.
Qed.
Lemma nth_place a l k : NoDup l -> nth_error l k = Some a -> place a l = k.
Proof.
  intros N. revert k. induction N as [|x l Hx N IH]; intros k E; [now destruct k|]. cbn.
  destruct k as [|k]; cbn in E.
  - injection E as ->. now rewrite seqb_refl.
  - destruct (seqb x a) eqn:Ex; [|now rewrite (IH k)].
    apply seqb_true in Ex. subst x. apply nth_error_In in E. contradiction.
Qed.
Lemma place_eqb a b l : In a l -> In b l -> (place a l =? place b l) = seqb a b.
Proof.
  intros Ha Hb. destruct (seqb a b) eqn:E.
  - apply seqb_true in E. subst. apply Nat.eqb_refl.
  - apply Nat.eqb_neq. intros Ep. apply seqb_false in E. apply E.
    pose proof (place_nth a l Ha) as H1. rewrite Ep, (place_nth b l Hb) in H1. congruence.
Qed.

Lemma filter_all {A} (g : A -> bool) l : (forall x, In x l -> g x = true) -> filter g l = l.
Proof.
  induction l as [|x l IH]; intros H; [reflexivity|]. cbn. rewrite (H x) by now left. f_equal. apply IH. intros y Hy.
  apply H. now right.
Qed.

(** The fields of a role: the other roles in order. *)
Lemma others_numbers l a : NoDup l -> In a l ->
  map (fun b => S (place b l)) (filter (fun b => negb (seqb b a)) l) =
  map (Mesh.other (S (place a l))) (seq 1 (length l - 1)).
Proof.
  intros N Ha. destruct (in_split _ _ Ha) as (l1 & l2 & ->).
  assert (place a (l1 ++ a :: l2) = length l1) as Ep.
  { apply nth_place; [exact N|]. rewrite nth_error_app2, Nat.sub_diag; [reflexivity|lia]. }
  rewrite Ep. pose proof (NoDup_remove_2 _ _ _ N) as Hn. rewrite in_app_iff in Hn.
  rewrite filter_app. cbn [filter]. rewrite seqb_refl. cbn [negb].
  rewrite !filter_all by (intros x Hx; apply negb_true_iff, seqb_false; intros ->; tauto).
  rewrite app_length. cbn [length]. replace (length l1 + S (length l2) - 1) with (length l1 + length l2) by lia.
  rewrite seq_app, !map_app. f_equal.
  - replace (map (Mesh.other (S (length l1))) (seq 1 (length l1))) with (seq 1 (length l1)).
    + assert (forall pre l, NoDup (pre ++ l ++ a :: l2) ->
        map (fun b => S (place b (pre ++ l ++ a :: l2))) l = seq (S (length pre)) (length l)) as K.
      { intros pre l. revert pre. induction l as [|x l IH]; intros pre Nd; [reflexivity|]. cbn [map seq length]. f_equal.
        - f_equal. apply nth_place; [exact Nd|]. rewrite nth_error_app2, Nat.sub_diag; [reflexivity|lia].
        - specialize (IH (pre ++ [x])). rewrite <- app_assoc in IH. cbn [app] in IH. rewrite app_length in IH.
          cbn [length] in IH. rewrite Nat.add_1_r in IH. apply IH. exact Nd. }
      exact (K [] l1 N).
    + rewrite <- (map_id (seq 1 (length l1))) at 1. apply map_ext_in. intros i Hi. apply in_seq in Hi.
      unfold Mesh.other. destruct (Nat.leb_spec (S (length l1)) i); lia.
  - assert (forall pre l, NoDup (pre ++ l) ->
      map (fun b => S (place b (pre ++ l))) l = seq (S (length pre)) (length l)) as K.
    { intros pre l. revert pre. induction l as [|x l IH]; intros pre Nd; [reflexivity|]. cbn [map seq length]. f_equal.
      - f_equal. apply nth_place; [exact Nd|]. rewrite nth_error_app2, Nat.sub_diag; [reflexivity|lia].
      - specialize (IH (pre ++ [x])). rewrite <- app_assoc in IH. cbn [app] in IH. rewrite app_length in IH.
        cbn [length] in IH. rewrite Nat.add_1_r in IH. apply IH. exact Nd. }
    specialize (K (l1 ++ [a]) l2). rewrite <- app_assoc in K. cbn [app] in K. rewrite (K N), app_length. cbn [length].
    replace (S (length l1 + 1)) with (S (1 + length l1)) by lia. rewrite <- seq_shift.
    apply map_ext_in. intros i Hi. apply in_seq in Hi. unfold Mesh.other. destruct (Nat.leb_spec (S (length l1)) i); lia.
Qed.

(** ** The protocol without time *)

Section Protocol.
  Variable title : str -> str.
  Variable code : str -> nat.
  Variable rs : list str.
  Hypothesis N : NoDup rs.
  Notation no := (number_in rs).
  Notation told := (told title code rs).
  Notation finale_of := (finale_of rs).
  Notation round_of := (round_of title code rs).

  Lemma no_eqb a b : In a rs -> In b rs -> (no a =? no b) = seqb a b.
  Proof. intros Ha Hb. unfold number_in. cbn [Nat.eqb]. now apply place_eqb. Qed.

  Variable f : rust_file.
  Hypothesis Hrs : meshed_roles f = rs.

  Lemma no_number a : In a rs -> role_number f (no a) a.
  Proof.
    intros Ha. unfold number_in. split; [lia|]. rewrite Hrs. cbn [Nat.sub]. rewrite Nat.sub_0_r. now apply place_nth.
  Qed.
  Lemma number_no k a : role_number f k a -> k = no a /\ In a rs.
  Proof.
    intros [Hk E]. rewrite Hrs in E. split; [|now apply nth_error_In in E].
    unfold number_in. rewrite (nth_place a rs (k - 1) N E). lia.
  Qed.

  Definition roles_in (ms : list msg) : Prop :=
    Forall (fun m => In (sender m) rs /\ In (receiver m) rs /\ sender m <> receiver m) ms.
  Definition fresh_in (ms : list msg) : Prop :=
    Forall (fun m => ~ In (title (label m)) (map fst (enum_types f))) ms.

  Lemma session_projected a b ms c : In a rs -> In b rs -> roles_in ms -> fresh_in ms ->
    match c with
    | Some s => In s rs /\ forall r, In r rs -> r <> s -> payload_as f code (choice_name (lit "0") s r) (Session.PChoice 0 (no r))
    | None => True
    end -> a <> b ->
    untimed_as f code (wanted_session title a b ms c) (Global.sess_of (no a) (no b) (map told ms) (finale_of c)).
  Proof.
    intros Ha Hb Hr Hf Hc Hab. induction ms as [|m ms IH]; cbn [wanted_session map Global.sess_of].
    - destruct c as [s|]; cbn [NuscrGlobalSpec.finale_of Global.last_sess]; [|constructor]. destruct Hc as [Hs Hc].
      rewrite !no_eqb by assumption. destruct (seqb a s) eqn:E1.
      + apply seqb_true in E1. subst s. constructor; [|constructor]. apply Hc; [assumption|congruence].
      + destruct (seqb b s) eqn:E2; [|constructor]. apply seqb_true in E2. subst s. constructor; [|constructor].
        apply Hc; [assumption|congruence].
    - inversion Hr as [|? ? (R1 & R2 & R3) Hr']. inversion Hf as [|? ? F1 Hf']. subst. specialize (IH Hr' Hf').
      cbn [NuscrGlobalSpec.told Global.from Global.into Global.what]. rewrite !no_eqb by assumption.
      destruct (seqb (sender m) a && seqb (receiver m) b); [constructor; [now constructor|exact IH]|].
      destruct (seqb (sender m) b && seqb (receiver m) a); [constructor; [now constructor|exact IH]|exact IH].
  Qed.

  Lemma stack_projected a ms c : In a rs -> roles_in ms ->
    match c with Some s => In s rs | None => True end ->
    order_as f (wanted_stack a ms c) (Global.stack_of (no a) (map told ms) (finale_of c)).
  Proof.
    intros Ha Hr Hc. induction ms as [|m ms IH]; cbn [wanted_stack map Global.stack_of].
    - destruct c as [s|]; cbn [NuscrGlobalSpec.finale_of Global.last_stack]; [|constructor]. rewrite no_eqb by assumption.
      destruct (seqb a s); [constructor|]. constructor; [now apply no_number|constructor].
    - inversion Hr as [|? ? (R1 & R2 & R3) Hr']. subst. specialize (IH Hr').
      cbn [NuscrGlobalSpec.told Global.from Global.into]. rewrite !no_eqb by assumption.
      destruct (seqb (sender m) a); [constructor; [now apply no_number|exact IH]|].
      destruct (seqb (receiver m) a); [constructor; [now apply no_number|exact IH]|exact IH].
  Qed.

  Lemma wf_round_of p i labels : roles_in (part_messages p i) ->
    match part_choice p i with Some s => In s rs /\ 0 < labels 0 | None => True end ->
    Global.wf_round (length rs) labels (round_of p i).
  Proof.
    intros Hr Hc. split.
    - cbn [NuscrGlobalSpec.round_of fst]. apply Forall_map. refine (Forall_impl _ _ Hr). intros m (R1 & R2 & R3).
      repeat split; cbn [NuscrGlobalSpec.told Global.from Global.into]; unfold number_in; try lia.
      + apply place_lt in R1. lia.
      + apply place_lt in R2. lia.
      + intros E. cbn [NuscrGlobalSpec.told Global.from Global.into] in E. apply R3. pose proof (no_eqb _ _ R1 R2) as K. unfold number_in in K. rewrite E, Nat.eqb_refl in K.
        symmetry in K. now apply seqb_true in K.
    - cbn [NuscrGlobalSpec.round_of snd]. destruct (part_choice p i) as [s|]; cbn [NuscrGlobalSpec.finale_of]; [|trivial]. destruct Hc as [Hs Hl].
      apply place_lt in Hs. unfold number_in. lia.
  Qed.
End Protocol.
