(** C59: no role is left behind and, without recursion, every session ends, for any MeshedChannels types that can be
    followed in order (C56), hence for every protocol of examples/ and tests/ (C57). On the concrete machine of Session.v and
    Mesh.v. *)
From Coq Require Import List Arith Bool Lia.
From Verif Require Import Types Session Mesh MeshSpec Links Refine Sim MeshRun MeshReach Global TidySpec OrderSpec OrderProofs MeshSched Proto ProtoProofs
  Corpus CorpusRing CorpusMesh Properties_Mesh Properties_Global
  FairSpec FairTypes FairTurns OrderLive OrderTurns OrderEnd Properties_Fair Properties_Schedule Properties_Order Properties_Corpus.
Import ListNotations.

Notation enabled_t := FairTypes.enabled.
Notation others_go_t := FairTypes.others_go.
Notation valid_t := FairTypes.valid.
Notation fair_t := FairTypes.fair.

(** * Nobody is left behind for good *)

(** For any number of roles, any dual types whose rounds can all be followed in order (finite or recursive), with [send] or
    with [send_canceled], after any schedule, values, branches and crashes: whichever role has not returned, the other roles
    alone can bring it to a point where it can go on, without any further crash and whatever branches they take from then on. *)
Theorem ordered_nobody_left_behind : forall n branch labels strict T tr st p pick,
  dual_types n branch labels T -> all_ordered n branch labels T -> steps_h n branch labels strict T tr st ->
  1 <= p <= n -> result_of st p = None -> (forall b, 0 < labels b -> pick b < labels b) ->
  exists st', others_go_t n branch labels strict pick p st st' /\ enabled_t n branch labels strict p st'.
Proof.
  intros n branch labels strict T tr st p pick [D1 D2] O H Hp Hr Hpick.
  exact (lock_free_links n branch labels strict D2 T D1 O pick Hpick tr st p H Hp Hr).
Qed.
Print Assumptions ordered_nobody_left_behind.

(** * No starvation *)

(** In every fair execution in which the drops that are begun come to an end (crashes are allowed), every role that has not
    returned, or not dropped all it owned, is run again. *)
Theorem ordered_no_starvation : forall n branch labels strict T x,
  dual_types n branch labels T -> all_ordered n branch labels T -> valid_t n branch labels strict T x -> fair_t n branch labels strict x -> drops_end n x ->
  forall p t, 1 <= p <= n -> ~ over p (at_time x t) -> exists t', t <= t' /\ steps_at x p t'.
Proof.
  intros n branch labels strict T x [D1 D2] O V F DE. apply (no_starvation_links n branch labels strict D2 T D1 O (fun _ => 0)); auto.
Qed.
Print Assumptions ordered_no_starvation.

(** If nobody crashes, fairness is enough (for types that are tidy in the sense of C55). *)
Theorem ordered_no_starvation_without_crashes : forall n branch labels strict T x,
  tidy_types n branch labels T -> all_ordered n branch labels T -> valid_t n branch labels strict T x -> fair_t n branch labels strict x -> no_crash x ->
  forall p t, 1 <= p <= n -> ~ over p (at_time x t) -> exists t', t <= t' /\ steps_at x p t'.
Proof.
  intros n branch labels strict T x (D1 & T1 & B) O V F NC.
  assert (D2 : forall b l, l < labels b -> dual_mesh n (branch b l)) by (intros b l Hl; apply B, Hl).
  apply (ordered_no_starvation n branch labels strict T x (conj D1 D2) O V F).
  eapply drops_end_links; eauto. intros b l Hl. apply B, Hl.
Qed.
Print Assumptions ordered_no_starvation_without_crashes.

(** * Sessions end *)

(** Whoever crashes: a fair execution in which no role goes through more than G choices comes to an end: all roles return
    and have dropped everything. *)
Theorem bounded_choices_all_return : forall n branch labels strict T x G,
  dual_types n branch labels T -> all_ordered n branch labels T -> valid_t n branch labels strict T x -> fair_t n branch labels strict x ->
  (forall t p, 1 <= p <= n -> t_round (st_thr (at_time x t) p) <= G) -> exists t, all_over n (at_time x t).
Proof.
  intros n branch labels strict T x G [D1 D2] O V F HG.
  apply (comes_to_end n branch labels strict D2 T D1 O x V (fun hist => length hist <= S G) (S G)); [cbn; lia|auto| | |].
  - exact (good_rounds n branch labels strict T (conj D1 D2) O x G HG).
  - intros t. apply over_or_not.
  - exact (next_action n branch labels strict D2 T D1 O x V F).
Qed.
Print Assumptions bounded_choices_all_return.

(** Types without recursion: every chain of choices is finite. *)
Inductive unwinds (n : nat) (branch : nat -> nat -> nat -> mty) (labels : nat -> nat) : (nat -> mty) -> Prop :=
| unwinds_intro : forall R,
    (forall p s b l, 1 <= p <= n -> script_of n labels R p = Some s -> In (AChoose b) s -> l < labels b -> unwinds n branch labels (branch b l)) ->
    unwinds n branch labels R.

Lemma in_choices : forall n labels R p s b, 1 <= p <= n -> script_of n labels R p = Some s -> In (AChoose b) s -> In b (choices n labels R).
Proof.
  intros n labels R p s b Hp Hs Hin. apply in_flat_map. exists p. split; [apply in_seq; lia|]. apply in_flat_map. exists (AChoose b).
  split; [|left; reflexivity]. unfold script_at. rewrite Hs. exact Hin.
Qed.
Lemma choices_in : forall n labels R b, In b (choices n labels R) -> exists p s, 1 <= p <= n /\ script_of n labels R p = Some s /\ In (AChoose b) s.
Proof.
  intros n labels R b H. apply in_flat_map in H. destruct H as (p & Hp & H). apply in_seq in Hp. apply in_flat_map in H. destruct H as (a & Ha & Hb).
  destruct a as [| | |b'|]; cbn in Hb; try contradiction. destruct Hb as [->|[]]. unfold script_at in Ha.
  destruct (script_of n labels R p) as [s|] eqn:E; [|destruct Ha]. exists p, s. split; [lia|auto].
Qed.

Lemma common_bound : forall (A : Type) (xs : list A) (Q : A -> nat -> Prop), (forall a m m', Q a m -> m <= m' -> Q a m') ->
  (forall a, In a xs -> exists m, Q a m) -> exists m, forall a, In a xs -> Q a m.
Proof.
  intros A xs Q Hm. induction xs as [|a xs IH]; intros H; [exists 0; intros a []|].
  destruct IH as [m1 H1]; [intros b Hb; apply H; right; exact Hb|]. destruct (H a (or_introl eq_refl)) as [m2 H2].
  exists (m1 + m2). intros b [<-|Hb]; [eapply Hm; [exact H2|lia]|eapply Hm; [exact (H1 b Hb)|lia]].
Qed.

Lemma unwinds_bound : forall n branch labels T, unwinds n branch labels T -> exists B, forall hist, chosen_in n labels branch T hist -> length hist <= B.
Proof.
  intros n branch labels T U. induction U as [R _ IH].
  destruct (common_bound _ (choices n labels R) (fun b B => forall l, l < labels b -> forall hist, chosen_in n labels branch (branch b l) hist -> length hist <= B)) as [B HB].
  - intros b m m' H Hle l Hl hist Hh. specialize (H l Hl hist Hh). lia.
  - intros b Hb. destruct (choices_in n labels R b Hb) as (p & s & Hp & Hs & Hin).
    destruct (common_bound _ (seq 0 (labels b)) (fun l B => forall hist, chosen_in n labels branch (branch b l) hist -> length hist <= B)) as [B HB].
    + intros l m m' H Hle hist Hh. specialize (H hist Hh). lia.
    + intros l Hl. apply in_seq in Hl. exact (IH p s b l Hp Hs Hin ltac:(lia)).
    + exists B. intros l Hl. apply HB, in_seq. lia.
  - exists (S B). intros [|[[p b] l] hist] H; [cbn; lia|]. destruct (chosen_tail n labels branch R p b l hist H) as [(Hp & Hl & s & Hs & Hin) Ht].
    cbn [length]. specialize (HB b (in_choices n labels R p s b Hp Hs Hin) l Hl hist Ht). lia.
Qed.

(** Types without recursion: every fair execution, whoever crashes, comes to an end. *)
Theorem unwinding_all_return : forall n branch labels strict T x,
  dual_types n branch labels T -> all_ordered n branch labels T -> unwinds n branch labels T -> valid_t n branch labels strict T x -> fair_t n branch labels strict x ->
  exists t, all_over n (at_time x t).
Proof.
  intros n branch labels strict T x [D1 D2] O U V F. destruct (unwinds_bound n branch labels T U) as [B HB].
  apply (comes_to_end n branch labels strict D2 T D1 O x V (chosen_in n labels branch T) B); [apply chosen_nil|exact HB| | |].
  - exact (good_chosen n branch labels strict T (conj D1 D2) O x).
  - intros t. apply over_or_not.
  - exact (next_action n branch labels strict D2 T D1 O x V F).
Qed.
Print Assumptions unwinding_all_return.

(** No scheduler, fair or not, can make such a session go on for ever. *)
Theorem unwinding_not_endless : forall n branch labels strict T x,
  dual_types n branch labels T -> all_ordered n branch labels T -> unwinds n branch labels T -> valid_t n branch labels strict T x ->
  ~ forall t, exists u, t <= u /\ doing x u <> None.
Proof.
  intros n branch labels strict T x [D1 D2] O U V H. destruct (unwinds_bound n branch labels T U) as [B HB].
  destruct (comes_to_end n branch labels strict D2 T D1 O x V (chosen_in n labels branch T) B) with (stop := fun _ : nat => False) as [_ []]; [apply chosen_nil|exact HB| | |].
  - exact (good_chosen n branch labels strict T (conj D1 D2) O x).
  - intros t. right. intros [].
  - intros t _. exact (busy_action n branch labels strict T x V H t).
Qed.
Print Assumptions unwinding_not_endless.

(** A test. *)
Fixpoint all_of {A : Type} (f : A -> bool) (xs : list A) : bool := match xs with [] => true | x :: r => if f x then all_of f r else false end.
Fixpoint unwinds_test (k n : nat) (branch : nat -> nat -> nat -> mty) (labels : nat -> nat) (R : nat -> mty) : bool :=
  match k with
  | 0 => false
  | S k' => all_of (fun b => all_of (fun l => unwinds_test k' n branch labels (branch b l)) (seq 0 (labels b))) (choices n labels R)
  end.
Definition recursion_free (P : proto) : bool := unwinds_test (S (length (p_choices P))) (p_roles P) (p_branch P) (p_labels P) (p_types P).

Lemma all_of_true : forall A (f : A -> bool) xs, all_of f xs = true -> forall a, In a xs -> f a = true.
Proof.
  induction xs as [|b xs IH]; intros H a Ha; [destruct Ha|]. cbn in H. destruct (f b) eqn:E; [|discriminate]. destruct Ha as [<-|Ha]; auto.
Qed.
Lemma unwinds_test_true : forall k n branch labels R, unwinds_test k n branch labels R = true -> unwinds n branch labels R.
Proof.
  induction k as [|k IH]; intros n branch labels R H; [discriminate|]. constructor. intros p s b l Hp Hs Hin Hl. apply IH.
  cbn [unwinds_test] in H. pose proof (all_of_true _ _ _ H b (in_choices n labels R p s b Hp Hs Hin)) as K. cbv beta in K.
  exact (all_of_true _ _ _ K l ltac:(apply in_seq; lia)).
Qed.

(** * The protocols of examples/ and tests/ *)

Notation proto_valid P strict := (valid_t (p_roles P) (p_branch P) (p_labels P) strict (p_types P)).
Notation proto_fair P strict := (fair_t (p_roles P) (p_branch P) (p_labels P) strict).

Theorem repository_nobody_left_behind : forall P strict tr st p pick, In P all_protocols -> proto_steps P strict tr st ->
  1 <= p <= p_roles P -> result_of st p = None -> (forall b, 0 < p_labels P b -> pick b < p_labels P b) ->
  exists st', others_go_t (p_roles P) (p_branch P) (p_labels P) strict pick p st st' /\ enabled_t (p_roles P) (p_branch P) (p_labels P) strict p st'.
Proof.
  intros P strict tr st p pick H. apply repository_accepted in H. apply ordered_nobody_left_behind; [apply accepted_dual, H|apply accepted_ordered, H].
Qed.
Print Assumptions repository_nobody_left_behind.
Theorem repository_no_starvation : forall P strict x, In P all_protocols -> proto_valid P strict x -> proto_fair P strict x -> no_crash x ->
  forall p t, 1 <= p <= p_roles P -> ~ over p (at_time x t) -> exists t', t <= t' /\ steps_at x p t'.
Proof.
  intros P strict x H. apply repository_accepted in H. pose proof (proj1 (proj1 (accepts_exact P) H)) as HT.
  apply ordered_no_starvation_without_crashes; [exact HT|apply accepted_ordered, H].
Qed.
Print Assumptions repository_no_starvation.
Theorem repository_all_return : forall P strict x, In P all_protocols -> recursion_free P = true -> proto_valid P strict x ->
  (proto_fair P strict x -> exists t, all_over (p_roles P) (at_time x t)) /\ ~ forall t, exists u, t <= u /\ doing x u <> None.
Proof.
  intros P strict x H HR V. apply repository_accepted in H. apply unwinds_test_true in HR. pose proof (accepted_dual P H) as D. pose proof (accepted_ordered P H) as O.
  split; [intros F; exact (unwinding_all_return _ _ _ _ _ x D O HR V F)|exact (unwinding_not_endless _ _ _ _ _ x D O HR V)].
Qed.
Print Assumptions repository_all_return.

(** Fair executions exist: whatever branches are to be taken, whoever is to crash, in whatever order the roles are given
    their turns, as long as everyone's turn comes again. *)
Theorem ordered_turns_fair : forall n branch labels strict T pick order,
  dual_types n branch labels T -> all_ordered n branch labels T -> (forall b, 0 < labels b -> pick b < labels b) ->
  (forall p t, 1 <= p <= n -> exists t', t <= t' /\ order t' = (p, false)) ->
  let x := turns_of n branch labels strict T pick order in
  valid_t n branch labels strict T x /\ fair_t n branch labels strict x /\
  ((forall t, snd (order t) = false) -> no_crash x /\ forall t p i, doing x t = Some (p, i) -> obeys pick p i (at_time x t)).
Proof. exact turns_of_fair. Qed.
Print Assumptions ordered_turns_fair.

(** Over is over. *)
Lemma over_remains : forall n branch labels strict T x, valid_t n branch labels strict T x ->
  forall t d, all_over n (at_time x t) -> at_time x (t + d) = at_time x t.
Proof.
  intros n branch labels strict T x [_ V1] t d H. induction d as [|d IH]; [rewrite Nat.add_0_r; reflexivity|].
  rewrite Nat.add_succ_r. specialize (V1 (t + d)). destruct (doing x (t + d)) as [[p i]|]; [|congruence].
  exfalso. rewrite IH in V1. unfold exec in V1. destruct ((1 <=? p) && (p <=? n)) eqn:Hb; [|discriminate].
  apply andb_true_iff in Hb. rewrite !Nat.leb_le in Hb. destruct (H p Hb) as [[r Er] Et]. unfold tstep in V1. rewrite Et, Er in V1. discriminate.
Qed.
(** Hence with recursion-free types the drops end even with crashes, and [ordered_no_starvation] applies. *)
Lemma unwinding_drops_end : forall n branch labels strict T x,
  dual_types n branch labels T -> all_ordered n branch labels T -> unwinds n branch labels T -> valid_t n branch labels strict T x -> fair_t n branch labels strict x ->
  drops_end n x.
Proof.
  intros n branch labels strict T x D O U V F p t Hp. destruct (unwinding_all_return n branch labels strict T x D O U V F) as [t0 H].
  exists (t0 + t). split; [lia|]. rewrite (over_remains n branch labels strict T x V t0 t H). apply (H p Hp).
Qed.

(** ** Examples *)

(** Three roles that all send at once, again and again (Properties_Order.v, not a projection). Role 1 has sent and waits for
    role 3; role 3 can bring it to go on. *)
Lemma turn_dual : dual_types 3 turns two turn.
Proof. destruct turn_types as (H1 & _ & H3). split; [exact H1|]. intros b l Hl. apply H3, Hl. Qed.
Lemma turn_ordered : all_ordered 3 turns two turn.
Proof. exact (check_all_ordered _ _ _ _ _ turn_checked). Qed.
Example turn_waits : exists st, steps_h 3 turns two false turn [(1, IVal 5)] st /\ result_of st 1 = None /\ ~ enabled_t 3 turns two false 1 st /\
  exists st', others_go_t 3 turns two false (fun _ => 0) 1 st st' /\ enabled_t 3 turns two false 1 st'.
Proof.
  destruct (exec heap_ops 3 turns two false 1 (IVal 5) (start 3 turn)) as [st|] eqn:E; [|vm_compute in E; discriminate].
  assert (H : steps_h 3 turns two false turn [(1, IVal 5)] st) by (econstructor; [exact E|constructor]).
  assert (Hr : result_of st 1 = None) by (vm_compute in E; injection E as <-; vm_compute; reflexivity).
  exists st. split; [exact H|]. split; [exact Hr|]. split.
  - vm_compute in E. injection E as <-. intros (i & st' & Hi & E'). destruct i as [|v|l|]; [| | |congruence]; vm_compute in E'; discriminate.
  - apply (ordered_nobody_left_behind 3 turns two false turn _ st 1 (fun _ => 0) turn_dual turn_ordered H ltac:(lia) Hr). intros b _. unfold two. lia.
Qed.

(** They go on for ever: a fair execution without crashes. *)
Definition spinning : execution := turns_of 3 turns two true turn (fun _ => 0) (cyclic 3 None).
Example spinning_fair : valid_t 3 turns two true turn spinning /\ fair_t 3 turns two true spinning /\ no_crash spinning.
Proof.
  destruct (ordered_turns_fair 3 turns two true turn (fun _ => 0) (cyclic 3 None) turn_dual turn_ordered (fun b H => H) (cyclic_all 3 None)) as (H1 & H2 & H3).
  split; [exact H1|]. split; [exact H2|]. apply H3. reflexivity.
Qed.
Example spinning_runs : (t_round (st_thr (at_time spinning 200) 2), result_of (at_time spinning 200) 2) = (6, None).
Proof. vm_compute. reflexivity. Qed.
Example spinning_alive : forall p t, 1 <= p <= 3 -> ~ over p (at_time spinning t) -> exists t', t <= t' /\ steps_at spinning p t'.
Proof.
  destruct spinning_fair as (V & F & NC).
  exact (ordered_no_starvation_without_crashes 3 turns two true turn spinning turn_types turn_ordered V F NC).
Qed.

(** The OAuth protocol of examples/mpst/o_auth.rs with a crash of S at time 10: C, which waits for S, and A, which waits for
    C, get errors, and all drop what they own. *)
Definition oauth_crash : execution := turns_of 3 (p_branch o_auth) (p_labels o_auth) false (p_types o_auth) (fun _ => 0) (cyclic 3 (Some (3, 10))).
Lemma o_auth_in : In o_auth all_protocols.
Proof. apply in_or_app. left. unfold corpus. do 8 right. left. reflexivity. Qed.
Lemma o_auth_free : recursion_free o_auth = true.
Proof. vm_compute. reflexivity. Qed.
Example oauth_crash_fair : proto_valid o_auth false oauth_crash /\ proto_fair o_auth false oauth_crash.
Proof.
  pose proof (repository_accepted o_auth o_auth_in) as A.
  destruct (ordered_turns_fair 3 (p_branch o_auth) (p_labels o_auth) false (p_types o_auth) (fun _ => 0) (cyclic 3 (Some (3, 10))) (accepted_dual _ A) (accepted_ordered _ A)
              (fun b H => H) (cyclic_all 3 (Some (3, 10)))) as (H1 & H2 & _).
  split; [exact H1|exact H2].
Qed.
Example oauth_crash_runs : map (fun p => (result_of (at_time oauth_crash 100) p, t_trash (st_thr (at_time oauth_crash 100) p))) [1; 2; 3] =
  [(Some RErr, []); (Some RErr, []); (Some RCrash, [])].
Proof. vm_compute. reflexivity. Qed.
Example oauth_crash_ends : exists t, all_over 3 (at_time oauth_crash t).
Proof.
  destruct oauth_crash_fair as [V F]. exact (proj1 (repository_all_return o_auth false oauth_crash o_auth_in o_auth_free V) F).
Qed.
Example oauth_crash_drops : drops_end 3 oauth_crash.
Proof.
  pose proof (repository_accepted o_auth o_auth_in) as A. destruct oauth_crash_fair as [V F].
  exact (unwinding_drops_end _ _ _ _ _ oauth_crash (accepted_dual _ A) (accepted_ordered _ A) (unwinds_test_true _ _ _ _ _ o_auth_free) V F).
Qed.

(** The recursive types [turn] with the choice "stop" (label 1): one choice, then the end. *)
Definition stopping : execution := turns_of 3 turns two true turn (fun _ => 1) (cyclic 3 None).
Example stopping_fair : valid_t 3 turns two true turn stopping /\ fair_t 3 turns two true stopping.
Proof.
  destruct (ordered_turns_fair 3 turns two true turn (fun _ => 1) (cyclic 3 None) turn_dual turn_ordered (fun b _ => le_n 2) (cyclic_all 3 None)) as (H1 & H2 & _).
  split; [exact H1|exact H2].
Qed.
Example stopping_bounded : forall t p, 1 <= p <= 3 -> t_round (st_thr (at_time stopping t) p) <= 1.
Proof.
  assert (H1 : forallb (fun t => forallb (fun p => t_round (st_thr (at_time stopping t) p) <=? 1) [1; 2; 3]) (seq 0 101) = true) by (vm_compute; reflexivity).
  assert (H2 : all_over 3 (at_time stopping 100)).
  { intros p Hp. assert (p = 1 \/ p = 2 \/ p = 3) as [-> |[-> | ->]] by lia; vm_compute; eauto. }
  assert (K : forall t p, t <= 100 -> 1 <= p <= 3 -> t_round (st_thr (at_time stopping t) p) <= 1).
  { intros t p Ht Hp. rewrite forallb_forall in H1. specialize (H1 t ltac:(apply in_seq; lia)). rewrite forallb_forall in H1.
    apply Nat.leb_le, H1. assert (p = 1 \/ p = 2 \/ p = 3) as [-> |[-> | ->]] by lia; cbn; auto. }
  intros t p Hp. destruct (le_dec t 100) as [Ht|Ht]; [apply K; assumption|].
  replace t with (100 + (t - 100)) by lia. rewrite (over_remains _ _ _ _ _ stopping (proj1 stopping_fair) 100 (t - 100) H2). apply K; [lia|exact Hp].
Qed.
Example stopping_ends : exists t, all_over 3 (at_time stopping t).
Proof.
  destruct stopping_fair as [V F]. exact (bounded_choices_all_return 3 turns two true turn stopping 1 turn_dual turn_ordered V F stopping_bounded).
Qed.

(** Of the 69 tables 22 are without recursion. *)
Example without_recursion : length (filter recursion_free all_protocols) = 22 /\ recursion_free three_buyers = true /\ recursion_free fib = false.
Proof. vm_compute. auto. Qed.
