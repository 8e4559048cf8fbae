(** C61: wherever a session is, it can be brought to its end: along a strategy that leads out of the recursion every way to go
    on ends, with Ok for everybody if nobody has crashed. For any dual types that can be followed in order (C56), and for every
    protocol of examples/ and tests/ (C57). On the concrete machine of Session.v and Mesh.v. *)
From Coq Require Import List Arith Bool Lia.
From Verif Require Import Types Session Mesh MeshSpec Links Refine Sim MeshRun MeshReach Global TidySpec OrderSpec OrderProofs MeshSched Proto ProtoProofs
  Corpus CorpusRing CorpusMesh Properties_Mesh Properties_Global
  FairSpec FairTypes OrderEnd OrderFinish Properties_Schedule Properties_Order Properties_Corpus Properties_OrderFair.
Import ListNotations.

(** The strategy leads out of every round that can be reached, and names branches that exist. *)
Definition way_out (n : nat) branch labels T (pick : nat -> nat) : Prop :=
  (forall b, 0 < labels b -> pick b < labels b) /\ forall R, reached n labels branch T R -> homeward n branch labels pick R.

(** * Every session can be finished

    For any number of roles, any types in which no offer drops a session in use (C55) and whose rounds can all be followed
    in order (C56), with [send] or [send_canceled]: after any schedule, values and branches without a crash, there is a
    way to go on, along the branches of the strategy and with any values, in which every role returns Ok. *)
Theorem always_can_finish : forall n branch labels strict T pick say tr st,
  tidy_types n branch labels T -> all_ordered n branch labels T -> way_out n branch labels T pick ->
  steps_h n branch labels strict T tr st -> (forall p i, In (p, i) tr -> i <> ICrash) ->
  exists tr' st', steps_home n branch labels strict pick st tr' st' /\ (forall p v, In (p, IVal v) tr' -> v = say p) /\ all_ok n st'.
Proof.
  intros n branch labels strict T pick say tr st (D1 & T1 & B) O [W1 W2] H Hq.
  assert (D2 : forall b l, l < labels b -> dual_mesh n (branch b l)) by (intros b l Hl; apply B, Hl).
  destruct (finishes n branch labels strict D2 T D1 O pick W2 W1 say tr st H) as (tr' & st' & H1 & H2 & H3).
  exists tr', st'. split; [exact H1|]. split; [exact H2|]. intros p Hp. destruct (H3 p Hp) as [[r Er] Et]. split; [|exact Et]. rewrite Er. f_equal.
  apply (quiet_ok n branch labels strict D2 (fun b l Hl => proj2 (B b l Hl)) T D1 T1 (tr ++ tr') st') with (p := p); [|..|exact Hp|exact Er].
  - apply home_steps in H1. clear -H H1. induction H; [exact H1|]. cbn. econstructor; eauto.
  - intros q i Hi. apply in_app_or in Hi as [Hi|Hi]; [eauto|eapply home_quiet; eauto].
Qed.
Print Assumptions always_can_finish.

(** Whoever has crashed: all can return and drop everything (dual types are enough). *)
Theorem always_can_return : forall n branch labels strict T pick tr st,
  dual_types n branch labels T -> all_ordered n branch labels T -> way_out n branch labels T pick ->
  steps_h n branch labels strict T tr st ->
  exists tr' st', steps_home n branch labels strict pick st tr' st' /\ all_over n st'.
Proof.
  intros n branch labels strict T pick tr st [D1 D2] O [W1 W2] H.
  destruct (finishes n branch labels strict D2 T D1 O pick W2 W1 (fun _ => 0) tr st H) as (tr' & st' & H1 & _ & H3). eauto.
Qed.
Print Assumptions always_can_return.

(** Nobody has to be careful about the schedule: no way to go on along the strategy lasts for ever. *)
Theorem strategy_not_endless : forall n branch labels strict T pick tr st,
  dual_types n branch labels T -> all_ordered n branch labels T -> way_out n branch labels T pick ->
  steps_h n branch labels strict T tr st ->
  forall x : nat -> @state heap ep, x 0 = st -> ~ forall t, step_home n branch labels strict pick (x (S t)) (x t).
Proof.
  intros n branch labels strict T pick tr st [D1 D2] O [W1 W2] H x E0 Hx.
  pose proof (reached_acc n branch labels strict D2 T D1 O pick W2 tr st H) as A. clear H. rewrite <- E0 in A. clear E0.
  remember (x 0) as a eqn:Ea. assert (K : exists t, x t = a) by (exists 0; symmetry; exact Ea). clear Ea.
  induction A as [a _ IH]. destruct K as [t Et]. apply (IH (x (S t))); [rewrite <- Et; apply Hx|exists (S t); reflexivity].
Qed.
Print Assumptions strategy_not_endless.

(** * The protocols of examples/ and tests/ *)

(** A test, and a search for a strategy: the branches that lead to rounds whose choices are known to have a way out. *)
Fixpoint home_test (k n : nat) (branch : nat -> nat -> nat -> mty) (labels pick : nat -> nat) (R : nat -> mty) : bool :=
  match k with
  | 0 => false
  | S k' => all_of (fun b => home_test k' n branch labels pick (branch b (pick b))) (choices n labels R)
  end.
Lemma home_test_true : forall k n branch labels pick R, home_test k n branch labels pick R = true -> homeward n branch labels pick R.
Proof.
  induction k as [|k IH]; intros n branch labels pick R H; [discriminate|]. constructor. intros p s b Hp Hs Hin. apply IH.
  cbn [home_test] in H. exact (all_of_true _ _ _ H b (in_choices n labels R p s b Hp Hs Hin)).
Qed.

Definition known (m : list (nat * nat)) (b : nat) : option nat := option_map snd (find (fun e => fst e =? b) m).
Definition is_known (m : list (nat * nat)) (b : nat) : bool := match known m b with Some _ => true | None => false end.
Definition learn (P : proto) (m : list (nat * nat)) (b : nat) : list (nat * nat) :=
  if is_known m b then []
  else match find (fun l => forallb (is_known m) (choices (p_roles P) (p_labels P) (p_branch P b l))) (seq 0 (p_labels P b)) with
       | Some l => [(b, l)]
       | None => []
       end.
Fixpoint learn_all (k : nat) (P : proto) (m : list (nat * nat)) : list (nat * nat) :=
  match k with 0 => m | S k' => learn_all k' P (m ++ flat_map (learn P m) (seq 0 (length (p_choices P)))) end.
Definition home_pick (P : proto) (b : nat) : nat :=
  match known (learn_all (length (p_choices P)) P []) b with Some l => l | None => 0 end.

Definition finishable (P : proto) : bool :=
  let m := learn_all (length (p_choices P)) P [] in
  let pick := fun b => match known m b with Some l => l | None => 0 end in
  let k := S (length (p_choices P)) in
  let home := home_test k (p_roles P) (p_branch P) (p_labels P) pick in
  all_of (fun b => if pick b <? p_labels P b then all_of (fun l => home (p_branch P b l)) (seq 0 (p_labels P b)) else false) (seq 0 (length (p_choices P)))
  && home (p_types P).
Lemma finishable_out : forall P, finishable P = true -> (forall b, b < length (p_choices P) -> 0 < p_labels P b) ->
  way_out (p_roles P) (p_branch P) (p_labels P) (p_types P) (home_pick P).
Proof.
  intros P H Hpos. unfold finishable in H. apply andb_true_iff in H. destruct H as [H1 H2].
  assert (Hb : forall b, 0 < p_labels P b -> b < length (p_choices P)).
  { intros b Hb. unfold p_labels in Hb. destruct (lt_dec b (length (p_choices P))) as [E|E]; [exact E|]. rewrite nth_overflow in Hb by lia. cbn in Hb. lia. }
  assert (K : forall b, b < length (p_choices P) -> home_pick P b < p_labels P b /\ forall l, l < p_labels P b ->
    homeward (p_roles P) (p_branch P) (p_labels P) (home_pick P) (p_branch P b l)).
  { intros b E. pose proof (all_of_true _ _ _ H1 b ltac:(apply in_seq; lia)) as K. cbv beta in K.
    change (match known (learn_all (length (p_choices P)) P []) b with Some l => l | None => 0 end) with (home_pick P b) in K.
    destruct (Nat.ltb_spec (home_pick P b) (p_labels P b)) as [E1|E1]; [|discriminate]. split; [exact E1|].
    intros l Hl. pose proof (all_of_true _ _ _ K l ltac:(apply in_seq; lia)) as K'. apply home_test_true in K'. exact K'. }
  split; [intros b E; apply K, Hb, E|]. intros R HR. destruct HR as [|R p s b lab _ _ _ _ Hl]; [apply home_test_true in H2; exact H2|].
  apply K; [apply Hb; lia|exact Hl].
Qed.
Definition no_empty_choice (P : proto) : bool := forallb (fun ls => match ls with [] => false | _ => true end) (p_choices P).

(** All 69 tables have a way out, from wherever they are. *)
Theorem repository_way_out : forall P, In P all_protocols -> way_out (p_roles P) (p_branch P) (p_labels P) (p_types P) (home_pick P).
Proof.
  intros P H.
  assert (A : all_of (fun P => finishable P && no_empty_choice P) all_protocols = true) by (vm_compute; reflexivity).
  pose proof (all_of_true _ _ _ A P H) as E. cbv beta in E. apply andb_true_iff in E. destruct E as [E1 E2].
  apply finishable_out; [exact E1|]. intros b Hb. unfold no_empty_choice in E2. rewrite forallb_forall in E2.
  unfold p_labels. specialize (E2 (nth b (p_choices P) []) (nth_In _ _ Hb)). destruct (nth b (p_choices P) []); [discriminate|cbn; lia].
Qed.
Print Assumptions repository_way_out.

Theorem repository_can_finish : forall P strict tr st say, In P all_protocols -> proto_steps P strict tr st ->
  (forall p i, In (p, i) tr -> i <> ICrash) ->
  exists tr' st', steps_home (p_roles P) (p_branch P) (p_labels P) strict (home_pick P) st tr' st' /\ (forall p v, In (p, IVal v) tr' -> v = say p) /\ all_ok (p_roles P) st'.
Proof.
  intros P strict tr st say H Hs Hq. pose proof (repository_way_out P H) as W. apply repository_accepted in H.
  pose proof (proj1 (proj1 (accepts_exact P) H)) as HT.
  exact (always_can_finish _ _ _ strict _ _ say tr st HT (accepted_ordered P H) W Hs Hq).
Qed.
Print Assumptions repository_can_finish.
Theorem repository_can_return : forall P strict tr st, In P all_protocols -> proto_steps P strict tr st ->
  (exists tr' st', steps_home (p_roles P) (p_branch P) (p_labels P) strict (home_pick P) st tr' st' /\ all_over (p_roles P) st') /\
  forall x : nat -> @state heap ep, x 0 = st -> ~ forall t, step_home (p_roles P) (p_branch P) (p_labels P) strict (home_pick P) (x (S t)) (x t).
Proof.
  intros P strict tr st H Hs. pose proof (repository_way_out P H) as W. apply repository_accepted in H.
  split; [eapply always_can_return|eapply strategy_not_endless]; eauto using accepted_dual, accepted_ordered.
Qed.
Print Assumptions repository_can_return.

(** ** Examples *)

(** The types [turn] of Properties_Order.v (three roles that all send at once, again and again, until role 1 stops): the way out
    is the label 1; the label 0 is none. *)
Lemma turn_out : way_out 3 turns two turn (fun _ => 1).
Proof.
  split; [intros b _; unfold two; lia|]. intros R HR. apply home_test_true with (k := 2).
  destruct HR as [|R p s b lab _ _ _ _ Hl]; [vm_compute; reflexivity|]. unfold two in Hl.
  destruct b as [|b], lab as [|[|lab]]; try lia; vm_compute; reflexivity.
Qed.
Example turn_no_out : ~ way_out 3 turns two turn (fun _ => 0).
Proof.
  intros [_ W]. pose proof (W turn (reached_first _ _ _ _)) as H.
  assert (K : forall R, homeward 3 turns two (fun _ => 0) R -> script_of 3 two R 1 = script_of 3 two turn 1 -> False).
  { intros R HR. induction HR as [R _ IH]. intros E.
    assert (Es : script_of 3 two turn 1 = Some (match script_of 3 two turn 1 with Some s => s | None => [] end)) by (vm_compute; reflexivity).
    rewrite Es in E. apply (IH 1 _ 0 ltac:(lia) E); [vm_compute; auto 10|vm_compute; reflexivity]. }
  exact (K turn H eq_refl).
Qed.
(** After role 1 has sent (label 0 would follow, and so on for ever) the session can still be finished. *)
Example turn_finishes : exists st, steps_h 3 turns two true turn [(1, IVal 5)] st /\ ~ all_over 3 st /\
  exists tr' st', steps_home 3 turns two true (fun _ => 1) st tr' st' /\ (forall p v, In (p, IVal v) tr' -> v = 7) /\ all_ok 3 st'.
Proof.
  destruct (exec heap_ops 3 turns two true 1 (IVal 5) (start 3 turn)) as [st|] eqn:E; [|vm_compute in E; discriminate].
  assert (H : steps_h 3 turns two true turn [(1, IVal 5)] st) by (econstructor; [exact E|constructor]).
  exists st. split; [exact H|]. split; [vm_compute in E; injection E as <-; intros HA; destruct (HA 1 ltac:(lia)) as [[r Hr] _]; discriminate Hr|].
  apply (always_can_finish 3 turns two true turn (fun _ => 1) (fun _ => 7) _ st turn_types turn_ordered turn_out H).
  intros p i [Hi|[]]. injection Hi as _ <-. discriminate.
Qed.

(** The ways out that the search finds: Fibonacci stops with label 1 (Done); smtp has eleven choices. *)
Example ways_out_found : home_pick fib 0 = 1 /\ length (p_choices smtp) = 11 /\ map (home_pick smtp) (seq 0 11) <> repeat 0 11.
Proof. vm_compute. split; [reflexivity|]. split; [reflexivity|discriminate]. Qed.
