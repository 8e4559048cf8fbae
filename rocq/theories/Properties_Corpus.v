(** C57: the protocols of examples/ and tests/ cannot deadlock and end well; four protocols of the tests of the checker
    cannot be run at all. *)
From Coq Require Import List Arith Bool Lia Permutation.
From Verif Require Import Types WiringProofs Session Mesh MeshSpec TidySpec OrderSpec OrderProofs MeshSched Proto ProtoProofs Corpus CorpusRing CorpusMesh CorpusUnfit
  Properties_Mesh Properties_Global Properties_Schedule Properties_Order.
Import ListNotations.

(** All protocols transcribed: 69 tables for 216 files. *)
Definition all_protocols : list proto := corpus ++ rings ++ meshes.

(** * The test of a table says yes exactly if every round in it is dual, tidy and can be followed in order *)
Theorem accepts_exact : forall P, accepts P = true <->
  tidy_types (p_roles P) (p_branch P) (p_labels P) (p_types P) /\
  ordered (p_roles P) (p_labels P) (p_types P) /\
  forall b l, l < p_labels P b -> ordered (p_roles P) (p_labels P) (p_branch P b l).
Proof.
  intros P. rewrite accepts_rounds. split.
  - intros H. pose proof (H _ (or_introl eq_refl)) as (H1 & H2 & H3).
    assert (K : forall b l, l < p_labels P b -> _) by (intros b l Hl; exact (H _ (or_intror (ex_intro _ b (ex_intro _ l (conj Hl eq_refl)))))).
    split; [|split; [exact H3|]; intros b l Hl; apply K, Hl].
    split; [exact H1|]. split; [exact H2|]. intros b l Hl. destruct (K b l Hl) as (K1 & K2 & _). auto.
  - intros ((H1 & H2 & H3) & H4 & H5) T [->|(b & l & Hl & ->)]; [auto|]. destruct (H3 b l Hl). auto.
Qed.
Print Assumptions accepts_exact.

Lemma accepted_ordered : forall P, accepts P = true -> all_ordered (p_roles P) (p_branch P) (p_labels P) (p_types P).
Proof.
  intros P H. apply accepts_exact in H. destruct H as (_ & H1 & H2). intros R HR. destruct HR as [|R p l b lab HR Hp Hs Hin Hl]; [exact H1|apply H2, Hl].
Qed.
Lemma accepted_dual : forall P, accepts P = true -> dual_types (p_roles P) (p_branch P) (p_labels P) (p_types P).
Proof.
  intros P H. apply accepts_exact in H. destruct H as ((H1 & _ & H3) & _). split; [exact H1|]. intros b l Hl. apply H3, Hl.
Qed.

(** The executions of a protocol of the repository: [strict] for [generate!("recursive", ..)] (send), not strict for
    ["rec_and_cancel"]; anybody may crash at any time. *)
Notation proto_steps P strict := (steps_h (p_roles P) (p_branch P) (p_labels P) strict (p_types P)).
Notation proto_runs P strict := (runs_h (p_roles P) (p_branch P) (p_labels P) strict (p_types P)).
Notation proto_complete P strict := (complete_h (p_roles P) (p_branch P) (p_labels P) strict).

(** * An accepted table never blocks *)
Theorem accepted_progress : forall P strict tr st, accepts P = true -> proto_steps P strict tr st ->
  all_over (p_roles P) st \/ exists p i st', 1 <= p <= p_roles P /\ i <> ICrash /\ exec heap_ops (p_roles P) (p_branch P) (p_labels P) strict p i st = Some st'.
Proof.
  intros P strict tr st H Hs. eapply ordered_progress; [apply accepted_dual, H|apply accepted_ordered, H|exact Hs].
Qed.
Print Assumptions accepted_progress.

(** * Without crashes every run of an accepted table that comes to an end is the same one, and all roles return Ok *)
Theorem accepted_one_ok_answer : forall P strict f trA stA trB stB, accepts P = true ->
  in_range (p_roles P) (p_branch P) (p_labels P) strict (p_types P) f ->
  proto_runs P strict f trA stA -> proto_complete P strict f stA -> proto_runs P strict f trB stB -> proto_complete P strict f stB ->
  all_ok (p_roles P) stA /\ Permutation trA trB /\ forall p, 1 <= p <= p_roles P -> visible (st_thr stA p) = visible (st_thr stB p).
Proof.
  intros P strict f trA stA trB stB H HI HA CA HB CB. pose proof (proj1 (proj1 (accepts_exact P) H)) as HT.
  split; [eapply ordered_all_ok; eauto; apply accepted_ordered, H|].
  destruct (complete_runs_agree _ _ _ _ _ f trA stA trB stB HT HA CA HB CB) as [E1 E2]. split; [exact E1|]. intros p Hp. apply E2, Hp.
Qed.
Print Assumptions accepted_one_ok_answer.

(** * All protocols of the repository are accepted *)
Lemma corpus_accepted : forallb accepts corpus = true.
Proof. vm_compute. reflexivity. Qed.
Lemma rings_accepted : forallb accepts rings = true.
Proof. vm_compute. reflexivity. Qed.
Lemma meshes_accepted : forallb accepts meshes = true.
Proof. vm_compute. reflexivity. Qed.
Theorem repository_accepted : forall P, In P all_protocols -> accepts P = true.
Proof.
  intros P H. apply in_app_or in H. destruct H as [H|H]; [|apply in_app_or in H; destruct H as [H|H]].
  - exact (proj1 (forallb_forall _ _) corpus_accepted P H).
  - exact (proj1 (forallb_forall _ _) rings_accepted P H).
  - exact (proj1 (forallb_forall _ _) meshes_accepted P H).
Qed.
Print Assumptions repository_accepted.

(** So none of them blocks, whatever the schedule, the values, the choices and the crashes; and without crashes all
    complete runs agree and end with Ok. *)
Theorem repository_never_blocks : forall P strict tr st, In P all_protocols -> proto_steps P strict tr st ->
  all_over (p_roles P) st \/ exists p i st', 1 <= p <= p_roles P /\ i <> ICrash /\ exec heap_ops (p_roles P) (p_branch P) (p_labels P) strict p i st = Some st'.
Proof. intros P strict tr st H. apply accepted_progress, repository_accepted, H. Qed.
Print Assumptions repository_never_blocks.
Theorem repository_one_ok_answer : forall P strict f trA stA trB stB, In P all_protocols ->
  in_range (p_roles P) (p_branch P) (p_labels P) strict (p_types P) f ->
  proto_runs P strict f trA stA -> proto_complete P strict f stA -> proto_runs P strict f trB stB -> proto_complete P strict f stB ->
  all_ok (p_roles P) stA /\ Permutation trA trB /\ forall p, 1 <= p <= p_roles P -> visible (st_thr stA p) = visible (st_thr stB p).
Proof. intros P strict f trA stA trB stB H. apply accepted_one_ok_answer, repository_accepted, H. Qed.
Print Assumptions repository_one_ok_answer.

(** * Four protocols of tests/checking_mod/complex are not dual: no [fork_mpst] and no [choose_mpst_*_to_all!] can be called
    with these types (they ask for dual sessions), although [checker_concat!] takes them and three of the four tests expect the
    answer "safe" (alternating_bit.rs:226, async_paper_ext_rev_sync.rs:237, cloud_system.rs:322; for inf_snd_rcv.rs:171 it
    expects no answer). *)
Theorem checker_tests_refuted : forall P, In P unfit -> accepts P = false /\ exists b l, l < p_labels P b /\ ~ dual_mesh (p_roles P) (p_branch P b l).
Proof.
  assert (K : forall P b l, (l <? p_labels P b) && negb (dual_test (p_roles P) (p_branch P b l)) = true ->
              exists b l, l < p_labels P b /\ ~ dual_mesh (p_roles P) (p_branch P b l)).
  { intros P b l H. apply andb_true_iff in H. destruct H as [H1 H2]. exists b, l. split; [apply Nat.ltb_lt, H1|].
    intros D. apply dual_test_true in D. rewrite D in H2. discriminate. }
  intros P [<-|[<-|[<-|[<-|[]]]]]; (split; [vm_compute; reflexivity|]); apply (K _ 0 1); vm_compute; reflexivity.
Qed.
Print Assumptions checker_tests_refuted.

(** ** Examples *)

Lemma in_range_const : forall P strict f, (forall p log b, 0 < p_labels P b -> f p log < p_labels P b) ->
  in_range (p_roles P) (p_branch P) (p_labels P) strict (p_types P) f.
Proof. intros P strict f H tr st p ss hs b _ _ _ _ Hl. auto. Qed.

(** OAuth (examples/mpst/o_auth.rs): the authorisation succeeds; all three roles return Ok. *)
Definition o_auth_run (order : list nat) := played (p_roles o_auth) (p_branch o_auth) (p_labels o_auth) true zero (p_types o_auth) order 300.
Example o_auth_ends : all_done 3 (snd (o_auth_run [1; 2; 3])) = true /\ all_done 3 (snd (o_auth_run [3; 2; 1])) = true /\
  t_log (st_thr (snd (o_auth_run [1; 2; 3])) 3) =
    [EvRecv 0 2 (VData 3 0); EvSend 0 2 (VData 4 0); EvRecv 0 1 (VLabel 0 0 3); EvRecv 1 2 (VData 5 0); EvSend 1 1 (VData 6 0);
     EvRecv 1 1 (VData 6 0); EvSend 1 2 (VData 6 0); EvClose].
Proof. vm_compute. auto. Qed.
Example o_auth_same : all_ok 3 (snd (o_auth_run [1; 2; 3])) /\ Permutation (fst (o_auth_run [1; 2; 3])) (fst (o_auth_run [3; 2; 1])) /\
  fst (o_auth_run [1; 2; 3]) <> fst (o_auth_run [3; 2; 1]).
Proof.
  destruct (repository_one_ok_answer o_auth true zero (fst (o_auth_run [1; 2; 3])) (snd (o_auth_run [1; 2; 3]))
              (fst (o_auth_run [3; 2; 1])) (snd (o_auth_run [3; 2; 1]))) as (H1 & H2 & _).
  - apply in_or_app. left. unfold corpus. repeat first [left; reflexivity|right].
  - apply in_range_const. intros p log b Hl. exact Hl.
  - apply played_runs.
  - exact (done_complete 3 _ _ _ _ _ (proj1 o_auth_ends)).
  - apply played_runs.
  - exact (done_complete 3 _ _ _ _ _ (proj1 (proj2 o_auth_ends))).
  - split; [exact H1|]. split; [exact H2|]. vm_compute. discriminate.
Qed.
(** If the authorisation server crashes while the others wait for it, somebody can still go on. *)
Example o_auth_crash : exists st, proto_steps o_auth false [(1, ICrash); (2, IVal 5)] st /\ ~ all_over 3 st /\
  exists p i st', 1 <= p <= 3 /\ i <> ICrash /\ exec heap_ops 3 (p_branch o_auth) (p_labels o_auth) false p i st = Some st'.
Proof.
  assert (E : exists st, proto_steps o_auth false [(1, ICrash); (2, IVal 5)] st /\ result_of st 2 = None).
  { apply outcome_steps. vm_compute. reflexivity. }
  destruct E as (st & H & E). exists st. split; [exact H|].
  assert (Hn : ~ all_over 3 st).
  { intros HA. destruct (HA 2 ltac:(lia)) as [[r Hr] _]. unfold result_of in E. rewrite Hr in E. discriminate. }
  assert (A : accepts o_auth = true) by (vm_compute; reflexivity).
  split; [exact Hn|]. destruct (accepted_progress o_auth false _ st A H) as [HA|HA]; [contradiction|exact HA].
Qed.
(** How the table of cloud_system fails: role D is to be told of choice 1 as if it were role C (cloud_system.rs:111), and B waits for
    a message of C that C does not send (cloud_system.rs:59, 82). *)
Example cloud_system_fails : dual_test 4 (p_branch cloud_system 1 0) = false /\ dual_test 4 (p_branch cloud_system 0 1) = false /\
  check 4 (p_labels cloud_system) (p_branch cloud_system 0 1) = false.
Proof. vm_compute. auto. Qed.
