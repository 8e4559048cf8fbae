(** C55: the schedule cannot change what a session computes. *)
From Coq Require Import List Arith Bool Lia Permutation.
From Verif Require Import Types WiringProofs Session Mesh MeshSpec TidySpec MeshSched Global MeshGlobal Properties_Mesh Properties_Global.
Import ListNotations.

Notation runs_h n branch labels strict T := (runs heap_ops n branch labels strict (start n T)).
Notation complete_h n branch labels strict := (complete heap_ops n branch labels strict).

(** The types of the roles, at the start and after every choice, are pairwise dual and tidy: a role that comes
    to an offer has nothing left to do with the roles that do not choose. *)
Definition tidy_types (n : nat) (branch : nat -> nat -> nat -> mty) (labels : nat -> nat) (T : nat -> mty) : Prop :=
  dual_mesh n T /\ tidy_mesh n T /\ forall b l, l < labels b -> dual_mesh n (branch b l) /\ tidy_mesh n (branch b l).

(** * The state of a role depends only on how many steps it has made *)
Theorem same_steps_same_state : forall n branch labels strict T f trA stA trB stB p, tidy_types n branch labels T ->
  runs_h n branch labels strict T f trA stA -> runs_h n branch labels strict T f trB stB -> 1 <= p <= n ->
  count p trA = count p trB -> own p trA = own p trB /\ visible (st_thr stA p) = visible (st_thr stB p).
Proof.
  intros n branch labels strict T f trA stA trB stB p (H1 & H2 & H3) HA HB Hp Hc.
  destruct (sched_same n branch labels strict (fun b l Hl => proj1 (H3 b l Hl)) (fun b l Hl => proj2 (H3 b l Hl)) T H1 H2 f
              trA stA trB stB p HA HB Hp Hc) as [E1 E2]. auto.
Qed.
Print Assumptions same_steps_same_state.

(** * Two runs agree on everything both have done *)
Theorem runs_agree : forall n branch labels strict T f trA stA trB stB p, tidy_types n branch labels T ->
  runs_h n branch labels strict T f trA stA -> runs_h n branch labels strict T f trB stB -> 1 <= p <= n ->
  starts_with (t_log (st_thr stB p)) (t_log (st_thr stA p)) /\ starts_with (own p trB) (own p trA) \/
  starts_with (t_log (st_thr stA p)) (t_log (st_thr stB p)) /\ starts_with (own p trA) (own p trB).
Proof.
  intros n branch labels strict T f trA stA trB stB p (H1 & H2 & H3) HA HB Hp.
  destruct (le_dec (count p trA) (count p trB)) as [H|H]; [left|right];
    eapply (sched_fewer n branch labels strict (fun b l Hl => proj1 (H3 b l Hl)) (fun b l Hl => proj2 (H3 b l Hl)) T H1 H2 f); eauto; lia.
Qed.
Print Assumptions runs_agree.

(** * All complete runs are the same, up to the order of steps of different roles *)
Theorem complete_runs_agree : forall n branch labels strict T f trA stA trB stB, tidy_types n branch labels T ->
  runs_h n branch labels strict T f trA stA -> complete_h n branch labels strict f stA ->
  runs_h n branch labels strict T f trB stB -> complete_h n branch labels strict f stB ->
  Permutation trA trB /\ forall p, 1 <= p <= n -> own p trA = own p trB /\ visible (st_thr stA p) = visible (st_thr stB p).
Proof.
  intros n branch labels strict T f trA stA trB stB (H1 & H2 & H3).
  exact (sched_unique n branch labels strict (fun b l Hl => proj1 (H3 b l Hl)) (fun b l Hl => proj2 (H3 b l Hl)) T H1 H2 f trA stA trB stB).
Qed.
Print Assumptions complete_runs_agree.

(** * If one run comes to an end, every run does, after at most as many steps *)
Theorem one_end_ends_all : forall n branch labels strict T f trA stA trB stB, tidy_types n branch labels T ->
  runs_h n branch labels strict T f trA stA -> complete_h n branch labels strict f stA ->
  runs_h n branch labels strict T f trB stB ->
  length trB <= length trA /\ exists tr stC, runs_h n branch labels strict T f (trB ++ tr) stC /\ complete_h n branch labels strict f stC.
Proof.
  intros n branch labels strict T f trA stA trB stB (H1 & H2 & H3) HA CA HB. split.
  - exact (sched_shorter n branch labels strict (fun b l Hl => proj1 (H3 b l Hl)) (fun b l Hl => proj2 (H3 b l Hl)) T H1 H2 f trA stA trB stB HA CA HB).
  - exact (sched_extends n branch labels strict (fun b l Hl => proj1 (H3 b l Hl)) (fun b l Hl => proj2 (H3 b l Hl)) T H1 H2 f trA stA trB stB HA CA HB).
Qed.
Print Assumptions one_end_ends_all.

(** * One good run is enough, and one deadlock is enough *)
Theorem one_good_run_suffices : forall n branch labels strict T f trA stA trB stB, tidy_types n branch labels T ->
  runs_h n branch labels strict T f trA stA -> all_ok n stA -> runs_h n branch labels strict T f trB stB ->
  (complete_h n branch labels strict f stB -> all_ok n stB) /\
  exists tr stC, runs_h n branch labels strict T f (trB ++ tr) stC /\ all_ok n stC.
Proof.
  intros n branch labels strict T f trA stA trB stB W HA OA HB.
  pose proof (ok_complete n branch labels strict f stA OA) as CA. split.
  - intros CB. destruct (complete_runs_agree n branch labels strict T f trA stA trB stB W HA CA HB CB) as [_ E].
    eapply visible_ok; eauto. intros p Hp. apply E, Hp.
  - destruct (one_end_ends_all n branch labels strict T f trA stA trB stB W HA CA HB) as (_ & tr & stC & HC & CC).
    exists tr, stC. split; [exact HC|]. destruct (complete_runs_agree n branch labels strict T f trA stA _ stC W HA CA HC CC) as [_ E].
    eapply visible_ok; eauto. intros p Hp. apply E, Hp.
Qed.
Print Assumptions one_good_run_suffices.

Theorem one_deadlock_suffices : forall n branch labels strict T f trA stA trB stB, tidy_types n branch labels T ->
  runs_h n branch labels strict T f trA stA -> complete_h n branch labels strict f stA -> ~ all_ok n stA ->
  runs_h n branch labels strict T f trB stB -> ~ all_ok n stB.
Proof.
  intros n branch labels strict T f trA stA trB stB W HA CA NA HB OB. apply NA.
  exact (proj1 (one_good_run_suffices n branch labels strict T f trB stB trA stA W HB OB HA) CA).
Qed.
Print Assumptions one_deadlock_suffices.

(** * Every global protocol qualifies *)
Theorem global_tidy : forall n labels P, wf_protocol n labels P -> tidy_types n (branches P n) labels (proj n (first_round P)).
Proof.
  intros n labels P (_ & W1 & W2). split; [apply proj_dual|]. split; [eapply proj_tidy; eauto|].
  intros b l Hl. split; [apply proj_dual|]. eapply proj_tidy. apply W2. exact Hl.
Qed.
Print Assumptions global_tidy.

Theorem global_one_answer : forall n labels strict P f trA stA trB stB p, wf_protocol n labels P ->
  runs_h n (branches P n) labels strict (proj n (first_round P)) f trA stA -> complete_h n (branches P n) labels strict f stA ->
  runs_h n (branches P n) labels strict (proj n (first_round P)) f trB stB -> 1 <= p <= n ->
  starts_with (t_log (st_thr stA p)) (t_log (st_thr stB p)) /\
  (complete_h n (branches P n) labels strict f stB -> visible (st_thr stA p) = visible (st_thr stB p)).
Proof.
  intros n labels strict P f trA stA trB stB p W HA CA HB Hp. pose proof (global_tidy n labels P W) as WT. split.
  - destruct WT as (H1 & H2 & H3).
    apply (sched_fewer n (branches P n) labels strict (fun b l Hl => proj1 (H3 b l Hl)) (fun b l Hl => proj2 (H3 b l Hl)) _ H1 H2 f trB stB trA stA p HB HA Hp).
    exact (sched_complete n (branches P n) labels strict (fun b l Hl => proj1 (H3 b l Hl)) (fun b l Hl => proj2 (H3 b l Hl)) _ H1 H2 f trA stA trB stB HA CA HB p Hp).
  - intros CB. apply (complete_runs_agree n (branches P n) labels strict _ f trA stA trB stB WT HA CA HB CB). exact Hp.
Qed.
Print Assumptions global_one_answer.

(** * Examples *)

(** Playing a run: the first role in the order of priority that can do something does it. *)
Section Drive.
  Variables (n : nat) (branch : nat -> nat -> nat -> mty) (labels : nat -> nat) (strict : bool) (f : programs).
  Definition moves (p : nat) (st : @state heap ep) : list inp := [ITau; IVal (f p (t_log (st_thr st p))); ILabel (f p (t_log (st_thr st p)))].
  Fixpoint first_move (p : nat) (is : list inp) (st : @state heap ep) : option (inp * @state heap ep) :=
    match is with
    | [] => None
    | i :: is' => match exec heap_ops n branch labels strict p i st with Some st' => Some (i, st') | None => first_move p is' st end
    end.
  Fixpoint first_role (order : list nat) (st : @state heap ep) : option (nat * inp * @state heap ep) :=
    match order with
    | [] => None
    | p :: order' => match first_move p (moves p st) st with Some (i, st') => Some (p, i, st') | None => first_role order' st end
    end.
  Fixpoint drive (order : list nat) (fuel : nat) (st : @state heap ep) : list (nat * inp) * @state heap ep :=
    match fuel with
    | 0 => ([], st)
    | S k => match first_role order st with
             | Some (p, i, st') => let '(tr, st2) := drive order k st' in ((p, i) :: tr, st2)
             | None => ([], st)
             end
    end.

  Variable T : nat -> mty.
  Lemma drive_runs : forall order fuel tr st, runs_h n branch labels strict T f tr st ->
    runs_h n branch labels strict T f (tr ++ fst (drive order fuel st)) (snd (drive order fuel st)).
  Proof.
    intros order fuel. induction fuel as [|k IH]; intros tr st H; cbn [drive]; [cbn; rewrite app_nil_r; exact H|].
    destruct (first_role order st) as [[[p i] st']|] eqn:E; [|cbn; rewrite app_nil_r; exact H].
    assert (K : decides f p (t_log (st_thr st p)) i /\ exec heap_ops n branch labels strict p i st = Some st').
    { clear IH. induction order as [|q order IHo]; [discriminate|]. cbn [first_role] in E.
      destruct (first_move q (moves q st) st) as [[j s1]|] eqn:Em; [|apply IHo; exact E]. injection E as <- <- <-.
      unfold moves in Em. cbn [first_move] in Em.
      repeat match type of Em with context [match ?e with Some _ => _ | None => _ end] => destruct e eqn:? end;
        try discriminate; injection Em as <- <-; cbn; auto. }
    specialize (IH (tr ++ [(p, i)]) st' (runs_snoc _ _ _ _ _ _ _ _ _ _ _ _ H (proj1 K) (proj2 K))).
    destruct (drive order k st') as [tr2 st2]. cbn [fst snd] in *. rewrite <- app_assoc in IH. exact IH.
  Qed.
End Drive.

Definition played n branch labels strict f T order fuel := drive n branch labels strict f order fuel (start n T).
Lemma played_runs : forall n branch labels strict f T order fuel,
  runs_h n branch labels strict T f (fst (played n branch labels strict f T order fuel)) (snd (played n branch labels strict f T order fuel)).
Proof. intros. exact (drive_runs n branch labels strict f T order fuel [] (start n T) (runs_nil _ _ _ _ _ _ _)). Qed.

(** Everybody is over: nothing is left to do. *)
Definition all_done (n : nat) (st : @state heap ep) : bool :=
  forallb (fun p => match t_prog (st_thr st p), t_trash (st_thr st p) with PFin _, [] => true | _, _ => false end) (seq 1 n).
Lemma done_complete : forall n branch labels strict f st, all_done n st = true -> complete_h n branch labels strict f st.
Proof.
  intros n branch labels strict f st H p i _. unfold exec. destruct ((1 <=? p) && (p <=? n)) eqn:Eb; [|reflexivity].
  apply andb_true_iff in Eb. rewrite !Nat.leb_le in Eb. unfold all_done in H. rewrite forallb_forall in H.
  specialize (H p ltac:(apply in_seq; lia)). unfold tstep.
  destruct (t_prog (st_thr st p)); try discriminate. destruct (t_trash (st_thr st p)); [reflexivity|discriminate].
Qed.

(** The protocol of Properties_Global.v: role 3 asks role 1 to send numbers to role 2, here twice, and says goodbye. *)
Definition ask_twice : programs := fun p log =>
  match p with
  | 1 => 10 * length log
  | _ => if length log <? 4 then 0 else 1
  end.
Definition asked (order : list nat) := played 3 (branches asking 3) ask_labels true ask_twice (proj 3 (first_round asking)) order 200.

(** Two very different schedules, both complete: the same steps in another order, the same logs. *)
Example asked_two_ways :
  fst (asked [3; 1; 2]) <> fst (asked [2; 1; 3]) /\
  all_done 3 (snd (asked [3; 1; 2])) = true /\ all_done 3 (snd (asked [2; 1; 3])) = true /\
  t_log (st_thr (snd (asked [3; 1; 2])) 2) =
    [EvRecv 0 3 (VLabel 0 0 2); EvRecv 1 1 (VData 7 10); EvRecv 1 3 (VLabel 0 0 2); EvRecv 2 1 (VData 7 30);
     EvRecv 2 3 (VLabel 0 1 2); EvClose].
Proof. vm_compute. split; [discriminate|]. auto. Qed.
Example asked_agree : Permutation (fst (asked [3; 1; 2])) (fst (asked [2; 1; 3])).
Proof.
  apply (complete_runs_agree 3 (branches asking 3) ask_labels true (proj 3 (first_round asking)) ask_twice _ (snd (asked [3; 1; 2])) _ (snd (asked [2; 1; 3])));
    [apply global_tidy, asking_wf|apply played_runs|apply done_complete; vm_compute; reflexivity|apply played_runs|apply done_complete; vm_compute; reflexivity].
Qed.

(** The ring of C19 is tidy: that it deadlocks in one run shows that no run of it ends well. *)
Example ring_never_works : forall branch labels strict f tr st,
  (forall b l, l < labels b -> dual_mesh 3 (branch b l) /\ tidy_mesh 3 (branch b l)) ->
  runs_h 3 branch labels strict ring f tr st -> ~ all_ok 3 st.
Proof.
  intros branch labels strict f tr st Hb.
  apply (one_deadlock_suffices 3 branch labels strict ring f [] (start 3 ring)).
  - split; [apply pairwise_dual_types_can_deadlock|]. split; [|exact Hb].
    intros p Hp. assert (p = 1 \/ p = 2 \/ p = 3) as [-> | [-> | ->]] by lia; cbn; auto.
  - constructor.
  - intros p i Hd. destruct (pairwise_dual_types_can_deadlock) as [_ H]. destruct (H branch labels strict) as [_ H']. apply H'.
    intros ->. exact Hd.
  - intros H. destruct (H 1) as [E _]; [lia|]. discriminate.
Qed.

(** * Without tidiness the schedule decides

    Role 2 takes the offer of role 1 although its type still wants a message from role 3. [offer_mpst!] accepts
    this (src/macros_multiple/offer.rs:159-184, no bound on the other sessions): the session with role 3 is dropped. Role 3 sends before or after that. *)
Definition hasty : nat -> mty := fun p =>
  match p with
  | 1 => ([Snd (PChoice 0 2) End; Snd (PChoice 0 3) End], SBroadcast)
  | 2 => ([Rcv (PChoice 0 2) End; Rcv (PVal 0) End], SRole 1 SEnd)
  | _ => ([Rcv (PChoice 0 3) End; Snd (PVal 0) End], SRole 2 (SRole 1 SEnd))
  end.
Definition hasty_branch : nat -> nat -> nat -> mty := fun _ _ _ => ([End; End], SEnd).
Definition hasty_labels : nat -> nat := fun _ => 1.
Definition zero : programs := fun _ _ => 0.
Definition hastily (order : list nat) := played 3 hasty_branch hasty_labels true zero hasty order 100.

Theorem schedule_matters_refuted : exists n branch labels strict T f trA stA trB stB,
  dual_mesh n T /\ (forall b l, l < labels b -> dual_mesh n (branch b l) /\ tidy_mesh n (branch b l)) /\
  runs_h n branch labels strict T f trA stA /\ complete_h n branch labels strict f stA /\ all_ok n stA /\
  runs_h n branch labels strict T f trB stB /\ complete_h n branch labels strict f stB /\
  t_prog (st_thr stB 3) = PFin RErr.
Proof.
  exists 3, hasty_branch, hasty_labels, true, hasty, zero.
  exists (fst (hastily [3; 1; 2])), (snd (hastily [3; 1; 2])), (fst (hastily [1; 2; 3])), (snd (hastily [1; 2; 3])).
  split; [all_pairs|]. split.
  - intros b l _. split; [all_pairs|]. intros p Hp. assert (p = 1 \/ p = 2 \/ p = 3) as [-> | [-> | ->]] by lia; cbn; auto.
  - split; [apply played_runs|]. split; [apply done_complete; vm_compute; reflexivity|]. split.
    + intros p Hp. assert (p = 1 \/ p = 2 \/ p = 3) as [-> | [-> | ->]] by lia; vm_compute; auto.
    + split; [apply played_runs|]. split; [apply done_complete; vm_compute; reflexivity|]. vm_compute. reflexivity.
Qed.
Print Assumptions schedule_matters_refuted.
