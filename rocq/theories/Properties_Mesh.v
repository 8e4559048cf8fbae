(** C14, C18, C19: multiparty sessions of any pairwise dual types. The theorems are about the
    concrete machine of Session.v and Mesh.v: threads, one-place channels, drops. *)
From Coq Require Import List Arith Bool Lia.
From Verif Require Import Types WiringProofs Session Mesh MeshSpec MeshReach.
Import ListNotations.

(** Running a schedule (for the examples). *)
Section RunSchedule.
  Context {S H : Type}.
  Variable O : ops S H.
  Variables (n : nat) (branch : nat -> nat -> nat -> mty) (labels : nat -> nat) (strict : bool).
  Fixpoint run (st : @state S H) (tr : list (nat * inp)) : option (@state S H) :=
    match tr with
    | [] => Some st
    | (p, i) :: tr' => match exec O n branch labels strict p i st with Some st1 => run st1 tr' | None => None end
    end.
  Lemma run_steps : forall tr st st', run st tr = Some st' -> steps O n branch labels strict st tr st'.
  Proof.
    induction tr as [|[p i] tr IH]; intros st st' Hr; cbn in Hr.
    - injection Hr as <-. constructor.
    - destruct (exec O n branch labels strict p i st) as [st1|] eqn:E; [|discriminate]. econstructor; eauto.
  Qed.
End RunSchedule.

Definition start (n : nat) (T : nat -> mty) : @state heap ep := init heap_ops n T empty_heap.

(** * C14 *)

(** For any number of roles, pairwise dual types (initial and inside every enum variant), any schedule,
    any values, any branches and any crashes: there is one list of choices that explains everything
    all roles did (see [faithful]); nobody ever meets a message of the wrong type or variant ([PStuck]);
    and the type of the MeshedChannels a role holds is what remains of its declared type after what
    it did in this round. *)
Theorem multiparty_safe : forall n branch labels strict T tr st,
  (forall b l, l < labels b -> dual_mesh n (branch b l)) -> dual_mesh n T ->
  steps heap_ops n branch labels strict (start n T) tr st ->
  exists hist,
    faithful n branch labels T hist (fun p => t_log (st_thr st p)) /\
    (forall p, 1 <= p <= n -> t_round (st_thr st p) <= length hist) /\
    (forall p hs, 1 <= p <= n -> t_prog (st_thr st p) <> PStuck hs) /\
    (forall p ss r hs q, 1 <= p <= n -> 1 <= q <= n -> p <> q -> t_prog (st_thr st p) = PRun ss r hs ->
       after labels (sess (round_types branch T hist (t_round (st_thr st p))) p q)
                    (evs (t_round (st_thr st p)) q (t_log (st_thr st p))) = nth_error ss (field_pos p q)).
Proof. intros n branch labels strict T tr st HB HT H. exact (heap_faithful n branch labels strict HB T HT tr st H). Qed.
Print Assumptions multiparty_safe.

(** In particular two roles never disagree about a choice. *)
Theorem same_branch : forall n branch labels strict T tr st,
  (forall b l, l < labels b -> dual_mesh n (branch b l)) -> dual_mesh n T ->
  steps heap_ops n branch labels strict (start n T) tr st ->
  forall p q g c b l j c' b' l' j', 1 <= p <= n -> 1 <= q <= n ->
    In (EvRecv g c (VLabel b l j)) (t_log (st_thr st p)) ->
    In (EvRecv g c' (VLabel b' l' j')) (t_log (st_thr st q)) -> c = c' /\ b = b' /\ l = l'.
Proof.
  intros n branch labels strict T tr st HB HT H p q g c b l j c' b' l' j' Hp Hq H1 H2.
  destruct (multiparty_safe n branch labels strict T tr st HB HT H) as (hist & F & _).
  destruct (label_received _ _ _ _ _ _ F g p c b l j Hp H1) as [_ E1].
  destruct (label_received _ _ _ _ _ _ F g q c' b' l' j' Hq H2) as [_ E2].
  rewrite E1 in E2. injection E2 as <- <- <-. auto.
Qed.
Print Assumptions same_branch.

(** A recursive three-role protocol: role 3 chooses between "add" (role 1 sends a number to role 2, and
    again) and "bye". *)
Definition ask : nat -> mty := fun p =>
  match p with
  | 1 => ([End; Rcv (PChoice 0 1) End], SRole 3 SEnd)
  | 2 => ([End; Rcv (PChoice 0 2) End], SRole 3 SEnd)
  | _ => ([Snd (PChoice 0 1) End; Snd (PChoice 0 2) End], SBroadcast)
  end.
Definition add_then_ask : nat -> mty := fun p =>
  match p with
  | 1 => ([Snd (PVal 7) End; Rcv (PChoice 0 1) End], SRole 2 (SRole 3 SEnd))
  | 2 => ([Rcv (PVal 7) End; Rcv (PChoice 0 2) End], SRole 1 (SRole 3 SEnd))
  | _ => ([Snd (PChoice 0 1) End; Snd (PChoice 0 2) End], SBroadcast)
  end.
Definition bye : nat -> mty := fun p => ([End; End], SEnd).
Definition ask_branch (b l : nat) : nat -> mty := match l with 0 => add_then_ask | _ => bye end.
Definition ask_labels (b : nat) : nat := 2.

Ltac all_pairs := split; [|]; intros;
  repeat match goal with
         | H : 1 <= ?p <= 3 |- _ => assert (p = 1 \/ p = 2 \/ p = 3) as [-> | [-> | ->]] by lia; clear H
         end; try reflexivity; try congruence.

Example ask_dual : dual_mesh 3 ask.
Proof. all_pairs. Qed.
Example ask_branch_dual : forall b l, l < ask_labels b -> dual_mesh 3 (ask_branch b l).
Proof.
  intros b l Hl. unfold ask_labels in Hl. destruct l as [|[|l]]; [all_pairs|all_pairs|lia].
Qed.

(** One "add", one "bye", role 2 crashes before it learns about the second choice. *)
Definition ask_schedule : list (nat * inp) :=
  [(3, ILabel 0); (3, ITau); (3, ITau); (3, ITau); (3, ITau); (3, ITau); (3, ITau); (3, ITau);
   (1, ITau); (1, ITau); (1, ITau); (1, ITau); (1, ITau); (1, IVal 42);
   (2, ITau); (2, ITau); (2, ITau); (2, ITau); (2, ITau); (2, ITau);
   (3, ILabel 1); (3, ITau); (3, ITau); (3, ITau); (1, ITau); (2, ICrash)].

(** What a schedule leads to. *)
Definition outcome {A} n branch labels strict T tr (f : @state heap ep -> A) : option A :=
  option_map f (run heap_ops n branch labels strict (start n T) tr).
Lemma outcome_steps : forall A n branch labels strict T tr (f : @state heap ep -> A) a,
  outcome n branch labels strict T tr f = Some a ->
  exists st, steps heap_ops n branch labels strict (start n T) tr st /\ f st = a.
Proof.
  intros A n branch labels strict T tr f a H. unfold outcome in H.
  destruct (run heap_ops n branch labels strict (start n T) tr) as [st|] eqn:E; [|discriminate].
  injection H as <-. exists st. split; [apply run_steps; exact E|reflexivity].
Qed.
Definition logs3 (st : @state heap ep) := (t_log (st_thr st 1), t_log (st_thr st 2), t_log (st_thr st 3)).
Definition result_of (st : @state heap ep) (p : nat) : option result :=
  match t_prog (st_thr st p) with PFin r => Some r | _ => None end.

Example ask_runs : exists st,
  steps heap_ops 3 ask_branch ask_labels false (start 3 ask) ask_schedule st /\
  (logs3 st, result_of st 2) =
  ([EvRecv 0 3 (VLabel 0 0 1); EvSend 1 2 (VData 7 42); EvRecv 1 3 (VLabel 0 1 1)],
   [EvRecv 0 3 (VLabel 0 0 2); EvRecv 1 1 (VData 7 42)],
   [EvSend 0 1 (VLabel 0 0 1); EvSend 0 2 (VLabel 0 0 2); EvSend 1 1 (VLabel 0 1 1)], Some RCrash).
Proof. apply outcome_steps. vm_compute. reflexivity. Qed.

(** * C18 *)

(** A role whose close returned Ok knows that every role has called close. Any pairwise dual types,
    any schedule, any crashes. *)
Theorem close_ok_means_all_called_close : forall n branch labels strict T tr st,
  (forall b l, l < labels b -> dual_mesh n (branch b l)) -> dual_mesh n T ->
  steps heap_ops n branch labels strict (start n T) tr st ->
  forall p, 1 <= p <= n -> result_of st p = Some ROk ->
  forall q, 1 <= q <= n -> In EvClose (t_log (st_thr st q)).
Proof.
  intros n branch labels strict T tr st HB HT H p Hp Hr q Hq.
  apply (heap_close n branch labels strict HB T HT tr st H p Hp); [|exact Hq].
  unfold result_of in Hr. destruct (t_prog (st_thr st p)); try discriminate. congruence.
Qed.
Print Assumptions close_ok_means_all_called_close.

(** So if a role ended without calling close, nobody ever gets Ok, now or later. *)
Theorem no_ok_after_early_end : forall n branch labels strict T tr tr' st st',
  (forall b l, l < labels b -> dual_mesh n (branch b l)) -> dual_mesh n T ->
  steps heap_ops n branch labels strict (start n T) tr st ->
  steps heap_ops n branch labels strict st tr' st' ->
  forall q r, 1 <= q <= n -> result_of st q = Some r -> ~ In EvClose (t_log (st_thr st q)) ->
  forall p, 1 <= p <= n -> result_of st' p <> Some ROk.
Proof.
  intros n branch labels strict T tr tr' st st' HB HT H H' q r Hq Hr Hc p Hp Hok.
  assert (Happ : forall a t1 b, steps heap_ops n branch labels strict a t1 b -> forall t2 c,
            steps heap_ops n branch labels strict b t2 c -> steps heap_ops n branch labels strict a (t1 ++ t2) c).
  { intros a t1 b Hs. induction Hs; intros t2 c Hs2; [exact Hs2|]. cbn. econstructor; eauto. }
  assert (Hkeep : forall t1 a b, steps heap_ops n branch labels strict a t1 b -> result_of a q = Some r ->
            result_of b q = Some r /\ t_log (st_thr b q) = t_log (st_thr a q)).
  { clear. intros t1 a b Hs. induction Hs as [a|a p i a1 tr b Hx Hs IH]; intros Hr; [auto|].
    assert (E : result_of a1 q = Some r /\ t_log (st_thr a1 q) = t_log (st_thr a q)).
    { unfold exec in Hx. destruct ((1 <=? p) && (p <=? n)); [|discriminate].
      destruct (tstep heap_ops n branch labels strict p i (st_thr a p) (st_store a)) as [[th s1]|] eqn:Et; [|discriminate].
      injection Hx as <-. unfold result_of, set_thr in *. cbn [st_thr].
      destruct (Nat.eqb_spec q p) as [E0|]; [|auto]. subst p. unfold tstep in Et.
      destruct (t_trash (st_thr a q)) as [|x rest]; destruct (t_prog (st_thr a q)) as [| | |res|]; try discriminate.
      destruct i; try discriminate. cbn [op_drop heap_ops] in Et. destruct (heap_drop x (st_store a)) as [out s2].
      injection Et as <- _. auto. }
    destruct E as [E1 E2]. rewrite <- E2. apply IH, E1. }
  destruct (Hkeep _ _ _ H' Hr) as [_ E].
  pose proof (close_ok_means_all_called_close n branch labels strict T _ st' HB HT (Happ _ _ _ H _ _ H') p Hp Hok q Hq) as HI.
  rewrite E in HI. contradiction.
Qed.
Print Assumptions no_ok_after_early_end.

(** Everybody says bye at once: all three closes return Ok. *)
Definition tau (p k : nat) : list (nat * inp) := repeat (p, ITau) k.
Definition bye_schedule : list (nat * inp) :=
  [(3, ILabel 1)] ++ tau 3 10 ++ tau 1 8 ++ tau 2 8 ++ tau 1 3 ++ tau 2 3 ++ tau 3 3.
Example bye_runs : exists st,
  steps heap_ops 3 ask_branch ask_labels true (start 3 ask) bye_schedule st /\
  (result_of st 1, result_of st 2, result_of st 3) = (Some ROk, Some ROk, Some ROk).
Proof. apply outcome_steps. vm_compute. reflexivity. Qed.
(** Role 2 panics instead of closing: roles 1 and 3 get errors. *)
Definition no_bye_schedule : list (nat * inp) :=
  [(3, ILabel 1)] ++ tau 3 10 ++ tau 1 8 ++ tau 2 5 ++ [(2, ICrash)] ++ tau 2 4 ++ tau 1 1 ++ tau 3 2.
Example no_bye_runs : exists st,
  steps heap_ops 3 ask_branch ask_labels true (start 3 ask) no_bye_schedule st /\
  (result_of st 1, result_of st 2, result_of st 3) = (Some RErr, Some RCrash, Some RErr).
Proof. apply outcome_steps. vm_compute. reflexivity. Qed.

(** * C19 *)

(** Pairwise dual types, accepted by fork: each role first waits for the previous one. *)
Definition ring : nat -> mty := fun p =>
  match p with
  | 1 => ([Snd (PVal 0) End; Rcv (PVal 0) End], SRole 3 (SRole 2 SEnd))
  | 2 => ([Rcv (PVal 0) End; Snd (PVal 0) End], SRole 1 (SRole 3 SEnd))
  | _ => ([Snd (PVal 0) End; Rcv (PVal 0) End], SRole 2 (SRole 1 SEnd))
  end.

(** Nobody has finished and nobody can do anything, whatever the environment decides (short of a crash). *)
Definition deadlock (n : nat) branch labels strict (st : @state heap ep) : Prop :=
  (exists p, 1 <= p <= n /\ result_of st p = None) /\
  forall p i, i <> ICrash -> exec heap_ops n branch labels strict p i st = None.

Theorem pairwise_dual_types_can_deadlock :
  dual_mesh 3 ring /\
  forall branch labels strict, deadlock 3 branch labels strict (start 3 ring).
Proof.
  split; [all_pairs|]. intros branch labels strict. split.
  - exists 1. split; [lia|]. reflexivity.
  - intros p i Hi. destruct p as [|[|[|[|p]]]]; try reflexivity; destruct i; try reflexivity; congruence.
Qed.
Print Assumptions pairwise_dual_types_can_deadlock.
