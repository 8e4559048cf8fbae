(** The data on the stream. Proofs for C53. *)
From Coq Require Import List Arith Bool Lia.
From Verif Require Import Types Wiring Session Mesh MeshSpec Global Binary Properties_Mesh Properties_Global Properties_Binary Transport TransportMirror.
Import ListNotations.

(** ** One step of a thread adds at most one event to its log *)

Lemma tstep_log branch labels p i th s th' s' : tstep heap_ops 2 branch labels true p i th s = Some (th', s') ->
  t_log th' = t_log th \/ (exists e, t_log th' = t_log th ++ [e] /\ exists ss r hs, t_prog th = PRun ss r hs) \/
  (exists g x b l j, t_log th' = t_log th ++ [EvSend g x (VLabel b l j)]).
Proof.
  unfold tstep. destruct (t_trash th).
  2: { destruct i; try discriminate. destruct (op_drop _ _ _). intros H. injection H as <- _. now left. }
  destruct (t_prog th) as [ss r hs|b l pend own|a r hs|res|hs] eqn:Ep; try discriminate.
  - assert (forall A (x : A), exists ss' r' hs', PRun ss r hs = @PRun ep ss' r' hs') as K by eauto.
    destruct i as [|v|l|].
    + destruct r as [| |x r'| | |]; try discriminate.
      * destruct (forallb is_end ss); [|discriminate]. intros H. injection H as <- _. right. left. cbn. eauto.
      * destruct (callable 2 p x); [|discriminate]. destruct (nth_error ss _) as [[|P k|[t|b j] k]|]; try discriminate.
        -- destruct (nth_error hs _) as [h|]; [|discriminate]. unfold do_recv.
           destruct (op_recv heap_ops h s) as [[t' v|] [|] h' s1|s1| |]; try discriminate; try (destruct (t' =? t)); intros H; injection H as <- _; cbn; eauto 8.
        -- destruct k; try discriminate. destruct (nth_error hs _) as [h|]; [|discriminate]. destruct (j =? p); [|discriminate]. unfold do_offer.
           destruct (op_recv heap_ops h s) as [[|b' l j'] c h' s1|s1| |]; try discriminate; try (destruct ((b' =? b) && (j' =? p) && (l <? labels b)));
             intros H; injection H as <- _; cbn; eauto 8.
    + destruct r as [| |x r'| | |]; try discriminate. destruct (callable 2 p x); [|discriminate].
      destruct (nth_error ss _) as [[|[t|] k|]|]; try discriminate. destruct (nth_error hs _) as [h|]; [|discriminate].
      unfold do_send. destruct (op_send heap_ops h _ _ _ _); try discriminate; intros H; injection H as <- _; cbn; eauto 8.
    + destruct r; try discriminate. destruct (choice_of p ss) as [b|]; [|discriminate]. destruct (l <? labels b); [|discriminate].
      destruct (make_choice _ _ _ _ _ _ _ _) as [[pr s1]|]; intros H; injection H as <- _; now left.
    + intros H. injection H as <- _. now left.
  - destruct i; try discriminate; destruct pend as [|[[x h] m] pend]; try (intros H; injection H as <- _; now left).
    unfold do_choose_send. destruct (op_send heap_ops h _ _ _ _); try discriminate; intros H; injection H as <- _; cbn; eauto 8.
  - destruct i; try discriminate; [|intros H; injection H as <- _; now left].
    unfold do_close. destruct (nth_error hs a).
    + destruct (op_tell _ _ _ _); try discriminate; intros H; injection H as <- _; now left.
    + destruct (nth_error hs r); [|intros H; injection H as <- _; now left].
      destruct (op_hear _ _ _) as [[]| | |]; try discriminate; intros H; injection H as <- _; now left.
Qed.

Definition dops (st : @state heap ep) (p : nat) : list bool := data_ops (t_log (st_thr st p)).
Definition over (st : @state heap ep) (p : nat) : Prop := exists r, t_prog (st_thr st p) = PFin r.

Lemma step2_log branch labels p i st st' : step2 branch labels p i st = Some st' ->
  1 <= p <= 2 /\ (forall q, q <> p -> st_thr st' q = st_thr st q) /\
  (dops st' p = dops st p \/ exists b, dops st' p = dops st p ++ [b] /\ ~ over st p).
Proof.
  unfold step2, exec. destruct ((1 <=? p) && (p <=? 2)) eqn:Eb; [|discriminate]. rewrite andb_true_iff, !Nat.leb_le in Eb.
  destruct (tstep _ _ _ _ _ _ _ _ _) as [[th s1]|] eqn:Ex; [|discriminate]. intros H. injection H as <-. split; [exact Eb|]. split.
  - intros q Hq. cbn. unfold set_thr. destruct (Nat.eqb_spec q p); [contradiction|reflexivity].
  - unfold dops. cbn. unfold set_thr. rewrite Nat.eqb_refl. unfold data_ops.
    destruct (tstep_log _ _ _ _ _ _ _ _ Ex) as [->|[(e & -> & ss & r & hs & Ep)|(g & x & b & l & j & ->)]]; [now left| |].
    + rewrite flat_map_app. cbn [flat_map]. rewrite app_nil_r. destruct e as [g x [t v|b l j]|g x [t v|b l j]|]; cbn [data_op];
        rewrite ?app_nil_r; auto; right; eexists; (split; [reflexivity|]); intros [r' Hr]; congruence.
    + left. rewrite flat_map_app. cbn. now rewrite app_nil_r.
Qed.

(** Threads that have returned stay so. *)
Lemma tstep_fin branch labels p i th s th' s' r : tstep heap_ops 2 branch labels true p i th s = Some (th', s') ->
  t_prog th = PFin r -> t_prog th' = PFin r.
Proof.
  unfold tstep. intros H E. destruct (t_trash th).
  - rewrite E in H. discriminate.
  - destruct i; try discriminate. destruct (op_drop _ _ _). injection H as <- _. exact E.
Qed.
Lemma step2_over branch labels p i st st' q : step2 branch labels p i st = Some st' -> over st q -> over st' q.
Proof.
  unfold step2, exec. destruct ((1 <=? p) && (p <=? 2)); [|discriminate].
  destruct (tstep _ _ _ _ _ _ _ _ _) as [[th s1]|] eqn:Ex; [|discriminate]. intros H [r Hr]. injection H as <-. exists r. cbn. unfold set_thr.
  destruct (Nat.eqb_spec q p) as [->|]; [|exact Hr]. eapply tstep_fin; eauto.
Qed.
Lemma step2_crash branch labels p st st' : step2 branch labels p ICrash st = Some st' -> over st' p.
Proof.
  unfold step2, exec. destruct ((1 <=? p) && (p <=? 2)); [|discriminate].
  destruct (tstep _ _ _ _ _ _ _ _ _) as [[th s1]|] eqn:Ex; [|discriminate]. intros H. injection H as <-. unfold over. cbn. unfold set_thr. rewrite Nat.eqb_refl.
  unfold tstep in Ex. destruct (t_trash (st_thr st p)); [|discriminate].
  destruct (t_prog (st_thr st p)) as [ss r hs|b l pend own|a r hs|res|hs]; try discriminate; [| |]; try (injection Ex as <- _; eexists; reflexivity).
Qed.

(** ** Messages of the whole session *)

Section Flagged.
  Variable fl : nat -> bool.
  Fixpoint flagged (k : nat) (ms : list bytes) : bytes :=
    match ms with [] => [] | m :: r => (if fl k then m else []) ++ flagged (S k) r end.
  Lemma flagged_app : forall a b k, flagged k (a ++ b) = flagged k a ++ flagged (k + length a) b.
  Proof.
    induction a as [|m a IH]; intros b k; cbn [app flagged length]; [now rewrite Nat.add_0_r|].
    rewrite IH, <- app_assoc. do 3 f_equal. lia.
  Qed.
  Lemma flagged_split c ms m : nth_error ms c = Some m ->
    flagged 0 ms = flagged 0 (firstn c ms) ++ (if fl c then m else []) ++ flagged (S c) (skipn (S c) ms).
  Proof.
    intros H. rewrite <- (firstn_skipn c ms) at 1. assert (c < length ms) as Hc by (apply nth_error_Some; congruence).
    rewrite flagged_app, firstn_length_le by lia. f_equal. cbn [Nat.add].
    assert (skipn c ms = m :: skipn (S c) ms) as ->; [|reflexivity].
    clear Hc. revert c H. induction ms as [|x ms IH]; intros [|c] H; cbn in *; try discriminate; [congruence|]. now apply IH.
  Qed.
  Lemma flagged_upto c ms m : nth_error ms c = Some m -> flagged 0 (firstn (S c) ms) = flagged 0 (firstn c ms) ++ (if fl c then m else []).
  Proof.
    intros H. assert (c < length ms) as Hc by (apply nth_error_Some; congruence).
    assert (firstn (S c) ms = firstn c ms ++ [m]) as ->.
    { clear Hc. revert c H. induction ms as [|x ms IH]; intros [|c] H; cbn in *; try discriminate; [congruence|]. now rewrite IH. }
    rewrite flagged_app, firstn_length_le by lia. cbn. now rewrite app_nil_r.
  Qed.
End Flagged.

(** ** The invariant *)

Definition wpart (i : io) : bytes := match i with IoWrite r => r | _ => [] end.
Definition reading (i : io) : bool := match i with IoRead _ => true | _ => false end.

Section Stream.
  Variable labels : nat -> nat.
  Variable B : binary.
  Variable tcp : nat -> nat -> bool.
  Variable close_flag : nat -> bool.
  Hypothesis agree : forall k, tcp 1 k = tcp 2 k.
  Let fl := tcp 1.
  Let branch := branches (two B) 2.
  Let T := proj 2 (first_round (two B)).

  Lemma fl_tcp p k : 1 <= p <= 2 -> tcp p k = fl k.
  Proof. intros Hp. assert (p = 1 \/ p = 2) as [-> | ->] by lia; [reflexivity|]. unfold fl. now rewrite agree. Qed.

  (** What is known of role p and of the messages [ms]. *)
  Record role_ok (x : xstate) (ms : list bytes) (p : nat) : Prop := RoleOk {
    ro_max : length ms = Nat.max (length (dops (x_st x) p)) (length (dops (x_st x) (peer_of p)));
    ro_count : over (x_st x) p /\ x_io x p = IoNone \/ length (x_data x p) + (if reading (x_io x p) then 1 else 0) = length (dops (x_st x) p);
    ro_le : length (x_data x p) <= length (dops (x_st x) p);
    ro_sent : forall k, nth_error (dops (x_st x) p) k = Some true -> nth_error (x_data x p) k = nth_error ms k;
    ro_got : forall k d, nth_error (dops (x_st x) p) k = Some false -> nth_error (x_data x p) k = Some d ->
      if fl k then nth_error ms k = Some d else d = zeros;
    ro_write : forall r, n_shut (x_net x) = false -> x_io x p = IoWrite r -> wpart (x_io x (peer_of p)) = [] /\
      r <> [] /\ exists k m pre, length (dops (x_st x) p) = S k /\ length ms = S k /\ nth_error (dops (x_st x) p) k = Some true /\
        fl k = true /\ nth_error ms k = Some m /\ m = pre ++ r;
    ro_read : forall g, x_io x p = IoRead g -> length g < size /\
      exists k, length (dops (x_st x) p) = S k /\ nth_error (dops (x_st x) p) k = Some false /\ fl k = true;
    ro_up : n_shut (x_net x) = false ->
      n_up (x_net x) ++ wpart (x_io x p) ++ wpart (x_io x (peer_of p)) = flagged fl 0 ms
  }.

  (** The number of messages already read, and the part read of the next. *)
  Definition read_at (x : xstate) (c : nat) (g : bytes) : Prop :=
    exists p, 1 <= p <= 2 /\ reading (x_io x (peer_of p)) = false /\
      (x_io x p = IoRead g /\ length (dops (x_st x) p) = S c \/
       reading (x_io x p) = false /\ c = Nat.min (length (dops (x_st x) p)) (length (dops (x_st x) (peer_of p))) /\ g = []).

  Record good (x : xstate) (ms : list bytes) : Prop := Good {
    g_reach : exists tr, bexecutes labels true B tr (x_st x);
    g_sizes : Forall (fun m => length m = size) ms;
    g_role : forall p, 1 <= p <= 2 -> role_ok x ms p;
    g_echo : echo (x_net x);
    g_pos : n_pos (x_net x) <= length (n_down (x_net x));
    g_down : n_shut (x_net x) = false -> exists c g, read_at x c g /\
      n_pos (x_net x) = length (flagged fl 0 (firstn c ms)) + length g /\
      forall m, nth_error ms c = Some m -> g = firstn (length g) m
  }.

  (** ** Consequences of the mirror *)

  Lemma mirror_at tr st p : bexecutes labels true B tr st -> 1 <= p <= 2 ->
    ahead (dops st p) (dops st (peer_of p)) \/ ahead (dops st (peer_of p)) (dops st p).
  Proof.
    intros H Hp. pose proof (mirror labels B tr st H) as M. cbv zeta in M.
    assert (p = 1 \/ p = 2) as [-> | ->] by lia; unfold dops; cbn; tauto.
  Qed.
  Lemma nth_negb d k : nth_error (map negb d) k = match nth_error d k with Some b => Some (negb b) | None => None end.
  Proof. revert k. induction d as [|b d IH]; intros [|k]; cbn; auto. Qed.
  Lemma nth_trues n k : k < n -> nth_error (repeat true n) k = Some true.
  Proof. revert k. induction n as [|n IH]; intros [|k] H; cbn; try lia; [reflexivity|]. apply IH. lia. Qed.

  (** Both did it: one sent and the other received. *)
  Lemma both tr st p k b : bexecutes labels true B tr st -> 1 <= p <= 2 -> nth_error (dops st p) k = Some b ->
    k < length (dops st (peer_of p)) -> nth_error (dops st (peer_of p)) k = Some (negb b).
  Proof.
    intros H Hp Hk Hl. destruct (mirror_at tr st p H Hp) as [[j E]|[j E]].
    - rewrite E in Hk. rewrite nth_error_app1, nth_negb in Hk by (rewrite map_length; lia).
      destruct (nth_error (dops st (peer_of p)) k) as [b'|]; [|discriminate]. injection Hk as <-. now rewrite negb_involutive.
    - assert (k < length (dops st p)) by (apply nth_error_Some; congruence). rewrite E. rewrite nth_error_app1, nth_negb, Hk by (rewrite map_length; lia). reflexivity.
  Qed.
  (** Only one did it: it is a send. *)
  Lemma alone tr st p k b : bexecutes labels true B tr st -> 1 <= p <= 2 -> nth_error (dops st p) k = Some b ->
    length (dops st (peer_of p)) <= k -> b = true.
  Proof.
    intros H Hp Hk Hl. destruct (mirror_at tr st p H Hp) as [[j E]|[j E]].
    - rewrite E in Hk. assert (k < length (map negb (dops st (peer_of p)) ++ repeat true j)) as Hj by (apply nth_error_Some; congruence).
      rewrite app_length, map_length, repeat_length in Hj. rewrite nth_error_app2 in Hk by (rewrite map_length; lia).
      rewrite map_length, nth_trues in Hk by lia. congruence.
    - assert (length (dops st (peer_of p)) = length (dops st p) + j) by (rewrite E, app_length, map_length, repeat_length; reflexivity).
      assert (k < length (dops st p)) by (apply nth_error_Some; congruence). lia.
  Qed.

  Lemma peer_peer p : 1 <= p <= 2 -> peer_of (peer_of p) = p.
  Proof. unfold peer_of. lia. Qed.
  Lemma peer_in p : 1 <= p <= 2 -> 1 <= peer_of p <= 2.
  Proof. unfold peer_of. lia. Qed.
  Lemma peer_ne p : 1 <= p <= 2 -> peer_of p <> p.
  Proof. unfold peer_of. lia. Qed.
  Lemma two_roles p q : 1 <= p <= 2 -> 1 <= q <= 2 -> q = p \/ q = peer_of p.
  Proof. unfold peer_of. lia. Qed.

  Lemma nth_last {A} (l : list A) x k b : nth_error (l ++ [x]) k = Some b -> nth_error l k = Some b \/ k = length l /\ b = x.
  Proof.
    destruct (Nat.lt_ge_cases k (length l)) as [H|H]; [rewrite nth_error_app1 by exact H; auto|].
    rewrite nth_error_app2 by exact H. destruct (k - length l) eqn:E; cbn; [|destruct n; discriminate]. intros X. injection X as <-. right. split; [lia|reflexivity].
  Qed.

  Lemma set_same {A} (f : nat -> A) p x : set_at f p x p = x.
  Proof. unfold set_at. now rewrite Nat.eqb_refl. Qed.
  Lemma set_other {A} (f : nat -> A) p q x : q <> p -> set_at f p x q = f q.
  Proof. unfold set_at. intros H. destruct (Nat.eqb_spec q p); [contradiction|reflexivity]. Qed.

  (** When nobody is in the middle of a read, everything that both roles did has been read; the reading
      role is behind the other. *)
  Lemma reader_behind x ms p : good x ms -> 1 <= p <= 2 -> reading (x_io x p) = true ->
    length (dops (x_st x) p) <= length (dops (x_st x) (peer_of p)) /\ reading (x_io x (peer_of p)) = false.
  Proof.
    intros G Hp Hr. destruct (g_reach _ _ G) as [tr HR].
    destruct (x_io x p) as [| |g] eqn:Ei; try discriminate. destruct (ro_read _ _ _ (g_role _ _ G p Hp) g Ei) as (_ & k & E1 & E2 & _).
    assert (length (dops (x_st x) p) <= length (dops (x_st x) (peer_of p))) as L.
    { destruct (Nat.lt_ge_cases k (length (dops (x_st x) (peer_of p)))); [lia|]. pose proof (alone tr _ p k false HR Hp E2 ltac:(lia)). discriminate. }
    split; [exact L|]. destruct (x_io x (peer_of p)) as [| |g'] eqn:Ej; try reflexivity. exfalso.
    destruct (ro_read _ _ _ (g_role _ _ G (peer_of p) (peer_in p Hp)) g' Ej) as (_ & k' & E3 & E4 & _).
    assert (k' = k).
    { pose proof (Nat.lt_ge_cases k' (length (dops (x_st x) p))) as [X|X]; [lia|].
      assert (false = true); [|discriminate]. apply (alone tr _ (peer_of p) k' false HR (peer_in p Hp) E4). rewrite peer_peer by exact Hp. lia. }
    subst k'. pose proof (both tr _ p k false HR Hp E2 ltac:(lia)) as X. cbn [negb] in X. congruence.
  Qed.

  Lemma reach_step tr st p i st' : bexecutes labels true B tr st -> step2 branch labels p i st = Some st' ->
    bexecutes labels true B (tr ++ [(p, i)]) st'.
  Proof.
    unfold bexecutes, executes. intros H Hs.
    assert (forall a t1 b, steps heap_ops 2 branch labels true a t1 b -> exec heap_ops 2 branch labels true p i b = Some st' ->
              steps heap_ops 2 branch labels true a (t1 ++ [(p, i)]) st') as K.
    { intros a t1 b X. induction X; intros E; cbn; econstructor; eauto. constructor. }
    exact (K _ _ _ H Hs).
  Qed.

  (** A step of the channel that communicates nothing. *)
  Lemma good_quiet x ms p i st' shut : good x ms -> step2 branch labels p i (x_st x) = Some st' -> dops st' p = dops (x_st x) p ->
    (n_shut (x_net x) = true -> shut = true) ->
    good (XState st' (Net (n_up (x_net x)) (n_down (x_net x)) (n_pos (x_net x)) shut) (x_io x) (x_data x)) ms.
  Proof.
    intros G Hs Ed Hsh. destruct (step2_log _ _ _ _ _ _ Hs) as (Hp & Ho & _).
    assert (D : forall q, dops st' q = dops (x_st x) q).
    { intros q. destruct (Nat.eq_dec q p) as [->|N]; [exact Ed|]. unfold dops. now rewrite Ho. }
    destruct G as [[tr R] Sz Ro Ec Po Do]. constructor; cbn; auto.
    - exists (tr ++ [(p, i)]). eapply reach_step; eauto.
    - intros q Hq. destruct (Ro q Hq) as [A1 A2 A3 A4 A5 A6 A7 A8]. constructor; cbn; rewrite ?D; auto.
      + destruct A2 as [[O E]|A2]; [left; split; [eapply step2_over; eauto|exact E]|now right].
      + intros r Es. apply A6. destruct (n_shut (x_net x)); [|reflexivity]. rewrite Hsh in Es; auto.
      + intros Es. apply A8. destruct (n_shut (x_net x)); [|reflexivity]. rewrite Hsh in Es; auto.
    - intros Es. destruct Do as (c & g & Hr & E1 & E2); [destruct (n_shut (x_net x)); [rewrite Hsh in Es; auto|reflexivity]|].
      exists c, g. split; [|auto]. destruct Hr as (q & Hq & H1 & H2). exists q. cbn. rewrite !D. auto.
  Qed.

  Lemma sizes_at (ms : list bytes) k m : Forall (fun m => length m = size) ms -> nth_error ms k = Some m -> length m = size.
  Proof. intros H E. rewrite Forall_forall in H. apply H. eapply nth_error_In; eauto. Qed.

  Lemma up_le x ms p : good x ms -> 1 <= p <= 2 -> n_shut (x_net x) = false ->
    n_pos (x_net x) + length (wpart (x_io x p)) <= length (flagged fl 0 ms).
  Proof.
    intros G Hp Hs. rewrite <- (ro_up _ _ _ (g_role _ _ G p Hp) Hs). rewrite !app_length. destruct (g_echo _ _ G) as [r E].
    pose proof (g_pos _ _ G). rewrite E, app_length. lia.
  Qed.

  (** A role that has done everything the other did is not waited for by a writer. *)
  Lemma no_writer x ms p : good x ms -> 1 <= p <= 2 -> n_shut (x_net x) = false -> x_io x p = IoNone ->
    length (dops (x_st x) (peer_of p)) <= length (dops (x_st x) p) -> wpart (x_io x (peer_of p)) = [].
  Proof.
    intros G Hp Hs Ei Hl. destruct (x_io x (peer_of p)) as [|r|] eqn:Ej; try reflexivity. exfalso.
    pose proof (g_role _ _ G (peer_of p) (peer_in p Hp)) as RQ. destruct (ro_write _ _ _ RQ r Hs Ej) as (_ & Hr & k & m & pre & E1 & E2 & E3 & E4 & E5 & E6).
    pose proof (ro_max _ _ _ (g_role _ _ G p Hp)) as Mx.
    destruct (g_down _ _ G Hs) as (c & g & (q & Hq & H1 & H2) & E7 & _).
    assert (c = S k /\ g = []) as [-> ->].
    { destruct (two_roles p q Hp Hq) as [->| ->].
      - rewrite Ei in H2. destruct H2 as [[H2 _]|(_ & H2 & ->)]; [discriminate|]. split; [lia|reflexivity].
      - rewrite Ej in H2. destruct H2 as [[H2 _]|(_ & H2 & ->)]; [discriminate|]. rewrite peer_peer in H2 by exact Hp. split; [lia|reflexivity]. }
    pose proof (up_le x ms (peer_of p) G (peer_in p Hp) Hs) as U. rewrite Ej in U. cbn in U. rewrite E7 in U.
    rewrite <- E2, firstn_all in U. cbn in U. destruct r; [congruence|]. cbn in U. lia.
  Qed.

  Lemma good_send x ms p i st' d : good x ms -> step2 branch labels p i (x_st x) = Some st' -> dops st' p = dops (x_st x) p ++ [true] ->
    ~ over (x_st x) p -> x_io x p = IoNone -> length d = size ->
    good (XState st' (x_net x) (set_at (x_io x) p (if tcp p (length (dops (x_st x) p)) then IoWrite d else IoNone))
            (set_at (x_data x) p (x_data x p ++ [d]))) (ms ++ [d]).
  Proof.
    intros G Hs Ed No Ei Hd. destruct (step2_log _ _ _ _ _ _ Hs) as (Hp & Ho & _). destruct (g_reach _ _ G) as [tr R].
    pose proof (reach_step tr _ p i st' R Hs) as R'.
    assert (Dq : dops st' (peer_of p) = dops (x_st x) (peer_of p)) by (unfold dops; rewrite Ho; [reflexivity|now apply peer_ne]).
    set (k := length (dops (x_st x) p)) in *.
    assert (Hk : nth_error (dops st' p) k = Some true) by (rewrite Ed, nth_error_app2, Nat.sub_diag by (fold k; lia); reflexivity).
    assert (Hl : length (dops (x_st x) (peer_of p)) <= k).
    { destruct (Nat.le_gt_cases (length (dops (x_st x) (peer_of p))) k) as [X|X]; [exact X|]. exfalso.
      pose proof (both _ _ p k true R' Hp Hk ltac:(rewrite Dq; exact X)) as Y. rewrite Dq in Y. cbn in Y.
      pose proof (alone _ _ (peer_of p) k false R (peer_in p Hp) Y ltac:(rewrite peer_peer by exact Hp; fold k; lia)). discriminate. }
    assert (RP := g_role _ _ G p Hp). assert (Lm : length ms = k) by (rewrite (ro_max _ _ _ RP); fold k; lia).
    assert (Lx : length (x_data x p) = k).
    { destruct (ro_count _ _ _ RP) as [[O _]|E]; [contradiction|]. rewrite Ei in E. cbn in E. fold k in E. lia. }
    assert (Lp : length (dops st' p) = S k) by (rewrite Ed, app_length; cbn; fold k; lia).
    assert (NW : n_shut (x_net x) = false -> wpart (x_io x (peer_of p)) = []) by (intros Hsh; apply (no_writer x ms p G Hp Hsh Ei Hl)).
    constructor; cbn [x_st x_net x_io x_data].
    - eauto.
    - apply Forall_app. split; [apply (g_sizes _ _ G)|repeat constructor; exact Hd].
    - intros q Hq. destruct (two_roles p q Hp Hq) as [->| ->].
      + constructor; cbn [x_st x_net x_io x_data]; rewrite ?set_same, ?(set_other _ p (peer_of p)) by now apply peer_ne.
        * rewrite app_length, Lp, Dq. cbn [length]. lia.
        * right. rewrite app_length, Lp. cbn. destruct (tcp p k); cbn; lia.
        * rewrite app_length, Lp. cbn. lia.
        * intros j Hj. rewrite Ed in Hj. destruct (nth_last _ _ _ _ Hj) as [Hj'|[-> _]].
          -- assert (j < k) by (unfold k; apply nth_error_Some; congruence). rewrite !nth_error_app1 by lia. now apply (ro_sent _ _ _ RP).
          -- fold k. rewrite !nth_error_app2, Lx, Lm, !Nat.sub_diag by lia. reflexivity.
        * intros j d' Hj Hj2. rewrite Ed in Hj. destruct (nth_last _ _ _ _ Hj) as [Hj'|[_ X]]; [|discriminate].
          assert (j < k) by (unfold k; apply nth_error_Some; congruence). rewrite nth_error_app1 in Hj2 |- * by lia. now apply (ro_got _ _ _ RP).
        * intros r Hsh Er. split; [now apply NW|]. destruct (tcp p k) eqn:Et; [|discriminate]. injection Er as <-. split; [intros ->; discriminate|].
          exists k, d, []. rewrite app_length, Lp, Lm. cbn. repeat split; [lia|exact Hk|rewrite <- (fl_tcp p) by exact Hp; exact Et|].
          rewrite nth_error_app2, Lm, Nat.sub_diag by lia. reflexivity.
        * intros g Eg. destruct (tcp p k); discriminate.
        * intros Hsh. rewrite NW, app_nil_r by exact Hsh. pose proof (ro_up _ _ _ RP Hsh) as U. rewrite Ei, NW in U by exact Hsh. cbn in U. rewrite app_nil_r in U.
          rewrite flagged_app, U, Nat.add_0_l, Lm. f_equal. cbn. rewrite <- (fl_tcp p) by exact Hp. destruct (tcp p k); cbn; now rewrite ?app_nil_r.
      + assert (RQ := g_role _ _ G (peer_of p) (peer_in p Hp)).
        assert (NP : x_io x (peer_of p) <> IoNone -> n_shut (x_net x) = false -> reading (x_io x (peer_of p)) = true).
        { intros N Hsh. specialize (NW Hsh). destruct (x_io x (peer_of p)) as [|r|] eqn:Ej; try reflexivity; [congruence|]. cbn in NW. subst r.
          destruct (ro_write _ _ _ RQ [] Hsh Ej) as (_ & X & _). congruence. }
        constructor; cbn [x_st x_net x_io x_data]; rewrite ?(peer_peer p Hp), ?set_same, ?(set_other _ p (peer_of p)), ?Dq by now apply peer_ne.
        * rewrite app_length, Lp. cbn [length]. lia.
        * destruct (ro_count _ _ _ RQ) as [[O E]|E]; [left|right; exact E]. split; [|exact E]. eapply step2_over; eauto.
        * apply (ro_le _ _ _ RQ).
        * intros j Hj. assert (j < length (dops (x_st x) (peer_of p))) by (apply nth_error_Some; congruence).
          rewrite nth_error_app1 by lia. now apply (ro_sent _ _ _ RQ).
        * intros j d' Hj Hj2. assert (j < length (dops (x_st x) (peer_of p))) by (apply nth_error_Some; congruence).
          rewrite nth_error_app1 by lia. now apply (ro_got _ _ _ RQ).
        * intros r Hsh Er. exfalso. specialize (NP ltac:(congruence) Hsh). rewrite Er in NP. discriminate.
        * apply (ro_read _ _ _ RQ).
        * intros Hsh. rewrite NW by exact Hsh. pose proof (ro_up _ _ _ RP Hsh) as U. rewrite Ei, NW in U by exact Hsh. cbn in U. rewrite app_nil_r in U.
          cbn [app]. rewrite flagged_app, U, Nat.add_0_l, Lm. f_equal. cbn. rewrite <- (fl_tcp p) by exact Hp. destruct (tcp p k); cbn; now rewrite ?app_nil_r.
    - apply (g_echo _ _ G).
    - apply (g_pos _ _ G).
    - intros Hsh. destruct (g_down _ _ G Hsh) as (c & g & (q & Hq & H1 & H2) & E1 & E2).
      assert (c <= k) as Hc.
      { destruct (two_roles p q Hp Hq) as [->| ->].
        - destruct H2 as [[H2 _]|(_ & -> & _)]; [congruence|]. fold k. lia.
        - rewrite peer_peer in H2 by exact Hp. destruct H2 as [[_ H2]|(_ & -> & _)]; [lia|]. fold k. lia. }
      exists c, g. split; [|split].
      + exists (peer_of p). cbn [x_st x_io]. rewrite (peer_peer p Hp), set_same, set_other, Dq by now apply peer_ne. split; [now apply peer_in|]. split; [now destruct (tcp p k)|].
        rewrite Lp. destruct (two_roles p q Hp Hq) as [->| ->].
        * destruct H2 as [[H2 _]|(_ & -> & ->)]; [congruence|]. right. split; [exact H1|]. split; [fold k; lia|reflexivity].
        * rewrite peer_peer in H2 by exact Hp. destruct H2 as [H2|(H2 & -> & ->)]; [now left|]. right. split; [exact H2|]. split; [fold k; lia|reflexivity].
      + rewrite E1. do 2 f_equal. rewrite firstn_app, Lm. replace (c - k) with 0 by lia. cbn. now rewrite app_nil_r.
      + intros m Hm. destruct (nth_last _ _ _ _ Hm) as [Hm'|[-> ->]]; [now apply E2|].
        assert (g = []) as ->; [|reflexivity]. rewrite Lm in *.
        destruct (two_roles p q Hp Hq) as [->| ->].
        * destruct H2 as [[H2 _]|(_ & _ & ->)]; [congruence|reflexivity].
        * destruct H2 as [[_ H2]|(_ & _ & ->)]; [lia|reflexivity].
  Qed.

  Lemma good_recv x ms p i st' : good x ms -> step2 branch labels p i (x_st x) = Some st' -> dops st' p = dops (x_st x) p ++ [false] ->
    ~ over (x_st x) p -> x_io x p = IoNone ->
    good (if tcp p (length (dops (x_st x) p))
          then XState st' (x_net x) (set_at (x_io x) p (IoRead [])) (x_data x)
          else XState st' (x_net x) (x_io x) (set_at (x_data x) p (x_data x p ++ [zeros]))) ms.
  Proof.
    intros G Hs Ed No Ei. destruct (step2_log _ _ _ _ _ _ Hs) as (Hp & Ho & _). destruct (g_reach _ _ G) as [tr R].
    pose proof (reach_step tr _ p i st' R Hs) as R'.
    assert (Dq : dops st' (peer_of p) = dops (x_st x) (peer_of p)) by (unfold dops; rewrite Ho; [reflexivity|now apply peer_ne]).
    set (k := length (dops (x_st x) p)) in *.
    assert (Hk : nth_error (dops st' p) k = Some false) by (rewrite Ed, nth_error_app2, Nat.sub_diag by (fold k; lia); reflexivity).
    assert (Hl : k < length (dops (x_st x) (peer_of p))).
    { destruct (Nat.lt_ge_cases k (length (dops (x_st x) (peer_of p)))) as [X|X]; [exact X|].
      pose proof (alone _ _ p k false R' Hp Hk ltac:(rewrite Dq; exact X)). discriminate. }
    assert (RP := g_role _ _ G p Hp). assert (RQ := g_role _ _ G (peer_of p) (peer_in p Hp)).
    assert (Lx : length (x_data x p) = k).
    { destruct (ro_count _ _ _ RP) as [[O _]|E]; [contradiction|]. rewrite Ei in E. cbn in E. fold k in E. lia. }
    assert (Lp : length (dops st' p) = S k) by (rewrite Ed, app_length; cbn; fold k; lia).
    assert (Lm : length ms = length (dops (x_st x) (peer_of p))) by (rewrite (ro_max _ _ _ RP); fold k; lia).
    assert (NQ : reading (x_io x (peer_of p)) = false).
    { destruct (reading (x_io x (peer_of p))) eqn:Er; [|reflexivity]. destruct (reader_behind x ms (peer_of p) G (peer_in p Hp) Er) as [X _].
      rewrite peer_peer in X by exact Hp. fold k in X. lia. }
    assert (Hdown : n_shut (x_net x) = false -> n_pos (x_net x) = length (flagged fl 0 (firstn k ms))).
    { intros Hsh. destruct (g_down _ _ G Hsh) as (c & g & (q & Hq & H1 & H2) & E1 & _).
      assert (c = k /\ g = []) as [-> ->]; [|rewrite E1; cbn; lia]. destruct (two_roles p q Hp Hq) as [->| ->].
      - destruct H2 as [[H2 _]|(_ & -> & ->)]; [congruence|]. fold k. split; [lia|reflexivity].
      - rewrite peer_peer in H2 by exact Hp. destruct H2 as [[H2 _]|(_ & -> & ->)]; [rewrite H2 in NQ; discriminate|]. fold k. split; [lia|reflexivity]. }
    destruct (nth_error ms k) as [m|] eqn:Em; [|apply nth_error_None in Em; lia].
    pose proof (fl_tcp p k Hp) as Ft. destruct (tcp p k) eqn:Et.
    - constructor; cbn [x_st x_net x_io x_data]; [eauto|apply (g_sizes _ _ G)| |apply (g_echo _ _ G)|apply (g_pos _ _ G)|].
      + intros q Hq. destruct (two_roles p q Hp Hq) as [->| ->].
        * constructor; cbn [x_st x_net x_io x_data]; rewrite ?set_same, ?(set_other _ p (peer_of p)) by now apply peer_ne.
          -- rewrite Lp, Dq. lia.
          -- right. rewrite Lp. cbn. lia.
          -- rewrite Lp. lia.
          -- intros j Hj. rewrite Ed in Hj. destruct (nth_last _ _ _ _ Hj) as [Hj'|[_ X]]; [now apply (ro_sent _ _ _ RP)|discriminate].
          -- intros j d' Hj Hj2. apply (ro_got _ _ _ RP); [|exact Hj2]. rewrite Ed, nth_error_app1 in Hj; [exact Hj|].
             assert (j < length (x_data x p)) by (apply nth_error_Some; congruence). fold k. lia.
          -- intros r Hsh Er. discriminate.
          -- intros g Eg. injection Eg as <-. split; [unfold size; cbn; lia|]. exists k. auto.
          -- intros Hsh. pose proof (ro_up _ _ _ RP Hsh) as U. rewrite Ei in U. exact U.
        * constructor; cbn [x_st x_net x_io x_data]; rewrite ?(peer_peer p Hp), ?set_same, ?(set_other _ p (peer_of p)), ?Dq by now apply peer_ne.
          -- rewrite Lp. lia.
          -- destruct (ro_count _ _ _ RQ) as [[O E]|E]; [left|right; exact E]. split; [|exact E]. eapply step2_over; eauto.
          -- apply (ro_le _ _ _ RQ).
          -- apply (ro_sent _ _ _ RQ).
          -- apply (ro_got _ _ _ RQ).
          -- intros r Hsh Er. destruct (ro_write _ _ _ RQ r Hsh Er) as (_ & X). split; [reflexivity|exact X].
          -- apply (ro_read _ _ _ RQ).
          -- intros Hsh. pose proof (ro_up _ _ _ RQ Hsh) as U. rewrite (peer_peer p Hp), Ei in U. exact U.
      + intros Hsh. exists k, []. split; [|split].
        * exists p. cbn [x_st x_io]. rewrite set_same, set_other by now apply peer_ne. auto.
        * rewrite (Hdown Hsh). cbn. lia.
        * reflexivity.
    - constructor; cbn [x_st x_net x_io x_data]; [eauto|apply (g_sizes _ _ G)| |apply (g_echo _ _ G)|apply (g_pos _ _ G)|].
      + intros q Hq. destruct (two_roles p q Hp Hq) as [->| ->].
        * constructor; cbn [x_st x_net x_io x_data]; rewrite ?set_same, ?Ei.
          -- rewrite Lp, Dq. lia.
          -- right. rewrite Lp, app_length. cbn. lia.
          -- rewrite Lp, app_length. cbn. lia.
          -- intros j Hj. rewrite Ed in Hj. destruct (nth_last _ _ _ _ Hj) as [Hj'|[_ X]]; [|discriminate].
             assert (j < k) by (unfold k; apply nth_error_Some; congruence). rewrite nth_error_app1 by lia. now apply (ro_sent _ _ _ RP).
          -- intros j d' Hj Hj2. rewrite Ed in Hj. destruct (nth_last _ _ _ _ Hj) as [Hj'|[-> _]].
             ++ assert (j < k) by (unfold k; apply nth_error_Some; congruence). rewrite nth_error_app1 in Hj2 by lia. now apply (ro_got _ _ _ RP).
             ++ fold k in Hj2 |- *. rewrite nth_error_app2, Lx, Nat.sub_diag in Hj2 by lia. cbn in Hj2. injection Hj2 as <-. rewrite <- Ft. reflexivity.
          -- intros r Hsh Er. discriminate.
          -- intros g Eg. discriminate.
          -- intros Hsh. pose proof (ro_up _ _ _ RP Hsh) as U. rewrite Ei in U. exact U.
        * constructor; cbn [x_st x_net x_io x_data]; rewrite ?(peer_peer p Hp), ?(set_other _ p (peer_of p)), ?Dq by now apply peer_ne.
          -- rewrite Lp. lia.
          -- destruct (ro_count _ _ _ RQ) as [[O E]|E]; [left|right; exact E]. split; [|exact E]. eapply step2_over; eauto.
          -- apply (ro_le _ _ _ RQ).
          -- apply (ro_sent _ _ _ RQ).
          -- apply (ro_got _ _ _ RQ).
          -- intros r Hsh Er. destruct (ro_write _ _ _ RQ r Hsh Er) as (_ & X). rewrite Ei. split; [reflexivity|exact X].
          -- apply (ro_read _ _ _ RQ).
          -- intros Hsh. pose proof (ro_up _ _ _ RQ Hsh) as U. rewrite (peer_peer p Hp) in U. exact U.
      + intros Hsh. exists (S k), []. split; [|split].
        * exists p. cbn [x_st x_io]. split; [exact Hp|]. split; [exact NQ|]. right. rewrite Ei, Lp, Dq. split; [reflexivity|]. split; [lia|reflexivity].
        * rewrite (Hdown Hsh), (flagged_upto fl k ms m Em), <- Ft. rewrite app_nil_r. cbn. lia.
        * reflexivity.
  Qed.

  Lemma good_write x ms p rest m : good x ms -> 1 <= p <= 2 -> x_io x p = IoWrite rest -> n_shut (x_net x) = false ->
    good (XState (x_st x) (Net (n_up (x_net x) ++ firstn m rest) (n_down (x_net x)) (n_pos (x_net x)) false)
            (set_at (x_io x) p (match skipn m rest with [] => IoNone | _ => IoWrite (skipn m rest) end)) (x_data x)) ms.
  Proof.
    intros G Hp Ei Hsh. assert (RP := g_role _ _ G p Hp). assert (RQ := g_role _ _ G (peer_of p) (peer_in p Hp)).
    destruct (ro_write _ _ _ RP rest Hsh Ei) as (Wq & _ & k & dm & pre & E1 & E2 & E3 & E4 & E5 & E6).
    set (io' := match skipn m rest with [] => IoNone | _ => IoWrite (skipn m rest) end).
    assert (W : wpart io' = skipn m rest) by (unfold io'; destruct (skipn m rest); reflexivity).
    assert (Rd : reading io' = false) by (unfold io'; destruct (skipn m rest); reflexivity).
    assert (U := ro_up _ _ _ RP Hsh). rewrite Ei, Wq, app_nil_r in U. cbn in U.
    constructor; cbn [x_st x_net x_io x_data n_up n_down n_pos n_shut].
    - apply (g_reach _ _ G).
    - apply (g_sizes _ _ G).
    - intros q Hq. destruct (two_roles p q Hp Hq) as [->| ->].
      + constructor; cbn [x_st x_net x_io x_data n_up n_shut]; rewrite ?set_same, ?(set_other _ p (peer_of p)) by now apply peer_ne.
        * apply (ro_max _ _ _ RP).
        * rewrite Rd. right. destruct (ro_count _ _ _ RP) as [[_ X]|X]; [congruence|]. rewrite Ei in X. exact X.
        * apply (ro_le _ _ _ RP).
        * apply (ro_sent _ _ _ RP).
        * apply (ro_got _ _ _ RP).
        * intros r _ Er. split; [exact Wq|]. assert (r = skipn m rest) as -> by (rewrite <- W, Er; reflexivity).
          split; [intros X; unfold io' in Er; rewrite X in Er; discriminate|]. exists k, dm, (pre ++ firstn m rest). repeat split; auto.
          rewrite <- app_assoc, firstn_skipn. exact E6.
        * intros g Eg. rewrite Eg in Rd. discriminate.
        * intros _. rewrite Wq, app_nil_r, W, <- app_assoc, firstn_skipn. exact U.
      + constructor; cbn [x_st x_net x_io x_data n_up n_shut]; rewrite ?(peer_peer p Hp), ?set_same, ?(set_other _ p (peer_of p)) by now apply peer_ne.
        * pose proof (ro_max _ _ _ RQ) as X. rewrite (peer_peer p Hp) in X. exact X.
        * apply (ro_count _ _ _ RQ).
        * apply (ro_le _ _ _ RQ).
        * apply (ro_sent _ _ _ RQ).
        * apply (ro_got _ _ _ RQ).
        * intros r _ Er. exfalso. rewrite Er in Wq. cbn in Wq. subst r. destruct (ro_write _ _ _ RQ [] Hsh Er) as (_ & X & _). congruence.
        * apply (ro_read _ _ _ RQ).
        * intros _. rewrite Wq, W. cbn [app]. rewrite <- app_assoc, firstn_skipn. exact U.
    - destruct (g_echo _ _ G) as [r E]. exists (r ++ firstn m rest). cbn. rewrite E, app_assoc. reflexivity.
    - apply (g_pos _ _ G).
    - intros _. destruct (g_down _ _ G Hsh) as (c & g & (q & Hq & H1 & H2) & E7 & E8). exists c, g. split; [|auto].
      destruct (two_roles p q Hp Hq) as [->| ->].
      + exists p. cbn [x_st x_io]. rewrite set_same, set_other by now apply peer_ne. split; [exact Hp|]. split; [exact H1|]. right.
        rewrite Ei in H2. destruct H2 as [[H2 _]|(_ & H2)]; [discriminate|]. auto.
      + exists (peer_of p). cbn [x_st x_io]. rewrite (peer_peer p Hp), set_same, set_other by now apply peer_ne. split; [now apply peer_in|]. split; [exact Rd|].
        rewrite (peer_peer p Hp) in H2. exact H2.
  Qed.

  (** The bytes read are those of the message. *)
  Lemma next_bytes x ms p g m : good x ms -> 1 <= p <= 2 -> x_io x p = IoRead g -> n_shut (x_net x) = false ->
    1 <= m -> length g + m <= size -> n_pos (x_net x) + m <= length (n_down (x_net x)) ->
    exists k dm, length (dops (x_st x) p) = S k /\ nth_error (dops (x_st x) p) k = Some false /\ nth_error ms k = Some dm /\ fl k = true /\
      g ++ slice (n_pos (x_net x)) m (n_down (x_net x)) = firstn (length g + m) dm /\
      n_pos (x_net x) = length (flagged fl 0 (firstn k ms)) + length g.
  Proof.
    intros G Hp Ei Hsh H1 H2 H3. assert (RP := g_role _ _ G p Hp). destruct (ro_read _ _ _ RP g Ei) as (Lg & k & E1 & E2 & E3).
    destruct (reader_behind x ms p G Hp ltac:(rewrite Ei; reflexivity)) as [Hb Hn].
    destruct (nth_error ms k) as [dm|] eqn:Em.
    2: { apply nth_error_None in Em. rewrite (ro_max _ _ _ RP) in Em. lia. }
    exists k, dm. assert (n_pos (x_net x) = length (flagged fl 0 (firstn k ms)) + length g /\ g = firstn (length g) dm) as [P1 P2].
    { destruct (g_down _ _ G Hsh) as (c & g' & (q & Hq & H4 & H5) & E7 & E8). destruct (two_roles p q Hp Hq) as [->| ->].
      - rewrite Ei in H5. destruct H5 as [[H5 H6]|(H5 & _)]; [|discriminate]. injection H5 as <-. assert (c = k) as -> by lia. split; [exact E7|auto].
      - rewrite (peer_peer p Hp), Ei in H4. discriminate. }
    repeat split; auto. unfold slice.
    pose proof (ro_up _ _ _ RP Hsh) as U. destruct (g_echo _ _ G) as [r Er]. rewrite (flagged_split fl k ms dm Em), E3 in U.
    set (F := flagged fl 0 (firstn k ms)) in *. set (D := n_down (x_net x)) in *. set (W := wpart _ ++ _) in *. rewrite Er in U.
    assert (Ld : length dm = size) by (eapply sizes_at; [apply (g_sizes _ _ G)|exact Em]).
    (* the m bytes of D at position |F| + |g| *)
    assert (firstn m (skipn (n_pos (x_net x)) D) = firstn m (skipn (length g) dm)) as ->.
    { assert (firstn m (skipn (n_pos (x_net x)) D) = firstn m (skipn (n_pos (x_net x)) ((D ++ r) ++ W))) as ->.
      { rewrite <- app_assoc, skipn_app, firstn_app. rewrite skipn_length. replace (m - (length D - n_pos (x_net x))) with 0 by lia. cbn. now rewrite app_nil_r. }
      rewrite U, P1. rewrite skipn_app. rewrite (skipn_all2 F) by lia. cbn [app]. replace (length F + length g - length F) with (length g) by lia.
      rewrite skipn_app, firstn_app, skipn_length, Ld. replace (m - (size - length g)) with 0 by lia. cbn. now rewrite app_nil_r. }
    rewrite P2 at 1. assert (length g <= length dm) by lia. clear - H. revert dm H. generalize (length g) as a. induction a as [|a IH]; intros dm H; [reflexivity|].
    destruct dm as [|b dm]; [cbn in H; lia|]. cbn. f_equal. apply IH. cbn in H. lia.
  Qed.

  Lemma good_read x ms p g m x' : good x ms -> 1 <= p <= 2 -> x_io x p = IoRead g -> n_shut (x_net x) = false ->
    1 <= m -> length g + m <= size -> n_pos (x_net x) + m <= length (n_down (x_net x)) ->
    (let got' := g ++ slice (n_pos (x_net x)) m (n_down (x_net x)) in
     let n' := Net (n_up (x_net x)) (n_down (x_net x)) (n_pos (x_net x) + m) false in
     if length got' =? size
     then XState (x_st x) n' (set_at (x_io x) p IoNone) (set_at (x_data x) p (x_data x p ++ [got']))
     else XState (x_st x) n' (set_at (x_io x) p (IoRead got')) (x_data x)) = x' ->
    good x' ms.
  Proof.
    intros G Hp Ei Hsh H1 H2 H3 Ex. destruct (next_bytes x ms p g m G Hp Ei Hsh H1 H2 H3) as (k & dm & E1 & E2 & E3 & E4 & E5 & E6).
    cbv zeta in Ex. rewrite E5 in Ex. assert (Ld : length dm = size) by (eapply sizes_at; [apply (g_sizes _ _ G)|exact E3]).
    rewrite firstn_length_le in Ex by lia. set (g' := firstn (length g + m) dm) in *.
    assert (Lg : length g' = length g + m) by (apply firstn_length_le; lia).
    destruct (reader_behind x ms p G Hp ltac:(rewrite Ei; reflexivity)) as [Hb Hn].
    assert (RP := g_role _ _ G p Hp). assert (RQ := g_role _ _ G (peer_of p) (peer_in p Hp)).
    assert (Lx : length (x_data x p) = k).
    { destruct (ro_count _ _ _ RP) as [[_ X]|X]; [congruence|]. rewrite Ei in X. cbn in X. lia. }
    assert (Hecho : echo (Net (n_up (x_net x)) (n_down (x_net x)) (n_pos (x_net x) + m) false)) by exact (g_echo _ _ G).
    destruct (Nat.eqb_spec (length g + m) size) as [Ef|Ef]; subst x'.
    - assert (g' = dm) as Eg by (unfold g'; rewrite firstn_all2; [reflexivity|lia]).
      constructor; cbn [x_st x_net x_io x_data n_up n_down n_pos n_shut]; [apply (g_reach _ _ G)|apply (g_sizes _ _ G)| |exact Hecho|lia|].
      + intros q Hq. destruct (two_roles p q Hp Hq) as [->| ->].
        * constructor; cbn [x_st x_net x_io x_data n_up n_shut]; rewrite ?set_same, ?(set_other _ p (peer_of p)) by now apply peer_ne.
          -- apply (ro_max _ _ _ RP).
          -- right. rewrite app_length. cbn. lia.
          -- rewrite app_length. cbn. lia.
          -- intros j Hj. assert (j < S k) by (rewrite <- E1; apply nth_error_Some; congruence). assert (j <> k) by congruence.
             rewrite nth_error_app1 by lia. now apply (ro_sent _ _ _ RP).
          -- intros j d' Hj Hj2. destruct (nth_last _ _ _ _ Hj2) as [Hj'|[-> ->]]; [now apply (ro_got _ _ _ RP)|]. rewrite Lx, E4, E3, Eg. reflexivity.
          -- intros r _ Er. discriminate.
          -- intros g0 Eg0. discriminate.
          -- intros _. pose proof (ro_up _ _ _ RP Hsh) as U. rewrite Ei in U. exact U.
        * constructor; cbn [x_st x_net x_io x_data n_up n_shut]; rewrite ?(peer_peer p Hp), ?set_same, ?(set_other _ p (peer_of p)) by now apply peer_ne.
          -- pose proof (ro_max _ _ _ RQ) as X. rewrite (peer_peer p Hp) in X. exact X.
          -- apply (ro_count _ _ _ RQ).
          -- apply (ro_le _ _ _ RQ).
          -- apply (ro_sent _ _ _ RQ).
          -- apply (ro_got _ _ _ RQ).
          -- intros r _ Er. destruct (ro_write _ _ _ RQ r Hsh Er) as (_ & X). split; [reflexivity|exact X].
          -- apply (ro_read _ _ _ RQ).
          -- intros _. pose proof (ro_up _ _ _ RQ Hsh) as U. rewrite (peer_peer p Hp), Ei in U. exact U.
      + intros _. exists (S k), []. split; [|split].
        * exists p. cbn [x_st x_io]. rewrite set_same, set_other by now apply peer_ne. split; [exact Hp|]. split; [exact Hn|]. right. split; [reflexivity|]. split; [lia|reflexivity].
        * rewrite (flagged_upto fl k ms dm E3), E4, app_length, E6. cbn. lia.
        * reflexivity.
    - constructor; cbn [x_st x_net x_io x_data n_up n_down n_pos n_shut]; [apply (g_reach _ _ G)|apply (g_sizes _ _ G)| |exact Hecho|lia|].
      + intros q Hq. destruct (two_roles p q Hp Hq) as [->| ->].
        * constructor; cbn [x_st x_net x_io x_data n_up n_shut]; rewrite ?set_same, ?(set_other _ p (peer_of p)) by now apply peer_ne.
          -- apply (ro_max _ _ _ RP).
          -- right. cbn. lia.
          -- apply (ro_le _ _ _ RP).
          -- apply (ro_sent _ _ _ RP).
          -- apply (ro_got _ _ _ RP).
          -- intros r _ Er. discriminate.
          -- intros g0 Eg0. injection Eg0 as <-. split; [lia|]. eauto.
          -- intros _. pose proof (ro_up _ _ _ RP Hsh) as U. rewrite Ei in U. exact U.
        * constructor; cbn [x_st x_net x_io x_data n_up n_shut]; rewrite ?(peer_peer p Hp), ?set_same, ?(set_other _ p (peer_of p)) by now apply peer_ne.
          -- pose proof (ro_max _ _ _ RQ) as X. rewrite (peer_peer p Hp) in X. exact X.
          -- apply (ro_count _ _ _ RQ).
          -- apply (ro_le _ _ _ RQ).
          -- apply (ro_sent _ _ _ RQ).
          -- apply (ro_got _ _ _ RQ).
          -- intros r _ Er. destruct (ro_write _ _ _ RQ r Hsh Er) as (_ & X). split; [reflexivity|exact X].
          -- apply (ro_read _ _ _ RQ).
          -- intros _. pose proof (ro_up _ _ _ RQ Hsh) as U. rewrite (peer_peer p Hp), Ei in U. exact U.
      + intros _. exists k, g'. split; [|split].
        * exists p. cbn [x_st x_io]. rewrite set_same, set_other by now apply peer_ne. auto.
        * rewrite Lg, E6. lia.
        * intros m' Hm. rewrite E3 in Hm. injection Hm as <-. rewrite Lg. reflexivity.
  Qed.

  Lemma good_fail x ms p st' : good x ms -> n_shut (x_net x) = true -> step2 branch labels p ICrash (x_st x) = Some st' ->
    good (XState st' (x_net x) (set_at (x_io x) p IoNone) (x_data x)) ms.
  Proof.
    intros G Hsh Hs. destruct (step2_log _ _ _ _ _ _ Hs) as (Hp & Ho & Hd). destruct (g_reach _ _ G) as [tr R].
    assert (D : forall q, dops st' q = dops (x_st x) q).
    { intros q. unfold dops. destruct (Nat.eq_dec q p) as [->|N]; [|now rewrite Ho].
      unfold step2, exec in Hs. destruct ((1 <=? p) && (p <=? 2)); [|discriminate].
      destruct (tstep _ _ _ _ _ _ _ _ _) as [[th s1]|] eqn:Ex; [|discriminate]. injection Hs as <-. cbn. unfold set_thr. rewrite Nat.eqb_refl.
      unfold tstep in Ex. destruct (t_trash (st_thr (x_st x) p)); [|discriminate].
      destruct (t_prog (st_thr (x_st x) p)); try discriminate; injection Ex as <- _; reflexivity. }
    destruct G as [_ Sz Ro Ec Po Do]. constructor; cbn [x_st x_net x_io x_data]; auto.
    - exists (tr ++ [(p, ICrash)]). eapply reach_step; eauto.
    - intros q Hq. destruct (Ro q Hq) as [A1 A2 A3 A4 A5 A6 A7 A8]. constructor; cbn [x_st x_net x_io x_data]; rewrite ?D; auto; try congruence.
      + destruct (Nat.eq_dec q p) as [->|N].
        * rewrite set_same. left. split; [eapply step2_crash; eauto|reflexivity].
        * rewrite set_other by exact N. destruct A2 as [[O E]|A2]; [left; split; [eapply step2_over; eauto|exact E]|now right].
      + destruct (Nat.eq_dec q p) as [->|N]; [rewrite set_same; discriminate|]. rewrite set_other by exact N. exact A7.
    - congruence.
  Qed.

  Lemma good_net x ms n' : good x ms -> echo n' -> n_up n' = n_up (x_net x) -> n_pos n' = n_pos (x_net x) ->
    length (n_down (x_net x)) <= length (n_down n') -> (n_shut (x_net x) = true -> n_shut n' = true) ->
    good (XState (x_st x) n' (x_io x) (x_data x)) ms.
  Proof.
    intros [R Sz Ro Ec Po Do] He Eu Ep Ld Hsh. assert (n_shut n' = false -> n_shut (x_net x) = false) as Hs.
    { intros E. destruct (n_shut (x_net x)); [rewrite Hsh in E; auto|reflexivity]. }
    constructor; cbn [x_st x_net x_io x_data]; auto.
    - intros q Hq. destruct (Ro q Hq) as [A1 A2 A3 A4 A5 A6 A7 A8]. constructor; cbn [x_st x_net x_io x_data]; rewrite ?Eu; auto.
    - lia.
    - rewrite Ep. auto.
  Qed.

  Lemma step_data x p i st' ms : good x ms -> step2 branch labels p i (x_st x) = Some st' ->
    skipn (length (dops (x_st x) p)) (dops st' p) = [] /\ dops st' p = dops (x_st x) p \/
    exists b, skipn (length (dops (x_st x) p)) (dops st' p) = [b] /\ dops st' p = dops (x_st x) p ++ [b] /\ ~ over (x_st x) p.
  Proof.
    intros G Hs. destruct (step2_log _ _ _ _ _ _ Hs) as (_ & _ & [E|(b & E & N)]); rewrite E.
    - left. split; [apply skipn_all|reflexivity].
    - right. exists b. split; [|auto]. rewrite skipn_app, skipn_all, Nat.sub_diag. reflexivity.
  Qed.

  (** Only the two roles use the socket. *)
  Definition io_roles (x : xstate) : Prop := forall p, x_io x p <> IoNone -> 1 <= p <= 2.

  Lemma xexec_roles a x x' : io_roles x -> xexec branch labels tcp close_flag a x = Some x' -> io_roles x'.
  Proof.
    intros G E q. destruct a as [p i d|p m|p m|p|bs|]; cbn [xexec] in E.
    - destruct (x_io x p) eqn:Ei; try discriminate. destruct (step2 branch labels p i (x_st x)) as [st'|] eqn:Es; [|discriminate].
      destruct (step2_log _ _ _ _ _ _ Es) as (Hp & _ & _). destruct (Nat.eq_dec q p) as [->|N]; [intros _; exact Hp|].
      unfold begin_io in E. destruct (skipn _ _) as [|[|] r].
      + injection E as <-. apply G.
      + destruct (length d =? size); [|discriminate]. injection E as <-. cbn [x_io]. rewrite set_other by exact N. apply G.
      + destruct (tcp p _); injection E as <-; cbn [x_io]; rewrite ?set_other by exact N; apply G.
    - destruct (x_io x p) as [|rest|] eqn:Ei; try discriminate. destruct (negb _ && _ && _); [|discriminate]. injection E as <-. cbn [x_io].
      destruct (Nat.eq_dec q p) as [->|N]; [intros _; apply G; congruence|]. rewrite set_other by exact N. apply G.
    - destruct (x_io x p) as [| |got] eqn:Ei; try discriminate. destruct (negb _ && _ && _ && _); [|discriminate].
      destruct (Nat.eq_dec q p) as [->|N]; [intros _; apply G; congruence|]. destruct (length _ =? size); injection E as <-; cbn [x_io]; rewrite set_other by exact N; apply G.
    - destruct (Nat.eq_dec q p) as [->|N].
      + destruct (x_io x p) eqn:Ei; try discriminate; intros _; apply G; congruence.
      + destruct (x_io x p); try discriminate; (destruct (n_shut _); [|discriminate]); (destruct (step2 _ _ _ _ _); [|discriminate]); injection E as <-;
          cbn [x_io]; rewrite set_other by exact N; apply G.
    - destruct bs; [discriminate|]. injection E as <-. apply G.
    - injection E as <-. apply G.
  Qed.

  Lemma xexec_good a x ms x' : good x ms -> io_roles x -> xexec branch labels tcp close_flag a x = Some x' -> echo (x_net x') ->
    exists ms', good x' ms'.
  Proof.
    intros G Io E He. destruct a as [p i d|p m|p m|p|bs|]; cbn [xexec] in E.
    - destruct (x_io x p) eqn:Ei; try discriminate. destruct (step2 branch labels p i (x_st x)) as [st'|] eqn:Es; [|discriminate].
      unfold begin_io in E. fold (dops st' p) in E. fold (dops (x_st x) p) in E.
      destruct (step_data x p i st' ms G Es) as [[Z Ed]|(b & Z & Ed & No)]; rewrite Z in E.
      + injection E as <-. exists ms. destruct (finished_ok st' p && close_flag p).
        * apply (good_quiet x ms p i st' true G Es Ed). reflexivity.
        * pose proof (good_quiet x ms p i st' (n_shut (x_net x)) G Es Ed (fun h => h)) as X. destruct (x_net x). exact X.
      + destruct b.
        * destruct (Nat.eqb_spec (length d) size) as [Hd|]; [|discriminate]. injection E as <-. exists (ms ++ [d]).
          apply (good_send x ms p i st' d G Es Ed No Ei Hd).
        * exists ms. pose proof (good_recv x ms p i st' G Es Ed No Ei) as X.
          destruct (tcp p (length (dops (x_st x) p))); injection E as <-; exact X.
    - destruct (x_io x p) as [|rest|] eqn:Ei; try discriminate.
      assert (Hp : 1 <= p <= 2) by (apply Io; rewrite Ei; discriminate). destruct (n_shut (x_net x)) eqn:Hsh; [discriminate|].
      destruct (negb false && (1 <=? m) && (m <=? length rest)); [|discriminate]. injection E as <-.
      exists ms. apply good_write; auto.
    - destruct (x_io x p) as [| |got] eqn:Ei; try discriminate.
      assert (Hp : 1 <= p <= 2) by (apply Io; rewrite Ei; discriminate). destruct (n_shut (x_net x)) eqn:Hsh; [discriminate|].
      destruct (negb false && (1 <=? m) && (length got + m <=? size) && _) eqn:C; [|discriminate].
      repeat (apply Bool.andb_true_iff in C; destruct C as [C ?]). apply Nat.leb_le in H, H0, H1.
      exists ms. apply (good_read x ms p got m x' G Hp Ei Hsh H1 H0 H). cbv zeta.
      destruct (length _ =? size); injection E as <-; reflexivity.
    - exists ms. destruct (x_io x p) eqn:Ei; try discriminate; (destruct (n_shut (x_net x)) eqn:Hsh; [|discriminate]);
        (destruct (step2 branch labels p ICrash (x_st x)) as [st'|] eqn:Es; [|discriminate]); injection E as <-; apply good_fail; auto.
    - destruct bs as [|b bs]; [discriminate|]. injection E as <-. exists ms. apply good_net; auto. cbn [n_down]. rewrite app_length. lia.
    - injection E as <-. exists ms. apply good_net; auto.
  Qed.

  Lemma xstart_good : good (xstart T) [].
  Proof.
    assert (forall p, dops (x_st (xstart T)) p = []) as D by (intros p; unfold dops, xstart, init; destruct (alloc _ _ _) as [prs s1]; cbn [x_st st_thr]; destruct (fork_mesh 2 p) as [es|]; [destruct (pick_all prs es)|]; reflexivity).
    constructor.
    - exists []. apply steps_nil.
    - constructor.
    - intros p Hp. constructor; rewrite ?D; cbn; auto; try discriminate.
      all: intros k; destruct k; discriminate.
    - exists []. reflexivity.
    - cbn. lia.
    - intros _. exists 0, []. split; [|split; [reflexivity|reflexivity]]. exists 1. rewrite !D. cbn. auto 10.
  Qed.

  Lemma xruns_good x ms tr x' : xruns branch labels tcp close_flag echo x tr x' -> good x ms -> io_roles x -> exists ms', good x' ms' /\ io_roles x'.
  Proof.
    intros H. revert ms. induction H as [x|x a x1 tr x2 E Hs H IH]; intros ms G Io; [eauto|].
    destruct (xexec_good a x ms x1 G Io E Hs) as [ms1 G1]. apply (IH ms1 G1). eapply xexec_roles; eauto.
  Qed.

  Theorem stream_good tr x : xruns branch labels tcp close_flag echo (xstart T) tr x -> exists ms, good x ms.
  Proof.
    intros H. destruct (xruns_good _ [] _ _ H xstart_good) as (ms & G & _); [|eauto]. intros p N. cbn in N. congruence.
  Qed.
End Stream.
