(** Proofs about several sessions at once: each session by itself, and who can go on. *)
From Coq Require Import List Arith Bool Lia.
From Verif Require Import Types Diag Wiring WiringProofs Session Mesh Interleave.
Import ListNotations.

Lemma place_eqb_eq : forall a b, place_eqb a b = true <-> a = b.
Proof.
  intros [a1 a2] [b1 b2]. unfold place_eqb. cbn. rewrite andb_true_iff, !Nat.eqb_eq. split.
  - intros [-> ->]. reflexivity.
  - intros H. injection H. auto.
Qed.

(** The steps of session s in a trace. *)
Definition steps_in (s : nat) (tr : list (nat * (nat * inp) * (nat * nat))) : list (nat * inp) :=
  flat_map (fun e => if fst (fst e) =? s then [snd (fst e)] else []) tr.

Lemma steps_in_app : forall s a b, steps_in s (a ++ b) = steps_in s a ++ steps_in s b.
Proof. intros. unfold steps_in. apply flat_map_app. Qed.

Section Interleaved.
  Variable k : nat.
  Variable D : nat -> session.
  Variable owner : nat -> nat -> nat.
  Variable unwind : bool.

  Notation yexec := (yexec k D owner unwind).
  Notation yruns := (yruns k D owner unwind).
  Notation open_roles := (open_roles k D owner).
  Notation failed := (failed k D owner).
  Notation may_be_at := (may_be_at k D owner).
  Notation sexec s := (exec heap_ops (s_roles (D s)) (s_branch (D s)) (s_labels (D s)) (s_strict (D s))).
  Notation ssteps s := (steps heap_ops (s_roles (D s)) (s_branch (D s)) (s_labels (D s)) (s_strict (D s))).

  Lemma in_all : forall s p, In (s, p) (all_roles k D) <-> s < k /\ 1 <= p <= s_roles (D s).
  Proof.
    intros s p. unfold all_roles. rewrite in_flat_map. split.
    - intros (x & Hx & Hin). apply in_seq in Hx. apply in_map_iff in Hin as (q & E & Hq). injection E as -> ->.
      apply in_seq in Hq. lia.
    - intros [Hs Hp]. exists s. split; [apply in_seq; lia|]. apply in_map. apply in_seq. lia.
  Qed.
  Lemma in_roles : forall t s p, In (s, p) (roles_of k D owner t) <-> s < k /\ 1 <= p <= s_roles (D s) /\ owner s p = t.
  Proof.
    intros t s p. unfold roles_of. rewrite filter_In, in_all. cbn. rewrite Nat.eqb_eq. tauto.
  Qed.
  Lemma in_open : forall st t s p, In (s, p) (open_roles st t) <->
    s < k /\ 1 <= p <= s_roles (D s) /\ owner s p = t /\ returned (thr_of st (s, p)) = false.
  Proof.
    intros st t s p. unfold Interleave.open_roles. rewrite filter_In, in_roles. rewrite negb_true_iff. tauto.
  Qed.
  Lemma may_be_iff : forall st t w, may_be_at st t w = true <-> (open_roles st t = [] \/ In w (open_roles st t)).
  Proof.
    intros st t w. unfold Interleave.may_be_at. rewrite orb_true_iff. split.
    - intros [H|H].
      + left. destruct (open_roles st t); [reflexivity|discriminate].
      + right. apply existsb_exists in H as (x & Hx & E). apply place_eqb_eq in E. subst. exact Hx.
    - intros [H|H].
      + left. rewrite H. reflexivity.
      + right. apply existsb_exists. exists w. split; [exact H|]. apply place_eqb_eq. reflexivity.
  Qed.

  (** Every thread with something left works on something open. *)
  Definition placed (st : sys) : Prop := forall t, may_be_at st t (y_at st t) = true.

  Lemma yexec_inv : forall s p i w st st', yexec s p i w st = Some st' ->
    s < k /\ 1 <= p <= s_roles (D s) /\ y_at st (owner s p) = (s, p) /\
    (unwind = true -> failed st (owner s p) = true -> i = ICrash \/ t_trash (thr_of st (s, p)) <> []) /\
    sexec s p i (y_sess st s) = Some (y_sess st' s) /\
    (forall s', s' <> s -> y_sess st' s' = y_sess st s') /\
    y_at st' (owner s p) = w /\ (forall t, t <> owner s p -> y_at st' t = y_at st t) /\
    may_be_at st' (owner s p) w = true.
  Proof.
    intros s p i w st st' H. unfold Interleave.yexec in H.
    destruct ((s <? k) && place_eqb (y_at st (owner s p)) (s, p)) eqn:E1; [|discriminate]. cbn [andb] in H.
    apply andb_prop in E1 as [E1 E2]. apply Nat.ltb_lt in E1. apply place_eqb_eq in E2.
    destruct (negb (unwind && failed st (owner s p)) || is_crash i || negb (is_nil (t_trash (thr_of st (s, p))))) eqn:E3;
      [|discriminate].
    destruct (sexec s p i (y_sess st s)) as [m|] eqn:E4; [|discriminate].
    match type of H with (if ?c then _ else _) = _ => destruct c eqn:E5; [|discriminate] end.
    injection H as <-. cbn [y_sess y_at]. rewrite !Nat.eqb_refl.
    assert (Hp : 1 <= p <= s_roles (D s)).
    { unfold exec in E4. destruct ((1 <=? p) && (p <=? s_roles (D s))) eqn:E; [|discriminate].
      apply andb_prop in E as [Ea Eb]. apply Nat.leb_le in Ea, Eb. lia. }
    split; [exact E1|]. split; [exact Hp|]. split; [exact E2|]. split; [|split; [reflexivity|split; [|split; [reflexivity|split; [|exact E5]]]]].
    - intros -> Hf. rewrite Hf in E3. cbn in E3. apply orb_prop in E3 as [E3|E3].
      + left. destruct i; try discriminate. reflexivity.
      + right. destruct (t_trash (thr_of st (s, p))); [discriminate|discriminate].
    - intros s' Hs'. destruct (Nat.eqb_spec s' s); [contradiction|reflexivity].
    - intros t Ht. destruct (Nat.eqb_spec t (owner s p)); [contradiction|reflexivity].
  Qed.

  (** What a step of p leaves alone. *)
  Lemma sexec_frame : forall s p i m m' q, sexec s p i m = Some m' -> q <> p -> st_thr m' q = st_thr m q.
  Proof.
    intros s p i m m' q H Hq. unfold exec in H. destruct ((1 <=? p) && (p <=? s_roles (D s))); [|discriminate].
    destruct (tstep _ _ _ _ _ p i (st_thr m p) (st_store m)) as [[th s1]|]; [|discriminate].
    injection H as <-. cbn. unfold set_thr. destruct (Nat.eqb_spec q p); [contradiction|reflexivity].
  Qed.
  Lemma yexec_frame : forall s p i w st st' s' p', yexec s p i w st = Some st' -> (s', p') <> (s, p) ->
    thr_of st' (s', p') = thr_of st (s', p').
  Proof.
    intros s p i w st st' s' p' H Hne. destruct (yexec_inv _ _ _ _ _ _ H) as (_ & _ & _ & _ & E & F & _).
    unfold thr_of. cbn. destruct (Nat.eq_dec s' s) as [->|Hs]; [|rewrite F by exact Hs; reflexivity].
    apply (sexec_frame _ _ _ _ _ _ E). congruence.
  Qed.

  Lemma placed_step : forall s p i w st st', yexec s p i w st = Some st' -> placed st -> placed st'.
  Proof.
    intros s p i w st st' H HP t.
    destruct (yexec_inv _ _ _ _ _ _ H) as (Hs & Hp & Ha & _ & _ & _ & Hw & Hk & HL).
    destruct (Nat.eq_dec t (owner s p)) as [->|Ht]; [rewrite Hw; exact HL|].
    rewrite Hk by exact Ht. specialize (HP t).
    assert (E : open_roles st' t = open_roles st t).
    { unfold Interleave.open_roles. apply filter_ext_in. intros [s' p'] Hin. apply in_roles in Hin as (_ & _ & Ho).
      rewrite (yexec_frame _ _ _ _ _ _ s' p' H); [reflexivity|]. intros E. injection E as -> ->. congruence. }
    unfold Interleave.may_be_at in *. rewrite E. exact HP.
  Qed.
  Lemma placed_runs : forall st tr st', yruns st tr st' -> placed st -> placed st'.
  Proof. intros st tr st' H. induction H; intros HP; [exact HP|]. apply IHyruns. eapply placed_step; eauto. Qed.

  (** Each session by itself. *)
  Lemma runs_each : forall st tr st', yruns st tr st' -> forall s, ssteps s (y_sess st s) (steps_in s tr) (y_sess st' s).
  Proof.
    intros st tr st' H s. induction H as [st|st s0 p i w st1 tr st2 Hx Hr IH]; [constructor|].
    destruct (yexec_inv _ _ _ _ _ _ Hx) as (_ & _ & _ & _ & E & F & _). cbn [steps_in flat_map fst snd].
    destruct (Nat.eqb_spec s0 s) as [->|Hne]; cbn [app].
    - econstructor; [exact E|exact IH].
    - rewrite F in IH by congruence. exact IH.
  Qed.
  Lemma runs_sessions : forall st tr st' , yruns st tr st' -> forall s, k <= s -> steps_in s tr = [].
  Proof.
    intros st tr st' H s Hs. induction H as [st|st s0 p i w st1 tr st2 Hx Hr IH]; [reflexivity|].
    destruct (yexec_inv _ _ _ _ _ _ Hx) as (Hlt & _). cbn [steps_in flat_map fst snd].
    destruct (Nat.eqb_spec s0 s); [lia|]. exact IH.
  Qed.
  Lemma yruns_app : forall st tr st1, yruns st tr st1 -> forall tr' st2, yruns st1 tr' st2 -> yruns st (tr ++ tr') st2.
  Proof. intros st tr st1 H. induction H; intros; [assumption|]. cbn. econstructor; eauto. Qed.

  (** Length of a trace, by session. *)
  Fixpoint sum (f : nat -> nat) (j : nat) : nat := match j with 0 => 0 | S j' => sum f j' + f j' end.
  Lemma sum_le : forall f g j, (forall s, s < j -> f s <= g s) -> sum f j <= sum g j.
  Proof.
    induction j as [|j IH]; intros H; cbn; [lia|]. pose proof (H j ltac:(lia)).
    assert (sum f j <= sum g j) by (apply IH; intros; apply H; lia). lia.
  Qed.
  Lemma sum_add : forall f g j, sum (fun s => f s + g s) j = sum f j + sum g j.
  Proof. induction j as [|j IH]; cbn; lia. Qed.
  Lemma sum_ext : forall f g j, (forall s, s < j -> f s = g s) -> sum f j = sum g j.
  Proof. induction j as [|j IH]; intros H; cbn; [reflexivity|]. rewrite IH, H by (auto with arith). reflexivity. Qed.
  Lemma sum_one : forall s j, s < j -> sum (fun x => if s =? x then 1 else 0) j = 1.
  Proof.
    induction j as [|j IH]; intros H; [lia|]. cbn. destruct (Nat.eqb_spec s j) as [->|Hne].
    - rewrite (sum_ext _ (fun _ => 0)).
      + clear. induction j as [|j IHj]; [reflexivity|]. cbn. lia.
      + intros x Hx. destruct (Nat.eqb_spec j x); [lia|reflexivity].
    - rewrite IH by lia. reflexivity.
  Qed.
  Lemma runs_length : forall st tr st', yruns st tr st' -> length tr = sum (fun s => length (steps_in s tr)) k.
  Proof.
    intros st tr st' H. induction H as [st|st s0 p i w st1 tr st2 Hx Hr IH].
    - cbn. induction k as [|j IHj]; [reflexivity|]. cbn. lia.
    - destruct (yexec_inv _ _ _ _ _ _ Hx) as (Hlt & _).
      rewrite (sum_ext _ (fun s => (if s0 =? s then 1 else 0) + length (steps_in s tr))).
      + rewrite sum_add, sum_one by exact Hlt. cbn. lia.
      + intros s _. cbn [steps_in flat_map fst snd]. fold (steps_in s tr). rewrite app_length.
        destruct (s0 =? s); reflexivity.
  Qed.

  (** ** Progress *)

  Definition role_over (st : sys) (s p : nat) : Prop := returned (thr_of st (s, p)) = true.
  Definition sess_over (st : sys) (s : nat) : Prop := forall p, 1 <= p <= s_roles (D s) -> role_over st s p.

  (** A role that moves has not returned. *)
  Lemma moves_open : forall st s p i m, sexec s p i (y_sess st s) = Some m -> returned (thr_of st (s, p)) = false.
  Proof.
    intros st s p i m H. unfold thr_of. cbn. unfold exec in H. destruct ((1 <=? p) && (p <=? s_roles (D s))); [|discriminate].
    destruct (tstep _ _ _ _ _ p i (st_thr (y_sess st s) p) (st_store (y_sess st s))) as [[th s1]|] eqn:E; [|discriminate].
    unfold tstep in E. unfold returned. destruct (t_trash (st_thr (y_sess st s) p)); [|destruct (t_prog _); reflexivity].
    destruct (t_prog (st_thr (y_sess st s) p)); try reflexivity. discriminate.
  Qed.
  Lemma can_crash : forall s p i m m', sexec s p i m = Some m' -> t_trash (st_thr m p) = [] -> exists m2, sexec s p ICrash m = Some m2.
  Proof.
    intros s p i m m' H Ht. unfold exec in *. destruct ((1 <=? p) && (p <=? s_roles (D s))); [|discriminate].
    destruct (tstep _ _ _ _ _ p i (st_thr m p) (st_store m)) as [[th s1]|] eqn:E; [|discriminate].
    unfold tstep in *. rewrite Ht in *. destruct (t_prog (st_thr m p)); try discriminate; eauto.
  Qed.

  (** If its thread works on it, a role that can move in its session moves. *)
  Lemma placed_moves : forall st s p i m, s < k -> y_at st (owner s p) = (s, p) -> sexec s p i (y_sess st s) = Some m ->
    exists i' w st', yexec s p i' w st = Some st' /\
      (i' = i \/ i' = ICrash /\ unwind = true /\ failed st (owner s p) = true).
  Proof.
    intros st s p i m Hs Ha E.
    assert (Hgo : forall i' m', sexec s p i' (y_sess st s) = Some m' ->
      negb (unwind && failed st (owner s p)) || is_crash i' || negb (is_nil (t_trash (thr_of st (s, p)))) = true ->
      exists w st', yexec s p i' w st = Some st').
    { intros i' m' E' Hok.
      set (st1 := fun w => Sys (fun s' => if s' =? s then m' else y_sess st s') (fun t' => if t' =? owner s p then w else y_at st t')).
      assert (Ho : forall w, open_roles (st1 w) (owner s p) = open_roles (st1 (0, 0)) (owner s p)) by reflexivity.
      exists (hd (0, 0) (open_roles (st1 (0, 0)) (owner s p))). eexists. unfold Interleave.yexec.
      rewrite (proj2 (Nat.ltb_lt s k) Hs), Ha, (proj2 (place_eqb_eq (s, p) (s, p)) eq_refl), Hok. cbn [andb]. rewrite E'.
      fold (st1 (hd (0, 0) (open_roles (st1 (0, 0)) (owner s p)))).
      match goal with |- (if ?c then _ else _) = _ => assert (Hc : c = true) end; [|rewrite Hc; reflexivity].
      apply may_be_iff. rewrite Ho. destruct (open_roles (st1 (0, 0)) (owner s p)) as [|a l]; [left; reflexivity|].
      right. left. reflexivity. }
    destruct (unwind && failed st (owner s p)) eqn:Eu.
    - destruct (t_trash (thr_of st (s, p))) as [|x l] eqn:Et.
      + destruct (can_crash _ _ _ _ _ E Et) as [m2 E2]. destruct (Hgo ICrash m2 E2) as (w & st' & Hx); [reflexivity|].
        exists ICrash, w, st'. split; [exact Hx|]. right. apply andb_prop in Eu as [Eu1 Eu2]. auto.
      + destruct (Hgo i m E) as (w & st' & Hx); [apply orb_true_r|]. exists i, w, st'. auto.
    - destruct (Hgo i m E) as (w & st' & Hx); [reflexivity|]. exists i, w, st'. auto.
  Qed.

  (** No thread has two roles of a session, and every session has at most one thread in common with the sessions
      before it. *)
  Definition one_link (j : nat) : Prop :=
    exists t0, forall s p q, s < j -> 1 <= p <= s_roles (D s) -> 1 <= q <= s_roles (D j) -> owner s p = owner j q -> owner j q = t0.
  Hypothesis inj : forall s p q, s < k -> 1 <= p <= s_roles (D s) -> 1 <= q <= s_roles (D s) -> owner s p = owner s q -> p = q.
  Hypothesis links : forall j, j < k -> one_link j.

  Lemma at_open : forall st t s p, placed st -> In (s, p) (open_roles st t) ->
    exists s1 p1, y_at st t = (s1, p1) /\ In (s1, p1) (open_roles st t).
  Proof.
    intros st t s p HP Hin. pose proof (HP t) as H. apply may_be_iff in H as [H|H]; [rewrite H in Hin; contradiction|].
    destruct (y_at st t) as [s1 p1]. eauto.
  Qed.

  Lemma forest_moves : forall st, placed st ->
    (forall s, s < k -> sess_over st s \/ exists p i m, 1 <= p <= s_roles (D s) /\ i <> ICrash /\ sexec s p i (y_sess st s) = Some m) ->
    forall j, j <= k ->
    (exists s, s < j /\ ~ sess_over st s) ->
    (forall t s p, In (s, p) (open_roles st t) -> s < j -> fst (y_at st t) < j) ->
    exists s p i m, s < k /\ 1 <= p <= s_roles (D s) /\ i <> ICrash /\ y_at st (owner s p) = (s, p) /\ sexec s p i (y_sess st s) = Some m.
  Proof.
    intros st HP HS. induction j as [|j IH]; intros Hj (s & Hs & Hno) Hat; [lia|].
    destruct (HS j ltac:(lia)) as [Hover|(p & i & m & Hp & Hi & E)].
    - apply IH; [lia| |].
      + exists s. split; [|exact Hno]. assert (s <> j) by (intros ->; contradiction). lia.
      + intros t s1 p1 Hin Hlt. pose proof (Hat t s1 p1 Hin ltac:(lia)) as Hf.
        destruct (at_open st t s1 p1 HP Hin) as (s2 & p2 & Ea & Hin2). rewrite Ea in *. cbn in *.
        apply in_open in Hin2 as (_ & Hp2 & _ & Hr2). assert (s2 <> j).
        { intros ->. pose proof (Hover p2 Hp2) as X. unfold role_over in X. rewrite X in Hr2. discriminate. }
        lia.
    - pose proof (moves_open st j p i m E) as Hopen.
      assert (Hin : In (j, p) (open_roles st (owner j p))) by (apply in_open; repeat split; auto; lia).
      destruct (at_open st _ _ _ HP Hin) as (s2 & p2 & Ea & Hin2).
      pose proof (Hat _ _ _ Hin ltac:(lia)) as Hf. rewrite Ea in Hf. cbn in Hf.
      apply in_open in Hin2 as (Hs2 & Hp2 & Ho2 & Hr2).
      destruct (Nat.eq_dec s2 j) as [->|Hne].
      + assert (p2 = p) by (apply (inj j); auto; lia). subst p2. exists j, p, i, m. repeat split; auto; lia.
      + destruct (links j ltac:(lia)) as [t0 HL].
        assert (Et : owner j p = t0) by (apply (HL s2 p2 p); auto; lia).
        apply IH; [lia| |].
        * exists s2. split; [lia|]. intros X. pose proof (X p2 Hp2) as Y. unfold role_over in Y. rewrite Y in Hr2. discriminate.
        * intros t s1 p1 Hin1 Hlt. pose proof (Hat t s1 p1 Hin1 ltac:(lia)) as Hf1.
          destruct (at_open st t s1 p1 HP Hin1) as (s3 & p3 & Ea3 & Hin3). rewrite Ea3 in *. cbn in *.
          destruct (Nat.eq_dec s3 j) as [->|]; [|lia]. exfalso.
          apply in_open in Hin3 as (_ & Hp3 & Ho3 & _). apply in_open in Hin1 as (_ & Hp1 & Ho1 & _).
          assert (E3 : owner j p3 = t0) by (apply (HL s1 p1 p3); auto; congruence).
          assert (Etp : t = owner j p) by congruence. rewrite Etp, Ea in Ea3. injection Ea3 as E4 _. lia.
  Qed.

  Theorem forest_goes_on : forall st, placed st ->
    (forall s, s < k -> sess_over st s \/ exists p i m, 1 <= p <= s_roles (D s) /\ i <> ICrash /\ sexec s p i (y_sess st s) = Some m) ->
    (forall s, s < k -> sess_over st s) \/
    exists s p i w st', yexec s p i w st = Some st' /\ (i = ICrash -> unwind = true /\ failed st (owner s p) = true).
  Proof.
    intros st HP HS.
    assert (Hdec : (forall s, s < k -> sess_over st s) \/ exists s, s < k /\ ~ sess_over st s).
    { clear - HS. assert (H : forall j, j <= k -> (forall s, s < j -> sess_over st s) \/ exists s, s < j /\ ~ sess_over st s).
      { induction j as [|j IH]; intros Hj; [left; lia|].
        destruct (IH ltac:(lia)) as [IH'|(s & Hs & X)]; [|right; exists s; split; [lia|exact X]].
        destruct (HS j ltac:(lia)) as [Ho|(p & i & m & Hp & _ & E)].
        - left. intros s Hs. destruct (Nat.eq_dec s j) as [->|]; [exact Ho|apply IH'; lia].
        - right. exists j. split; [lia|]. intros X. pose proof (X p Hp) as Y. unfold role_over in Y.
          rewrite (moves_open _ _ _ _ _ E) in Y. discriminate. }
      apply (H k). lia. }
    destruct Hdec as [Hd|Hex]; [left; exact Hd|right].
    destruct (forest_moves st HP HS k (le_n k) Hex) as (s & p & i & m & Hs & Hp & Hi & Ha & E).
    - intros t s p Hin _. destruct (at_open st t s p HP Hin) as (s1 & p1 & Ea & Hin1). rewrite Ea. cbn.
      apply in_open in Hin1. lia.
    - destruct (placed_moves st s p i m Hs Ha E) as (i' & w & st' & Hx & Hor). exists s, p, i', w, st'. split; [exact Hx|].
      intros ->. destruct Hor as [Hor|(_ & Hu & Hf)]; [congruence|auto].
  Qed.
End Interleaved.
