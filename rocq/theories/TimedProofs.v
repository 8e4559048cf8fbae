(** Proofs about Timed.v. *)
From Coq Require Import List ZArith Bool Lia.
From Verif Require Import Types Timed.
Import ListNotations.
Open Scope Z_scope.

(** ** Specification *)

(** The window as written in the type, compared exactly (nanoseconds): a negative bound is absent. *)
Definition in_window (w : window) (e : Z) : Prop :=
  (0 <= w_start w -> if w_incl_start w then w_start w * second <= e else w_start w * second < e) /\
  (0 <= w_end w -> if w_incl_end w then e <= w_end w * second else e < w_end w * second).

(** Readings of the system clock never go back. *)
Definition monotone (now : nat -> Z) : Prop := forall i j, (i <= j)%nat -> now i <= now j.

(** A successful call with timeout d returns at most d later. *)
Definition timely (ch : Z -> Z -> bool * Z) : Prop :=
  forall d t t', ch d t = (true, t') -> t' <= t + d.

(** The three operations. *)
Inductive op := OSend | OSendNoReset | ORecv.
Definition run (o : op) now ct cb w m k : result :=
  match o with
  | OSend => tsend now ct cb w m k
  | OSendNoReset => tsend_without_reset now ct cb w m k
  | ORecv => trecv now ct cb w m k
  end.

Lemma elapsed_mono : forall t t' c, t <= t' -> elapsed t c <= elapsed t' c.
Proof. intros. unfold elapsed. lia. Qed.

Lemma elapsed_nonneg : forall t c, 0 <= elapsed t c.
Proof. intros. unfold elapsed. lia. Qed.

Lemma secs_le : forall e n, n <= as_secs e <-> n * second <= e.
Proof.
  intros e n. unfold as_secs, second. split; intros H.
  - pose proof (Z.mul_div_le e 1000000000 ltac:(lia)). lia.
  - apply Z.div_le_lower_bound; lia.
Qed.

Lemma secs_lt : forall e n, as_secs e < n <-> e < n * second.
Proof. intros e n. pose proof (secs_le e n). lia. Qed.

(** ** What each outcome says *)

Section Outcomes.
  Variable now : nat -> Z.
  Variable ct : Z -> Z -> bool * Z.
  Variable cb : Z -> option (bool * Z).

  Lemma u64_of_some : forall z a, u64_of z = Some a -> a = z /\ 0 <= z <= u64_max.
  Proof.
    intros z a. unfold u64_of. destruct ((0 <=? z) && (z <=? u64_max)) eqn:E; [|discriminate].
    apply andb_prop in E. destruct E as [E1 E2]. apply Z.leb_le in E1, E2.
    intros H. inversion H. lia.
  Qed.

  Lemma u64_of_ok : forall z, 0 <= z <= u64_max -> u64_of z = Some z.
  Proof.
    intros z H. unfold u64_of.
    destruct (Z.leb_spec 0 z); [|lia]. destruct (Z.leb_spec z u64_max); [reflexivity|lia].
  Qed.

  Lemma test_lo_yes : forall w c k k', test_lo now w c k = (Yes, k') ->
    k' = S k /\
    (if w_incl_start w then w_start w * second <= elapsed (now k) c
     else (w_start w + 1) * second <= elapsed (now k) c).
  Proof.
    intros w c k k'. unfold test_lo. destruct (u64_of (w_start w)) as [a|] eqn:Ea; [|discriminate].
    apply u64_of_some in Ea. destruct Ea as [-> Ha].
    destruct (w_incl_start w).
    - destruct (Z.leb_spec (w_start w) (as_secs (elapsed (now k) c))) as [H|H]; [|discriminate].
      intros E. inversion E. split; [reflexivity|]. apply secs_le, H.
    - destruct (Z.ltb_spec (w_start w) (as_secs (elapsed (now k) c))) as [H|H]; [|discriminate].
      intros E. inversion E. split; [reflexivity|]. apply secs_le. lia.
  Qed.

  Lemma test_hi_yes : forall w c k k', test_hi now w c k = (Yes, k') ->
    k' = S k /\
    (if w_incl_end w then elapsed (now k) c < (w_end w + 1) * second
     else elapsed (now k) c < w_end w * second).
  Proof.
    intros w c k k'. unfold test_hi. destruct (u64_of (w_end w)) as [a|] eqn:Ea; [|discriminate].
    apply u64_of_some in Ea. destruct Ea as [-> Ha].
    destruct (w_incl_end w).
    - destruct (Z.leb_spec (as_secs (elapsed (now k) c)) (w_end w)) as [H|H]; [|discriminate].
      intros E. inversion E. split; [reflexivity|]. apply secs_lt. lia.
    - destruct (Z.ltb_spec (as_secs (elapsed (now k) c)) (w_end w)) as [H|H]; [|discriminate].
      intros E. inversion E. split; [reflexivity|]. apply secs_lt. lia.
  Qed.

  Lemma test_both_yes : forall w c k k', test_both now w c k = (Yes, k') ->
    k' = S (S k) /\
    (if w_incl_start w then w_start w * second <= elapsed (now k) c
     else (w_start w + 1) * second <= elapsed (now k) c) /\
    (if w_incl_end w then elapsed (now (S k)) c < (w_end w + 1) * second
     else elapsed (now (S k)) c < w_end w * second).
  Proof.
    intros w c k k'. unfold test_both. destruct (test_lo now w c k) as [[| |] k1] eqn:E; try discriminate.
    intros H. apply test_lo_yes in E. destruct E as [-> E]. apply test_hi_yes in H.
    destruct H as [-> H]. auto.
  Qed.

  (** A result that leaves the clocks alone and hands nothing over. *)
  Definition refused (m : clocks) (r : result) : Prop :=
    r_out r <> Ok /\ r_handed r = false /\ r_clocks r = m.

  (** A result of a successful transfer that started at reading k. *)
  Definition done (rst : bool) (w : window) (m : clocks) (k : nat) (r : result) : Prop :=
    r_handed r = true /\
    (if rst then
       (r_out r = Panic NoResetClock /\ m (w_reset w) = None /\ r_clocks r = m /\ r_next r = k) \/
       (r_out r = Ok /\ m (w_reset w) <> None /\
        r_clocks r = set_clock m (w_reset w) (now k) /\ r_next r = S k)
     else r_out r = Ok /\ r_clocks r = m /\ r_next r = k).

  Lemma finish_done : forall rst w m t k,
    done rst w m k (finish now rst w m t k) /\ r_at (finish now rst w m t k) = t.
  Proof.
    intros rst w m t k. unfold finish, done. destruct rst; cbn; [|auto].
    destruct (m (w_reset w)) eqn:E; cbn; (split; [split; [reflexivity|]|reflexivity]).
    - right. repeat split; try reflexivity. congruence.
    - left. auto.
  Qed.

  Lemma transfer_timeout_cases : forall snd rst w m c k,
    refused m (transfer_timeout now ct snd rst w m c k) \/
    (elapsed (now k) c <= w_end w * second /\ 0 <= w_end w /\
     exists t, ct (w_end w * second - elapsed (now k) c) (now (S k)) = (true, t) /\
       r_at (transfer_timeout now ct snd rst w m c k) = t /\
       done rst w m (S (S k)) (transfer_timeout now ct snd rst w m c k)).
  Proof.
    intros snd rst w m c k. unfold transfer_timeout.
    destruct (u64_of (w_end w)) as [b|] eqn:Eb.
    2: { left. split; [discriminate|]. split; reflexivity. }
    apply u64_of_some in Eb. destruct Eb as [-> Hb]. cbn zeta.
    destruct (Z.ltb_spec (w_end w * second - elapsed (now k) c) 0) as [H|H].
    { left. split; [discriminate|]. split; reflexivity. }
    destruct (ct (w_end w * second - elapsed (now k) c) (now (S k))) as [[|] t] eqn:Ec.
    - right. split; [lia|]. split; [lia|]. exists t. split; [reflexivity|].
      split; apply finish_done.
    - left. unfold failed, stop, refused. cbn. destruct snd; (split; [discriminate|auto]).
  Qed.

  Lemma transfer_block_cases : forall snd rst w m k,
    refused m (transfer_block now cb snd rst w m k) \/
    done rst w m (S k) (transfer_block now cb snd rst w m k).
  Proof.
    intros snd rst w m k. unfold transfer_block.
    destruct (cb (now k)) as [[[|] t]|] eqn:Ec.
    - right. apply finish_done.
    - left. unfold failed, stop, refused. cbn. destruct snd; (split; [discriminate|auto]).
    - left. split; [discriminate|]. split; reflexivity.
  Qed.

  Lemma stop_refused : forall o m k, o <> Ok -> refused m (stop o m k).
  Proof. intros o m k H. split; [exact H|]. split; reflexivity. Qed.

  Lemma guarded_cases : forall w m k test transfer,
    refused m (guarded w m k test transfer) \/
    exists c k1 k2 rst, m (w_clock w) = Some c /\ test c k1 = (Yes, k2) /\
      (k1 = k \/ exists v, test c k = (v, k1)) /\
      (rst = true -> w_reset w <> no_reset /\ k1 = k) /\
      (rst = false -> w_reset w = no_reset \/ exists k', test c k = (No, k')) /\
      guarded w m k test transfer = transfer rst c k2.
  Proof.
    intros w m k test transfer. unfold guarded.
    destruct (m (w_clock w)) as [c|] eqn:Em; [|left; apply stop_refused; discriminate].
    destruct (test c k) as [[| |] k1] eqn:E1.
    - cbn [andb]. destruct (Nat.eqb_spec (w_reset w) no_reset) as [Hr|Hr]; cbn [negb].
      + destruct (test c k1) as [[| |] k2] eqn:E2;
          try (left; apply stop_refused; discriminate).
        right. exists c, k1, k2, false. repeat split; try assumption; try discriminate; eauto.
      + right. exists c, k, k1, true. repeat split; try assumption; try discriminate; eauto.
    - cbn [andb].
      destruct (test c k1) as [[| |] k2] eqn:E2; try (left; apply stop_refused; discriminate).
      right. exists c, k1, k2, false. repeat split; try assumption; try discriminate; eauto.
    - left. apply stop_refused. discriminate.
  Qed.

  Lemma guarded_nr_cases : forall w m k test transfer,
    refused m (guarded_nr w m k test transfer) \/
    exists c k1, m (w_clock w) = Some c /\ test c k = (Yes, k1) /\
      guarded_nr w m k test transfer = transfer false c k1.
  Proof.
    intros w m k test transfer. unfold guarded_nr.
    destruct (m (w_clock w)) as [c|] eqn:Em; [|left; apply stop_refused; discriminate].
    destruct (test c k) as [[| |] k1] eqn:E1; try (left; apply stop_refused; discriminate).
    right. exists c, k1. auto.
  Qed.

  Lemma test_next : forall w c k v k',
    test_lo now w c k = (v, k') \/ test_hi now w c k = (v, k') \/ test_both now w c k = (v, k') ->
    (k <= k')%nat.
  Proof.
    intros w c k v k'. unfold test_both, test_lo, test_hi.
    destruct (u64_of (w_start w)); destruct (u64_of (w_end w));
      repeat match goal with |- context [if ?b then _ else _] => destruct b end;
      intros [H|[H|H]]; inversion H; lia.
  Qed.

  (** Summary of a run: refused, or blocking without any clock, or passed the window tests. *)
  Inductive passed (o : op) (w : window) (m : clocks) (k : nat) (r : result) : Prop :=
  | p_free :
      w_start w < 0 -> w_end w < 0 -> done false w m (S k) r -> passed o w m k r
  | p_lower : forall c k1 rst,
      0 <= w_start w -> w_end w < 0 -> o = OSendNoReset ->
      m (w_clock w) = Some c -> (k <= k1)%nat ->
      (if w_incl_start w then w_start w * second <= elapsed (now k1) c
       else (w_start w + 1) * second <= elapsed (now k1) c) ->
      rst = false -> done rst w m (S (S k1)) r -> passed o w m k r
  | p_upper : forall c k1 rst t,
      w_start w < 0 -> 0 <= w_end w ->
      m (w_clock w) = Some c -> (k <= k1)%nat ->
      (if w_incl_end w then True else elapsed (now k1) c < w_end w * second) ->
      elapsed (now (S k1)) c <= w_end w * second ->
      ct (w_end w * second - elapsed (now (S k1)) c) (now (S (S k1))) = (true, t) -> r_at r = t ->
      (rst = true -> w_reset w <> no_reset) ->
      (rst = false -> o = OSendNoReset \/ w_reset w = no_reset \/
                      exists k', test_hi now w c k = (No, k')) ->
      done rst w m (S (S (S k1))) r -> passed o w m k r
  | p_both : forall c k1 rst t,
      0 <= w_start w -> 0 <= w_end w ->
      m (w_clock w) = Some c -> (k <= k1)%nat ->
      (if w_incl_start w then w_start w * second <= elapsed (now k1) c
       else (w_start w + 1) * second <= elapsed (now k1) c) ->
      (if w_incl_end w then True else elapsed (now (S k1)) c < w_end w * second) ->
      elapsed (now (S (S k1))) c <= w_end w * second ->
      ct (w_end w * second - elapsed (now (S (S k1))) c) (now (S (S (S k1)))) = (true, t) ->
      r_at r = t ->
      (rst = true -> w_reset w <> no_reset /\ k1 = k) ->
      (rst = false -> o = OSendNoReset \/ w_reset w = no_reset \/
                      exists k', test_both now w c k = (No, k')) ->
      done rst w m (S (S (S (S k1)))) r -> passed o w m k r.

  Lemma run_cases : forall o w m k,
    refused m (run o now ct cb w m k) \/ passed o w m k (run o now ct cb w m k).
  Proof.
    assert (Hg : forall o snd w m k,
      (o = OSendNoReset \/ w_start w <= w_end w) ->
      let g := match o with OSendNoReset => guarded_nr w m k | _ => guarded w m k end in
      refused m (body now ct cb snd g w m k) \/ passed o w m k (body now ct cb snd g w m k)).
    { intros o snd w m k Ho g. unfold body.
      assert (Hcases : forall test transfer,
        (forall c k0 v k', test c k0 = (v, k') -> (k0 <= k')%nat) ->
        refused m (g test transfer) \/
        exists c k1 k2 rst, m (w_clock w) = Some c /\ test c k1 = (Yes, k2) /\ (k <= k1)%nat /\
          (rst = true -> w_reset w <> no_reset /\ k1 = k) /\
          (rst = false -> o = OSendNoReset \/ w_reset w = no_reset \/ exists k', test c k = (No, k')) /\
          (o = OSendNoReset -> rst = false) /\
          g test transfer = transfer rst c k2).
      { intros test transfer Hmono. subst g. destruct o.
        - destruct (guarded_cases w m k test transfer) as [H|(c & k1 & k2 & rst & H1 & H2 & H3 & H4 & H5 & H6)];
            [left; exact H|right].
          exists c, k1, k2, rst. repeat split; try assumption.
          + destruct H3 as [->|[v H3]]; [lia|]. eapply Hmono; eauto.
          + apply H4. assumption.
          + apply H4. assumption.
          + intros Hr. right. apply H5, Hr.
          + discriminate.
        - destruct (guarded_nr_cases w m k test transfer) as [H|(c & k1 & H1 & H2 & H3)];
            [left; exact H|right].
          exists c, k, k1, false. repeat split; try assumption; try lia; try discriminate; auto.
        - destruct (guarded_cases w m k test transfer) as [H|(c & k1 & k2 & rst & H1 & H2 & H3 & H4 & H5 & H6)];
            [left; exact H|right].
          exists c, k1, k2, rst. repeat split; try assumption.
          + destruct H3 as [->|[v H3]]; [lia|]. eapply Hmono; eauto.
          + apply H4. assumption.
          + apply H4. assumption.
          + intros Hr. right. apply H5, Hr.
          + discriminate. }
      destruct (Z.ltb_spec (w_start w) 0) as [Hs|Hs].
      - destruct (Z.leb_spec 0 (w_end w)) as [He|He].
        + destruct (Hcases (test_hi now w) (fun rst c k' => transfer_timeout now ct snd rst w m c k'))
            as [H|(c & k1 & k2 & rst & H1 & H2 & H3 & H4 & H5 & H6 & H7)].
          { intros c k0 v k' E. eapply test_next. right. left. exact E. }
          { left. exact H. }
          rewrite H7. apply test_hi_yes in H2. destruct H2 as [-> H2].
          destruct (transfer_timeout_cases snd rst w m c (S k1)) as [H|(Ha & Hb & t & Hc & Hd & Hf)];
            [left; exact H|right].
          eapply (p_upper o w m k _ c k1 rst t); try eassumption;
            [|intros Hr; apply H4, Hr].
          destruct (w_incl_end w); [exact I|exact H2].
        + destruct (negb (w_incl_start w) && negb (w_incl_end w)).
          * destruct (transfer_block_cases true false w m k) as [H|H]; [left; exact H|right].
            apply p_free; assumption.
          * left. apply stop_refused. discriminate.
      - destruct (Z.ltb_spec (w_end w) 0) as [He|He].
        + destruct (Hcases (test_lo now w) (fun rst c k' => transfer_block now cb snd rst w m k'))
            as [H|(c & k1 & k2 & rst & H1 & H2 & H3 & H4 & H5 & H6 & H7)].
          { intros c k0 v k' E. eapply test_next. left. exact E. }
          { left. exact H. }
          destruct Ho as [->|Ho]; [|lia].
          rewrite H7. apply test_lo_yes in H2. destruct H2 as [-> H2].
          destruct (transfer_block_cases snd rst w m (S k1)) as [H|H]; [left; exact H|right].
          eapply (p_lower _ w m k _ c k1 rst); try eassumption; auto.
        + destruct (Z.ltb_spec (w_end w) (w_start w)) as [Hse|Hse];
            [left; apply stop_refused; discriminate|].
          destruct (Hcases (test_both now w) (fun rst c k' => transfer_timeout now ct snd rst w m c k'))
            as [H|(c & k1 & k2 & rst & H1 & H2 & H3 & H4 & H5 & H6 & H7)].
          { intros c k0 v k' E. eapply test_next. right. right. exact E. }
          { left. exact H. }
          rewrite H7. apply test_both_yes in H2. destruct H2 as (-> & H2 & H2').
          destruct (transfer_timeout_cases snd rst w m c (S (S k1))) as [H|(Ha & Hb & t & Hc & Hd & Hf)];
            [left; exact H|right].
          eapply (p_both o w m k _ c k1 rst t); try eassumption.
          destruct (w_incl_end w); [exact I|exact H2']. }
    intros o w m k. destruct o; cbn [run].
    - unfold tsend. destruct (Z.ltb_spec (w_end w) (w_start w));
        [left; apply stop_refused; discriminate|].
      apply (Hg OSend true). right. lia.
    - apply (Hg OSendNoReset true). left. reflexivity.
    - unfold trecv. destruct (Z.ltb_spec (w_end w) (w_start w));
        [left; apply stop_refused; discriminate|].
      apply (Hg ORecv false). right. lia.
  Qed.
End Outcomes.

(** ** Consequences *)

Lemma run_ok_handed : forall o now ct cb w m k,
  r_out (run o now ct cb w m k) = Ok -> r_handed (run o now ct cb w m k) = true.
Proof.
  intros o now ct cb w m k H. destruct (run_cases now ct cb o w m k) as [[Hr _]|Hp]; [contradiction|].
  destruct Hp; match goal with H : done _ _ _ _ _ _ |- _ => apply H end.
Qed.

Lemma done_next : forall now rst w m k r, done now rst w m k r -> (k <= r_next r)%nat.
Proof. intros now rst w m k r [_ H]. destruct rst; [|lia]. destruct H as [H|H]; lia. Qed.

Lemma run_handed_in_window : forall o now ct cb w m k, monotone now ->
  r_handed (run o now ct cb w m k) = true ->
  (w_start w < 0 /\ w_end w < 0) \/
  exists c j, m (w_clock w) = Some c /\ (k <= j < r_next (run o now ct cb w m k))%nat /\
    in_window w (elapsed (now j) c).
Proof.
  intros o now ct cb w m k Hm H.
  destruct (run_cases now ct cb o w m k) as [(_ & Hr & _)|Hp]; [congruence|].
  assert (Hmono : forall c i j, (i <= j)%nat -> elapsed (now i) c <= elapsed (now j) c).
  { intros. apply elapsed_mono, Hm. assumption. }
  destruct Hp; match goal with H : done _ _ _ _ _ _ |- _ => apply done_next in H end.
  - left. auto.
  - right. exists c, k1. split; [assumption|]. split; [lia|]. split; [|lia].
    intros _. destruct (w_incl_start w); unfold second in *; lia.
  - right. destruct (w_incl_end w) eqn:Ei.
    + exists c, (S k1). split; [assumption|]. split; [lia|]. split; [lia|]. rewrite Ei. auto.
    + exists c, k1. split; [assumption|]. split; [lia|]. split; [lia|]. rewrite Ei. auto.
  - right. pose proof (Hmono c k1 (S k1) ltac:(lia)). pose proof (Hmono c (S k1) (S (S k1)) ltac:(lia)).
    destruct (w_incl_end w) eqn:Ei.
    + exists c, (S (S k1)). split; [assumption|]. split; [lia|]. split; [|rewrite Ei; auto].
      intros _. destruct (w_incl_start w); unfold second in *; lia.
    + exists c, (S k1). split; [assumption|]. split; [lia|]. split; [|rewrite Ei; auto].
      intros _. destruct (w_incl_start w); unfold second in *; lia.
Qed.

Lemma run_handed_deadline : forall o now ct cb w m k, timely ct ->
  r_handed (run o now ct cb w m k) = true -> 0 <= w_end w ->
  exists c j, m (w_clock w) = Some c /\ (k <= j)%nat /\ (S j < r_next (run o now ct cb w m k))%nat /\
    r_at (run o now ct cb w m k) <= c + w_end w * second + (now (S j) - now j).
Proof.
  intros o now ct cb w m k Ht H Hend.
  destruct (run_cases now ct cb o w m k) as [(_ & Hr & _)|Hp]; [congruence|].
  destruct Hp as [H1 H2|? ? ? H1 H2|c k1 rst t ? ? Hc Hk Hi He Hct Hat ? ? Hd|c k1 rst t ? ? Hc Hk Hl Hi He Hct Hat ? ? Hd];
    try lia; apply done_next in Hd; apply Ht in Hct.
  - exists c, (S k1). split; [assumption|]. split; [lia|]. split; [lia|].
    rewrite Hat. unfold elapsed in *. lia.
  - exists c, (S (S k1)). split; [assumption|]. split; [lia|]. split; [lia|].
    rewrite Hat. unfold elapsed in *. lia.
Qed.

(** *** Acceptance *)

(** The value of the clock is inside the window and, if the lower bound is exclusive, a whole second
    past it. *)
Definition well_inside (w : window) (e : Z) : Prop :=
  in_window w e /\
  (0 <= w_start w -> w_incl_start w = false -> (w_start w + 1) * second <= e).

Lemma test_lo_inside : forall now w c k, 0 <= w_start w <= u64_max ->
  well_inside w (elapsed (now k) c) -> test_lo now w c k = (Yes, S k).
Proof.
  intros now w c k Hu [[Hlo _] Hex]. unfold test_lo. rewrite u64_of_ok by lia.
  destruct (w_incl_start w).
  - destruct (Z.leb_spec (w_start w) (as_secs (elapsed (now k) c))) as [H|H]; [reflexivity|].
    apply secs_lt in H. specialize (Hlo ltac:(lia)). lia.
  - destruct (Z.ltb_spec (w_start w) (as_secs (elapsed (now k) c))) as [H|H]; [reflexivity|].
    specialize (Hex ltac:(lia) eq_refl). apply secs_le in Hex. lia.
Qed.

Lemma test_hi_inside : forall now w c k, 0 <= w_end w <= u64_max ->
  in_window w (elapsed (now k) c) -> test_hi now w c k = (Yes, S k).
Proof.
  intros now w c k Hu [_ Hhi]. unfold test_hi. rewrite u64_of_ok by lia. specialize (Hhi ltac:(lia)).
  destruct (w_incl_end w).
  - destruct (Z.leb_spec (as_secs (elapsed (now k) c)) (w_end w)) as [H|H]; [reflexivity|].
    assert (H' : w_end w + 1 <= as_secs (elapsed (now k) c)) by lia. apply secs_le in H'.
    unfold second in *. lia.
  - destruct (Z.ltb_spec (as_secs (elapsed (now k) c)) (w_end w)) as [H|H]; [reflexivity|].
    apply secs_le in H. lia.
Qed.

Lemma in_window_upper : forall w e, 0 <= w_end w -> in_window w e -> e <= w_end w * second.
Proof. intros w e H [_ Hh]. specialize (Hh H). destruct (w_incl_end w); lia. Qed.

Lemma transfer_timeout_ok : forall now ct snd rst w m c k,
  (forall d t, fst (ct d t) = true) -> 0 <= w_end w <= u64_max ->
  in_window w (elapsed (now k) c) -> (rst = true -> m (w_reset w) <> None) ->
  r_out (transfer_timeout now ct snd rst w m c k) = Ok.
Proof.
  intros now ct snd rst w m c k Hct Hu Hin Hr. unfold transfer_timeout.
  rewrite u64_of_ok by lia. cbn zeta. apply in_window_upper in Hin; [|lia].
  destruct (Z.ltb_spec (w_end w * second - elapsed (now k) c) 0) as [H|H]; [lia|].
  specialize (Hct (w_end w * second - elapsed (now k) c) (now (S k))).
  destruct (ct (w_end w * second - elapsed (now k) c) (now (S k))) as [b t]. cbn in Hct. subst b.
  unfold finish. destruct rst; [|reflexivity].
  destruct (m (w_reset w)); [reflexivity|]. exfalso. apply Hr; reflexivity.
Qed.

Lemma transfer_block_ok : forall now cb snd rst w m k,
  (forall t, exists t', cb t = Some (true, t')) -> (rst = true -> m (w_reset w) <> None) ->
  r_out (transfer_block now cb snd rst w m k) = Ok.
Proof.
  intros now cb snd rst w m k Hcb Hr. unfold transfer_block.
  destruct (Hcb (now k)) as [t' ->]. unfold finish. destruct rst; [|reflexivity].
  destruct (m (w_reset w)); [reflexivity|]. exfalso. apply Hr; reflexivity.
Qed.

Lemma run_accepts : forall o now ct cb w m k c,
  (forall d t, fst (ct d t) = true) -> (forall t, exists t', cb t = Some (true, t')) ->
  m (w_clock w) = Some c ->
  (w_reset w = no_reset \/ m (w_reset w) <> None) ->
  w_start w <= u64_max -> w_end w <= u64_max ->
  (o = OSendNoReset \/ w_start w <= w_end w) ->
  (0 <= w_start w -> 0 <= w_end w -> w_start w <= w_end w) ->
  (w_start w < 0 -> w_end w < 0 -> w_incl_start w = false /\ w_incl_end w = false) ->
  (forall j, (k <= j <= k + 4)%nat -> well_inside w (elapsed (now j) c)) ->
  r_out (run o now ct cb w m k) = Ok.
Proof.
  intros o now ct cb w m k c Hct Hcb Hc Hr Hus Hue Ho Hse Hneg Hin.
  assert (Hg : forall snd test transfer n, (n <= 2)%nat ->
    (forall k0, (k <= k0 <= k + n)%nat -> test c k0 = (Yes, (k0 + n)%nat)) ->
    (forall rst k0, (k <= k0 <= k + n + n)%nat -> (rst = true -> w_reset w <> no_reset) ->
        r_out (transfer rst c k0) = Ok) ->
    let g := match o with OSendNoReset => guarded_nr w m k | _ => guarded w m k end in
    snd = snd :> bool -> r_out (g test transfer) = Ok).
  { intros snd test transfer n _ Ht Htr g _. subst g.
    destruct o; cbn beta iota; unfold guarded, guarded_nr; rewrite Hc, (Ht k ltac:(lia)); cbn [andb].
    - destruct (Nat.eqb_spec (w_reset w) no_reset); cbn [negb].
      + rewrite (Ht (k + n)%nat ltac:(lia)). apply Htr; [lia|discriminate].
      + apply Htr; [lia|auto].
    - apply Htr; [lia|discriminate].
    - destruct (Nat.eqb_spec (w_reset w) no_reset); cbn [negb].
      + rewrite (Ht (k + n)%nat ltac:(lia)). apply Htr; [lia|discriminate].
      + apply Htr; [lia|auto]. }
  assert (Hreset : forall rst : bool, (rst = true -> w_reset w <> no_reset) -> rst = true -> m (w_reset w) <> None).
  { intros rst H1 H2. specialize (H1 H2). destruct Hr; [contradiction|assumption]. }
  assert (Hb : forall snd,
    let g := match o with OSendNoReset => guarded_nr w m k | _ => guarded w m k end in
    r_out (body now ct cb snd g w m k) = Ok).
  { intros snd g. unfold body.
    destruct (Z.ltb_spec (w_start w) 0) as [Hs|Hs].
    - destruct (Z.leb_spec 0 (w_end w)) as [He|He].
      + apply (Hg snd (test_hi now w) _ 1%nat); [lia| | |reflexivity].
        * intros k0 Hk. rewrite test_hi_inside; [f_equal; lia|lia|apply Hin; lia].
        * intros rst k0 Hk Hrst. apply transfer_timeout_ok; [exact Hct|lia|apply Hin; lia|apply Hreset, Hrst].
      + destruct (Hneg Hs He) as [-> ->]. cbn [negb andb].
        apply transfer_block_ok; [exact Hcb|discriminate].
    - destruct (Z.ltb_spec (w_end w) 0) as [He|He].
      + apply (Hg snd (test_lo now w) _ 1%nat); [lia| | |reflexivity].
        * intros k0 Hk. rewrite test_lo_inside; [f_equal; lia|lia|apply Hin; lia].
        * intros rst k0 Hk Hrst. apply transfer_block_ok; [exact Hcb|apply Hreset, Hrst].
      + destruct (Z.ltb_spec (w_end w) (w_start w)) as [H|H]; [specialize (Hse Hs He); lia|].
        apply (Hg snd (test_both now w) _ 2%nat); [lia| | |reflexivity].
        * intros k0 Hk. unfold test_both.
          rewrite test_lo_inside; [|lia|apply Hin; lia].
          rewrite test_hi_inside; [f_equal; lia|lia|apply Hin; lia].
        * intros rst k0 Hk Hrst. apply transfer_timeout_ok; [exact Hct|lia|apply Hin; lia|apply Hreset, Hrst]. }
  destruct o; cbn [run].
  - unfold tsend. destruct (Z.ltb_spec (w_end w) (w_start w)); [destruct Ho; [discriminate|lia]|].
    apply (Hb true).
  - apply (Hb true).
  - unfold trecv. destruct (Z.ltb_spec (w_end w) (w_start w)); [destruct Ho; [discriminate|lia]|].
    apply (Hb false).
Qed.

(** *** Resets *)

Lemma run_clocks : forall o now ct cb w m k,
  (r_clocks (run o now ct cb w m k) = m) \/
  (exists j, (k <= j)%nat /\ r_next (run o now ct cb w m k) = S j /\
    r_clocks (run o now ct cb w m k) = set_clock m (w_reset w) (now j) /\
    m (w_reset w) <> None /\ w_reset w <> no_reset /\
    r_out (run o now ct cb w m k) = Ok /\ r_handed (run o now ct cb w m k) = true).
Proof.
  intros o now ct cb w m k.
  destruct (run_cases now ct cb o w m k) as [(_ & _ & Hr)|Hp]; [left; exact Hr|].
  destruct Hp as [H1 H2 Hd|? ? ? ? ? ? ? ? ? -> Hd|c k1 rst t ? ? Hc Hk Hi He Hct Hat Hrt Hrf Hd|c k1 rst t ? ? Hc Hk Hl Hi He Hct Hat Hrt Hrf Hd];
    destruct Hd as [Hh Hd].
  - left. apply Hd.
  - left. apply Hd.
  - destruct rst; [|left; apply Hd]. destruct Hd as [Hd|(Ha & Hb & Hcl & Hn)]; [left; apply Hd|].
    right. eexists. split; [|split; [exact Hn|]]; [lia|]. repeat split; auto.
  - destruct rst; [|left; apply Hd]. destruct Hd as [Hd|(Ha & Hb & Hcl & Hn)]; [left; apply Hd|].
    right. eexists. split; [|split; [exact Hn|]]; [lia|]. repeat split; auto. apply Hrt, eq_refl.
Qed.

(** The lower bound, as the code tests it: in whole seconds. *)
Definition past_start (w : window) (e : Z) : Prop :=
  if w_incl_start w then w_start w * second <= e else (w_start w + 1) * second <= e.

Lemma run_resets : forall o now ct cb w m k c, monotone now ->
  o <> OSendNoReset -> w_reset w <> no_reset ->
  m (w_clock w) = Some c -> 0 <= w_end w ->
  (w_start w < 0 \/ past_start w (elapsed (now k) c)) ->
  r_out (run o now ct cb w m k) = Ok ->
  exists j, (k <= j)%nat /\ r_next (run o now ct cb w m k) = S j /\
    r_clocks (run o now ct cb w m k) = set_clock m (w_reset w) (now j) /\ m (w_reset w) <> None.
Proof.
  intros o now ct cb w m k c Hm Ho Hr Hc Hend Hst Hok.
  assert (Hmono : forall i j, (i <= j)%nat -> elapsed (now i) c <= elapsed (now j) c).
  { intros. apply elapsed_mono, Hm. assumption. }
  destruct (run_cases now ct cb o w m k) as [(Hno & _ & _)|Hp]; [contradiction|].
  destruct Hp as [H1 H2 Hd|? ? ? H1 H2 Ho' ? ? ? ? Hd|c' k1 rst t ? Hend' Hc' Hk Hi He Hct Hat Hrt Hrf Hd|c' k1 rst t ? Hend' Hc' Hk Hl Hi He Hct Hat Hrt Hrf Hd];
    [lia|contradiction| |]; assert (c' = c) by congruence; subst c'; destruct Hd as [Hh Hd].
  - destruct rst.
    + destruct Hd as [(Hp & _)|(Ha & Hb & Hcl & Hn)]; [congruence|].
      eexists. split; [|split; [exact Hn|]]; [lia|]. auto.
    + exfalso. destruct (Hrf eq_refl) as [?|[?|[k' Hno]]]; try contradiction.
      unfold test_hi in Hno. destruct (u64_of (w_end w)) as [b|] eqn:Eb; [|discriminate].
      apply u64_of_some in Eb. destruct Eb as [-> Eb].
      destruct (w_incl_end w).
      * destruct (Z.leb_spec (as_secs (elapsed (now k) c)) (w_end w)) as [Hx|Hx]; [discriminate|].
        assert (Hx' : w_end w + 1 <= as_secs (elapsed (now k) c)) by lia. apply secs_le in Hx'.
        pose proof (Hmono k (S k1) ltac:(lia)). unfold second in *. lia.
      * destruct (Z.ltb_spec (as_secs (elapsed (now k) c)) (w_end w)) as [Hx|Hx]; [discriminate|].
        apply secs_le in Hx. pose proof (Hmono k k1 ltac:(lia)). lia.
  - destruct rst.
    + destruct Hd as [(Hp & _)|(Ha & Hb & Hcl & Hn)]; [congruence|].
      eexists. split; [|split; [exact Hn|]]; [lia|]. auto.
    + exfalso. destruct (Hrf eq_refl) as [?|[?|[k' Hno]]]; try contradiction.
      destruct Hst as [Hst|Hst]; [lia|].
      unfold test_both in Hno.
      assert (Hlo : test_lo now w c k = (Yes, S k) \/ exists k', test_lo now w c k = (Bad, k')).
      { unfold test_lo. destruct (u64_of (w_start w)) as [a|] eqn:Ea; [left|right; eauto].
        apply u64_of_some in Ea. destruct Ea as [-> Ea]. unfold past_start in Hst.
        destruct (w_incl_start w).
        - apply secs_le in Hst. destruct (Z.leb_spec (w_start w) (as_secs (elapsed (now k) c))); [reflexivity|lia].
        - apply secs_le in Hst. destruct (Z.ltb_spec (w_start w) (as_secs (elapsed (now k) c))); [reflexivity|lia]. }
      destruct Hlo as [Hlo|[k2 Hlo]]; rewrite Hlo in Hno; [|discriminate].
      unfold test_hi in Hno. destruct (u64_of (w_end w)) as [b|] eqn:Eb; [|discriminate].
      apply u64_of_some in Eb. destruct Eb as [-> Eb].
      destruct (w_incl_end w).
      * destruct (Z.leb_spec (as_secs (elapsed (now (S k)) c)) (w_end w)) as [Hx|Hx]; [discriminate|].
        assert (Hx' : w_end w + 1 <= as_secs (elapsed (now (S k)) c)) by lia. apply secs_le in Hx'.
        pose proof (Hmono (S k) (S (S k1)) ltac:(lia)). unfold second in *. lia.
      * destruct (Z.ltb_spec (as_secs (elapsed (now (S k)) c)) (w_end w)) as [Hx|Hx]; [discriminate|].
        apply secs_le in Hx. pose proof (Hmono (S k) (S k1) ltac:(lia)). lia.
Qed.

(** When a successful send or recv resets. *)
Lemma run_resets_iff : forall o now ct cb w m k, monotone now ->
  o <> OSendNoReset -> w_reset w <> no_reset ->
  r_out (run o now ct cb w m k) = Ok ->
  let resets := 0 <= w_end w /\
    (w_start w < 0 \/ exists c, m (w_clock w) = Some c /\ past_start w (elapsed (now k) c)) in
  (resets -> exists j, (k <= j)%nat /\ r_next (run o now ct cb w m k) = S j /\
     r_clocks (run o now ct cb w m k) = set_clock m (w_reset w) (now j) /\ m (w_reset w) <> None) /\
  (~ resets -> r_clocks (run o now ct cb w m k) = m).
Proof.
  intros o now ct cb w m k Hm Ho Hr Hok resets. split.
  - intros [He Hs].
    assert (exists c, m (w_clock w) = Some c) as [c Hc].
    { destruct Hs as [Hs|(c & Hc & _)]; [|eauto].
      destruct (run_cases now ct cb o w m k) as [(Hno & _ & _)|Hp]; [contradiction|].
      destruct Hp; try lia; eauto. }
    destruct (run_resets o now ct cb w m k c) as (j & H1 & H2 & H3 & H4); try assumption.
    { destruct Hs as [Hs|(c' & Hc' & Hs)]; [left; exact Hs|right]. congruence. }
    exists j. auto.
  - intros Hn. destruct (run_cases now ct cb o w m k) as [(_ & _ & Hx)|Hp]; [exact Hx|].
    destruct Hp as [H1 H2 Hd|? ? ? H1 H2 Ho' ? ? ? ? Hd|c k1 rst t Hs He Hc Hk Hi Hl Hct Hat Hrt Hrf Hd|c k1 rst t Hs He Hc Hk Hl Hi Hu Hct Hat Hrt Hrf Hd].
    + apply Hd.
    + contradiction.
    + exfalso. apply Hn. unfold resets. auto.
    + destruct rst; [|apply Hd]. exfalso. apply Hn. split; [exact He|]. right. exists c.
      split; [exact Hc|]. destruct (Hrt eq_refl) as [_ ->]. exact Hl.
Qed.

(** *** Choices *)

Lemma nr_clocks : forall now ct cb w m k,
  r_clocks (tsend_without_reset now ct cb w m k) = m.
Proof.
  intros now ct cb w m k. change (r_clocks (run OSendNoReset now ct cb w m k) = m).
  destruct (run_cases now ct cb OSendNoReset w m k) as [(_ & _ & H)|Hp]; [exact H|].
  (* no branch of send_without_reset resets *)
  assert (Hg : forall test transfer,
    (forall c k, r_clocks (transfer false c k) = m) ->
    r_clocks (guarded_nr w m k test transfer) = m).
  { intros test transfer Ht. unfold guarded_nr. destruct (m (w_clock w)); [|reflexivity].
    destruct (test z k) as [[| |] k1]; try reflexivity. apply Ht. }
  assert (Htt : forall c k0, r_clocks (transfer_timeout now ct true false w m c k0) = m).
  { intros c k0. destruct (transfer_timeout_cases now ct true false w m c k0)
      as [(_ & _ & H)|(_ & _ & t & _ & _ & H)]; [exact H|]. apply H. }
  assert (Htb : forall snd k0, r_clocks (transfer_block now cb snd false w m k0) = m).
  { intros snd k0. destruct (transfer_block_cases now cb snd false w m k0) as [(_ & _ & H)|H];
      [exact H|]. apply H. }
  cbn [run]. unfold tsend_without_reset, body.
  destruct (w_start w <? 0).
  - destruct (0 <=? w_end w); [apply Hg; auto|].
    destruct (negb (w_incl_start w) && negb (w_incl_end w)); [apply Htb|reflexivity].
  - destruct (w_end w <? 0); [apply Hg; auto|].
    destruct (w_end w <? w_start w); [reflexivity|apply Hg; auto].
Qed.

Lemma multi_sends_clocks : forall now ct cb ws i m k o m' j k',
  multi_sends now ct cb ws i m k = (o, m', j, k') -> m' = m.
Proof.
  intros now ct cb ws. induction ws as [|w ws IH]; intros i m k o m' j k' H; cbn in H.
  - inversion H. reflexivity.
  - rewrite nr_clocks in H.
    destruct (r_out (tsend_without_reset now (ct i) (cb i) w m k)); try (inversion H; reflexivity).
    eapply IH; eauto.
Qed.

Lemma multi_sends_served : forall now ct cb ws i m k o m' j k',
  multi_sends now ct cb ws i m k = (o, m', j, k') ->
  (i <= j <= i + length ws)%nat /\ (o = Ok -> j = (i + length ws)%nat).
Proof.
  intros now ct cb ws. induction ws as [|w ws IH]; intros i m k o m' j k' H; cbn in H.
  - inversion H. cbn. lia.
  - destruct (r_out (tsend_without_reset now (ct i) (cb i) w m k)) eqn:E;
      try (inversion H; subst; cbn [length]; split; [lia|discriminate]).
    apply IH in H. cbn [length]. destruct H as [H1 H2]. split; [lia|]. intros Ho. rewrite H2; auto; lia.
Qed.

(** With the system clock standing still, a send's verdict depends only on clocks and window. *)
Lemma tests_frozen : forall now t w c k k', (forall j, now j = t) ->
  fst (test_lo now w c k) = fst (test_lo now w c k') /\
  fst (test_hi now w c k) = fst (test_hi now w c k') /\
  fst (test_both now w c k) = fst (test_both now w c k').
Proof.
  intros now t w c k k' Hn.
  assert (H1 : fst (test_lo now w c k) = fst (test_lo now w c k')).
  { unfold test_lo. rewrite !Hn. destruct (u64_of (w_start w)); reflexivity. }
  assert (H2 : forall a b, fst (test_hi now w c a) = fst (test_hi now w c b)).
  { intros a b. unfold test_hi. rewrite !Hn. destruct (u64_of (w_end w)); reflexivity. }
  split; [exact H1|]. split; [apply H2|]. unfold test_both.
  destruct (test_lo now w c k) as [v1 k1], (test_lo now w c k') as [v2 k2].
  cbn in H1. subst v2. destruct v1; try reflexivity. apply H2.
Qed.

Lemma nr_frozen : forall now t ct cb ct' cb' w m k k', (forall j, now j = t) ->
  (forall d t0, fst (ct d t0) = true) -> (forall t0, exists t', cb t0 = Some (true, t')) ->
  (forall d t0, fst (ct' d t0) = true) -> (forall t0, exists t', cb' t0 = Some (true, t')) ->
  r_out (tsend_without_reset now ct cb w m k) = r_out (tsend_without_reset now ct' cb' w m k').
Proof.
  intros now t ct cb ct' cb' w m k k' Hn Hct Hcb Hct' Hcb'.
  assert (Hg : forall test f g,
    (forall c, fst (test c k) = fst (test c k')) ->
    (forall c a b, r_out (f false c a) = r_out (g false c b)) ->
    r_out (guarded_nr w m k test f) = r_out (guarded_nr w m k' test g)).
  { intros test f g Ht Hfg. unfold guarded_nr. destruct (m (w_clock w)) as [c|]; [|reflexivity].
    specialize (Ht c). destruct (test c k) as [v1 k1], (test c k') as [v2 k2].
    cbn in Ht. subst v2. destruct v1; try reflexivity. apply Hfg. }
  assert (Htt : forall c a b, r_out (transfer_timeout now ct true false w m c a) =
                              r_out (transfer_timeout now ct' true false w m c b)).
  { intros c a b. unfold transfer_timeout. rewrite !Hn. destruct (u64_of (w_end w)); [|reflexivity].
    cbn zeta. destruct (z * second - elapsed t c <? 0); [reflexivity|].
    pose proof (Hct (z * second - elapsed t c) t) as H1.
    pose proof (Hct' (z * second - elapsed t c) t) as H2.
    destruct (ct (z * second - elapsed t c) t), (ct' (z * second - elapsed t c) t).
    cbn in H1, H2. subst. reflexivity. }
  assert (Htb : forall a b, r_out (transfer_block now cb true false w m a) =
                            r_out (transfer_block now cb' true false w m b)).
  { intros a b. unfold transfer_block. rewrite !Hn.
    destruct (Hcb t) as [t1 ->], (Hcb' t) as [t2 ->]. reflexivity. }
  unfold tsend_without_reset, body.
  destruct (w_start w <? 0).
  - destruct (0 <=? w_end w).
    + apply Hg; [|intros; apply Htt]. intros c. apply (tests_frozen now t w c k k' Hn).
    + destruct (negb (w_incl_start w) && negb (w_incl_end w)); [apply Htb|reflexivity].
  - destruct (w_end w <? 0).
    + apply Hg; [|intros; apply Htb]. intros c. apply (tests_frozen now t w c k k' Hn).
    + destruct (w_end w <? w_start w); [reflexivity|].
      apply Hg; [|intros; apply Htt]. intros c. apply (tests_frozen now t w c k k' Hn).
Qed.

Lemma multi_sends_all_or_none : forall now t ct cb w n i m k o m' j k', (forall j, now j = t) ->
  (forall a d t0, fst (ct a d t0) = true) -> (forall a t0, exists t', cb a t0 = Some (true, t')) ->
  multi_sends now ct cb (repeat w n) i m k = (o, m', j, k') ->
  (o = Ok /\ j = (i + n)%nat) \/ j = i.
Proof.
  intros now t ct cb w n i m k o m' j k' Hn Hct Hcb H.
  destruct n as [|n]; [cbn in H; inversion H; left; split; [reflexivity|lia]|].
  destruct (r_out (tsend_without_reset now (ct i) (cb i) w m k)) eqn:E.
  2-4: (cbn in H; rewrite E in H; inversion H; right; reflexivity).
  left. revert i k H E. induction n as [|n IH]; intros i k H E; cbn in H; rewrite E in H.
  - inversion H. split; [reflexivity|lia].
  - rewrite nr_clocks in H.
    specialize (IH (S i) (r_next (tsend_without_reset now (ct i) (cb i) w m k)) H).
    rewrite (nr_frozen now t _ _ (ct i) (cb i) w m _ k) in IH; auto.
    destruct (IH E) as [H1 H2]. split; [exact H1|lia].
Qed.

Lemma reset_all_spec : forall now cs m k o m' k', reset_all now cs m k = (o, m', k') ->
  (forall x, ~ In x cs -> m' x = m x) /\
  (o = Ok -> forall x, In x cs -> exists j, (k <= j < k')%nat /\ m' x = Some (now j)) /\
  (k <= k')%nat /\
  ((forall x, In x cs -> m x <> None) -> o = Ok).
Proof.
  intros now cs. induction cs as [|c cs IH]; intros m k o m' k' H; cbn in H.
  - inversion H; subst. repeat split; auto; try lia. intros _ x [].
  - destruct (m c) eqn:E.
    + apply IH in H. destruct H as (H1 & H2 & H3 & H4).
      assert (Hs : forall x, set_clock m c (now k) x = if Nat.eqb x c then Some (now k) else m x)
        by reflexivity.
      repeat split.
      * intros x Hx. rewrite H1 by (intros Hx'; apply Hx; right; exact Hx').
        rewrite Hs. destruct (Nat.eqb_spec x c); [subst; exfalso; apply Hx; left; reflexivity|reflexivity].
      * intros Ho x [->|Hx].
        -- destruct (in_dec Nat.eq_dec x cs) as [Hi|Hi].
           ++ destruct (H2 Ho x Hi) as (j & Hj & Hj'). exists j. split; [lia|exact Hj'].
           ++ exists k. split; [lia|]. rewrite (H1 x Hi), Hs, Nat.eqb_refl. reflexivity.
        -- destruct (H2 Ho x Hx) as (j & Hj & Hj'). exists j. split; [lia|exact Hj'].
      * lia.
      * intros Hall. apply H4. intros x Hx. rewrite Hs. destruct (Nat.eqb x c); [discriminate|].
        apply Hall. right. exact Hx.
    + inversion H; subst. repeat split; auto; try lia; try discriminate.
      intros Hall. exfalso. apply (Hall c); [left; reflexivity|exact E].
Qed.
