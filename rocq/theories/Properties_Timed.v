(** Properties C20-C24: timed operations. *)
From Coq Require Import List ZArith Bool Lia.
From Verif Require Import Types Timed TimedProofs.
Import ListNotations.
Open Scope Z_scope.

(** ** C20 *)

(** For each of send, send_without_reset and recv, every window, clock map, sequence of readings of
    the system clock and behaviour of the channel: if the operation succeeds (or merely hands the
    message over), then at some reading during the operation the clock named in the type had a value
    inside the declared window, compared exactly. *)
Theorem timed_success_inside_window : forall o now ct cb w m k, monotone now ->
  (r_out (run o now ct cb w m k) = Ok -> r_handed (run o now ct cb w m k) = true) /\
  (r_handed (run o now ct cb w m k) = true ->
   (w_start w < 0 /\ w_end w < 0) \/
   exists c j, m (w_clock w) = Some c /\ (k <= j < r_next (run o now ct cb w m k))%nat /\
     in_window w (elapsed (now j) c)).
Proof.
  intros. split; [apply run_ok_handed|apply run_handed_in_window; assumption].
Qed.
Print Assumptions timed_success_inside_window.

(** The hand-over happens at most END seconds after the clock's origin, plus the time that passes
    between two consecutive readings of the system clock (the reading that computes the timeout
    and the one inside send_timeout/recv_timeout). *)
Theorem timed_success_before_deadline : forall o now ct cb w m k, timely ct ->
  r_handed (run o now ct cb w m k) = true -> 0 <= w_end w ->
  exists c j, m (w_clock w) = Some c /\ (k <= j)%nat /\ (S j < r_next (run o now ct cb w m k))%nat /\
    r_at (run o now ct cb w m k) <= c + w_end w * second + (now (S j) - now j).
Proof. exact run_handed_deadline. Qed.
Print Assumptions timed_success_before_deadline.

(** Clock 'a' started at 0, window [1, 3], no reset; the clock reads 2 s. *)
Definition ex_clocks : clocks := fun c => if Nat.eqb c 97 then Some 0 else None.
Definition ex_ready : Z -> Z -> bool * Z := fun _ t => (true, t).
Definition ex_ready_block : Z -> option (bool * Z) := fun t => Some (true, t).
Definition ex_now (k : nat) : Z := 2 * second + Z.of_nat k.
Definition ex_ready' : Z -> Z -> bool * Z := fun d t => (0 <=? d, t).
Example timed_example_send :
  r_out (run OSend ex_now ex_ready' ex_ready_block (Window 97 1 true 3 true 32) ex_clocks 0) = Ok /\
  r_out (run ORecv ex_now ex_ready' ex_ready_block (Window 97 1 true 3 true 32) ex_clocks 0) = Ok /\
  r_out (run OSend ex_now ex_ready' ex_ready_block (Window 97 3 true 4 true 32) ex_clocks 0)
    = Panic OutOfWindow /\
  monotone ex_now /\ timely ex_ready'.
Proof.
  repeat split; try reflexivity.
  - intros i j H. unfold ex_now. lia.
  - intros d t t' H. unfold ex_ready' in H. inversion H. subst.
    match goal with E : (0 <=? d) = true |- _ => apply Z.leb_le in E end. lia.
Qed.

(** Without the term for the gap the bound is false: the timeout is computed from one reading and
    applied from the next. Window [1, 3], readings 0.5 s apart, a peer that accepts at the last
    moment: the message goes over at 3.5 s. *)
Theorem timed_success_before_end_refuted :
  exists now ct cb w m k c, monotone now /\ timely ct /\ m (w_clock w) = Some c /\ 0 <= w_end w /\
    r_out (run OSend now ct cb w m k) = Ok /\
    c + w_end w * second < r_at (run OSend now ct cb w m k).
Proof.
  exists (fun k => second + Z.of_nat k * 500000000), (fun d t => (true, t + d)), ex_ready_block,
    (Window 97 1 true 3 true 97), ex_clocks, 0%nat, 0.
  split; [intros i j H; lia|]. split; [intros d t t' H; inversion H; lia|].
  repeat split; try reflexivity. discriminate.
Qed.
Print Assumptions timed_success_before_end_refuted.

(** ** C21 *)

(** What is accepted: with the peer ready, the clock and the reset clock present, a sensible window
    (bounds fit in u64, start <= end, no inclusion flag on two absent bounds), an operation at whose
    readings the clock is inside the window, and a whole second past an exclusive lower bound,
    succeeds (five readings are made at most). For send and recv, [start <= end] excludes a lower bound without upper bound (C22). *)
Theorem timed_accepted_inside_window : forall o now ct cb w m k c,
  (forall d t, fst (ct d t) = true) -> (forall t, exists t', cb t = Some (true, t')) ->
  m (w_clock w) = Some c ->
  (w_reset w = no_reset \/ m (w_reset w) <> None) ->
  w_start w <= u64_max -> w_end w <= u64_max ->
  (o = OSendNoReset \/ w_start w <= w_end w) ->
  (0 <= w_start w -> 0 <= w_end w -> w_start w <= w_end w) ->
  (w_start w < 0 -> w_end w < 0 -> w_incl_start w = false /\ w_incl_end w = false) ->
  (forall j, (k <= j <= k + 4)%nat -> well_inside w (elapsed (now j) c)) ->
  r_out (run o now ct cb w m k) = Ok.
Proof. exact run_accepts. Qed.
Print Assumptions timed_accepted_inside_window.

Example timed_accepted_example :
  (forall j : nat, well_inside (Window 97 1 false 3 false 97) (elapsed (2 * second) 0)) /\
  forall o, r_out (run o (fun _ => 2 * second) ex_ready ex_ready_block (Window 97 1 false 3 false 97)
    ex_clocks 0) = Ok.
Proof.
  split; [|intros []; reflexivity].
  intros. unfold well_inside, in_window, elapsed, second. cbn. lia.
Qed.

(** The expected claim (inside the window implies accepted) is false: an exclusive lower bound
    refuses the whole second after the bound. Window (1 s, 5 s], clock at 1.5 s at every reading. *)
Theorem timed_in_window_accepted_refuted :
  exists now ct cb w m k c, monotone now /\ (forall d t, fst (ct d t) = true) /\
    m (w_clock w) = Some c /\ w_reset w = no_reset /\ 0 <= w_start w <= w_end w /\
    (forall j, in_window w (elapsed (now j) c)) /\
    r_out (run OSend now ct cb w m k) = Panic OutOfWindow /\
    r_out (run ORecv now ct cb w m k) = Panic OutOfWindow /\
    r_out (run OSendNoReset now ct cb w m k) = Panic OutOfWindow.
Proof.
  exists (fun _ => 1500000000), ex_ready, ex_ready_block, (Window 97 1 false 5 true 32), ex_clocks, 0%nat, 0.
  split; [intros i j _; lia|]. split; [reflexivity|]. split; [reflexivity|]. split; [reflexivity|].
  split; [cbn; lia|]. split; [|repeat split; reflexivity].
  intros j. unfold in_window, elapsed, second. cbn. lia.
Qed.
Print Assumptions timed_in_window_accepted_refuted.

(** Exactly this is the gap: with the clock standing still inside the window and everything else in
    order, send, recv and send_without_reset succeed if and only if the lower bound is absent, or
    inclusive, or a whole second past. *)
Theorem timed_accepted_iff : forall o t ct cb w m k c,
  (forall d t, fst (ct d t) = true) -> (forall t, exists t', cb t = Some (true, t')) ->
  m (w_clock w) = Some c ->
  (w_reset w = no_reset \/ m (w_reset w) <> None) ->
  w_start w <= u64_max -> w_end w <= u64_max ->
  (o = OSendNoReset \/ w_start w <= w_end w) ->
  (0 <= w_start w -> 0 <= w_end w -> w_start w <= w_end w) ->
  (w_start w < 0 -> w_end w < 0 -> w_incl_start w = false /\ w_incl_end w = false) ->
  in_window w (elapsed t c) ->
  (r_out (run o (fun _ => t) ct cb w m k) = Ok <->
   (w_start w < 0 \/ w_incl_start w = true \/ (w_start w + 1) * second <= elapsed t c)).
Proof.
  intros o t ct cb w m k c Hct Hcb Hc Hr Hus Hue Ho Hse Hneg Hin. split.
  - intros Hok. destruct (Z.ltb_spec (w_start w) 0) as [Hs|Hs]; [left; exact Hs|right].
    destruct (w_incl_start w) eqn:Ei; [left; reflexivity|right].
    destruct (run_cases (fun _ => t) ct cb o w m k) as [[Hn _]|Hp]; [contradiction|].
    destruct Hp; try lia; rewrite Ei in *; assert (c0 = c) by congruence; subst; assumption.
  - intros H. apply (run_accepts o (fun _ => t) ct cb w m k c); auto.
    intros j _. split; [exact Hin|]. intros Hs Hi. destruct H as [H|[H|H]]; [lia|congruence|exact H].
Qed.
Print Assumptions timed_accepted_iff.

(** Another surprise, outside the window: with an inclusive upper bound, between END and END+1
    seconds the window test passes and the operation dies by Duration underflow instead of
    reporting the timeout. *)
Theorem timed_underflow_after_inclusive_end : forall o t ct cb w m k c,
  m (w_clock w) = Some c -> 0 <= w_start w <= w_end w -> w_end w <= u64_max ->
  w_incl_start w = true -> w_incl_end w = true ->
  w_end w * second < elapsed t c < (w_end w + 1) * second ->
  r_out (run o (fun _ => t) ct cb w m k) = Panic Underflow.
Proof.
  intros o t ct cb w m k c Hc Hs Hu His Hie He.
  assert (Hb : forall k0, test_both (fun _ => t) w c k0 = (Yes, S (S k0))).
  { intros k0. unfold test_both, test_lo, test_hi. rewrite !u64_of_ok by lia. rewrite His, Hie.
    destruct (Z.leb_spec (w_start w) (as_secs (elapsed t c))) as [H|H].
    2: { apply secs_lt in H. unfold second in *. lia. }
    destruct (Z.leb_spec (as_secs (elapsed t c)) (w_end w)) as [H'|H']; [reflexivity|].
    assert (H'' : w_end w + 1 <= as_secs (elapsed t c)) by lia. apply secs_le in H''. lia. }
  assert (Ht : forall snd rst k0, r_out (transfer_timeout (fun _ => t) ct snd rst w m c k0) = Panic Underflow).
  { intros. unfold transfer_timeout. rewrite u64_of_ok by lia. cbn zeta.
    destruct (Z.ltb_spec (w_end w * second - elapsed t c) 0); [reflexivity|lia]. }
  assert (Hg : forall snd, let g := match o with OSendNoReset => guarded_nr w m k | _ => guarded w m k end in
    r_out (body (fun _ => t) ct cb snd g w m k) = Panic Underflow).
  { intros snd g. subst g. unfold body. destruct (Z.ltb_spec (w_start w) 0); [lia|].
    destruct (Z.ltb_spec (w_end w) 0); [lia|]. destruct (Z.ltb_spec (w_end w) (w_start w)); [lia|].
    destruct o; unfold guarded, guarded_nr; rewrite Hc, Hb; cbn [andb].
    - destruct (Nat.eqb (w_reset w) no_reset); cbn [negb]; [rewrite Hb|]; apply Ht.
    - apply Ht.
    - destruct (Nat.eqb (w_reset w) no_reset); cbn [negb]; [rewrite Hb|]; apply Ht. }
  destruct o; cbn [run]; unfold tsend, trecv;
    try (destruct (Z.ltb_spec (w_end w) (w_start w)); [lia|]).
  - apply (Hg true).
  - apply (Hg true).
  - apply (Hg false).
Qed.
Print Assumptions timed_underflow_after_inclusive_end.
Example timed_underflow_example :
  r_out (run OSend (fun _ => 3500000000) ex_ready ex_ready_block (Window 97 1 true 3 true 32) ex_clocks 0)
  = Panic Underflow.
Proof. reflexivity. Qed.

(** ** C22 *)

(** A lower bound without upper bound: send and recv always panic, whatever clocks and channel do;
    send_without_reset accepts it (third part; its hypotheses as in C21). *)
Theorem timed_lower_bound_only_always_panics : forall now ct cb w m k,
  0 <= w_start w -> w_end w < 0 ->
  r_out (run OSend now ct cb w m k) = Panic WindowOrder /\
  r_out (run ORecv now ct cb w m k) = Panic WindowOrder.
Proof.
  intros now ct cb w m k Hs He. cbn [run]. unfold tsend, trecv.
  destruct (Z.ltb_spec (w_end w) (w_start w)); [split; reflexivity|lia].
Qed.
Print Assumptions timed_lower_bound_only_always_panics.

Theorem timed_lower_bound_only_without_reset : forall now ct cb w m k c,
  (forall t, exists t', cb t = Some (true, t')) -> m (w_clock w) = Some c ->
  0 <= w_start w <= u64_max -> w_end w < 0 ->
  (forall j, (k <= j)%nat -> (w_start w + 1) * second <= elapsed (now j) c) ->
  r_out (run OSendNoReset now ct cb w m k) = Ok.
Proof.
  intros now ct cb w m k c Hcb Hc Hs He Hin. cbn [run]. unfold tsend_without_reset, body.
  destruct (Z.ltb_spec (w_start w) 0); [lia|]. destruct (Z.ltb_spec (w_end w) 0); [|lia].
  unfold guarded_nr. rewrite Hc. rewrite test_lo_inside; [|lia|].
  - apply transfer_block_ok; [exact Hcb|discriminate].
  - specialize (Hin k ltac:(lia)). split; [split|]; [|lia|auto].
    intros _. destruct (w_incl_start w); unfold second in *; lia.
Qed.
Print Assumptions timed_lower_bound_only_without_reset.

(** The expected claim is false: the clock is inside the window at every reading, the peer is ready,
    and both operations panic. *)
Theorem timed_lower_bound_only_usable_refuted :
  exists now ct cb w m k c, 0 <= w_start w /\ w_end w < 0 /\ m (w_clock w) = Some c /\
    w_reset w = no_reset /\ (forall d t, fst (ct d t) = true) /\
    (forall t, exists t', cb t = Some (true, t')) /\
    (forall j, well_inside w (elapsed (now j) c)) /\
    r_out (run OSend now ct cb w m k) <> Ok /\ r_out (run ORecv now ct cb w m k) <> Ok.
Proof.
  exists ex_now, ex_ready, ex_ready_block, (Window 97 1 true (-1) false 32), ex_clocks, 0%nat, 0.
  split; [cbn; lia|]. split; [cbn; lia|]. split; [reflexivity|]. split; [reflexivity|].
  split; [reflexivity|]. split; [intros; eexists; reflexivity|].
  split; [|split; discriminate].
  intros j. unfold well_inside, in_window, elapsed, ex_now, second.
  cbn [w_start w_end w_incl_start w_incl_end]. split; [split|]; intros; try discriminate; lia.
Qed.
Print Assumptions timed_lower_bound_only_usable_refuted.

Example timed_lower_bound_only_example :
  r_out (run OSend ex_now ex_ready ex_ready_block (Window 97 1 true (-1) true 32) ex_clocks 0) = Panic WindowOrder /\
  r_out (run OSendNoReset ex_now ex_ready ex_ready_block (Window 97 1 true (-1) true 32) ex_clocks 0) = Ok.
Proof. split; reflexivity. Qed.

(** ** C23 *)

(** At most the clock named by RESET changes, only if the operation handed the message over and
    succeeded, and it is then set to the last reading of the system clock, i.e. it reads zero. *)
Theorem timed_changes_only_reset_clock : forall o now ct cb w m k x,
  r_clocks (run o now ct cb w m k) x <> m x ->
  x = w_reset w /\ x <> no_reset /\ r_handed (run o now ct cb w m k) = true /\
  r_out (run o now ct cb w m k) = Ok /\
  exists j, r_next (run o now ct cb w m k) = S j /\
    r_clocks (run o now ct cb w m k) x = Some (now j) /\
    (forall c, r_clocks (run o now ct cb w m k) x = Some c -> elapsed (now j) c = 0).
Proof.
  intros o now ct cb w m k x H.
  destruct (run_clocks o now ct cb w m k) as [Hc|(j & _ & Hn & Hc & Hm & Hr & Ho & Hh)];
    [congruence|].
  rewrite Hc in H. unfold set_clock in H. destruct (Nat.eqb_spec x (w_reset w)); [subst x|congruence].
  repeat split; try assumption. exists j. rewrite Hc. unfold set_clock. rewrite Nat.eqb_refl.
  repeat split; try assumption. intros c Hx. inversion Hx. unfold elapsed. lia.
Qed.
Print Assumptions timed_changes_only_reset_clock.

(** A refused or failed operation leaves all clocks unchanged. *)
Theorem timed_refused_keeps_clocks : forall o now ct cb w m k,
  r_out (run o now ct cb w m k) <> Ok -> r_clocks (run o now ct cb w m k) = m.
Proof.
  intros o now ct cb w m k H.
  destruct (run_clocks o now ct cb w m k) as [Hc|(j & _ & _ & _ & _ & _ & Ho & _)]; [exact Hc|contradiction].
Qed.
Print Assumptions timed_refused_keeps_clocks.

(** A successful send or recv with RESET different from blank restarts the clock exactly if the
    window has an upper bound and the lower bound (if any) was already reached at the first
    reading; otherwise it leaves every clock as it was. *)
Theorem timed_success_resets_iff : forall o now ct cb w m k, monotone now ->
  o <> OSendNoReset -> w_reset w <> no_reset ->
  r_out (run o now ct cb w m k) = Ok ->
  let resets := 0 <= w_end w /\
    (w_start w < 0 \/ exists c, m (w_clock w) = Some c /\ past_start w (elapsed (now k) c)) in
  (resets -> exists j, (k <= j)%nat /\ r_next (run o now ct cb w m k) = S j /\
     r_clocks (run o now ct cb w m k) = set_clock m (w_reset w) (now j) /\ m (w_reset w) <> None) /\
  (~ resets -> r_clocks (run o now ct cb w m k) = m).
Proof. exact run_resets_iff. Qed.
Print Assumptions timed_success_resets_iff.

(** Both cases of the second kind exist. First: when the lower bound is crossed between
    the first and the second test (send.rs:248-270), the message is sent but the clock is not reset.
    Window [1, 5], reset 'a'; the first reading is 1 ns before the bound, the others 1 ns after. *)
Theorem timed_success_resets_refuted_at_boundary :
  exists now ct cb w m k c, monotone now /\ m (w_clock w) = Some c /\ w_reset w = w_clock w /\
    w_reset w <> no_reset /\ 0 <= w_start w <= w_end w /\
    (forall o, o <> OSendNoReset ->
      r_out (run o now ct cb w m k) = Ok /\ r_clocks (run o now ct cb w m k) (w_reset w) = Some c /\
      c < now k).
Proof.
  exists (fun k => match k with O => 999999999 | _ => 1000000001 end),
    ex_ready, ex_ready_block, (Window 97 1 true 5 true 97), ex_clocks, 0%nat, 0.
  split. { intros i j H. destruct i, j; lia. }
  split; [reflexivity|]. split; [reflexivity|]. split; [discriminate|]. split; [cbn; lia|].
  intros o Ho. destruct o; [|contradiction|]; repeat split; reflexivity.
Qed.
Print Assumptions timed_success_resets_refuted_at_boundary.

(** Second: with both bounds absent, RESET is ignored. *)
Theorem timed_unbounded_never_resets : forall o now ct cb w m k,
  w_start w < 0 -> w_end w < 0 -> r_clocks (run o now ct cb w m k) = m.
Proof.
  intros o now ct cb w m k Hs He.
  destruct (run_cases now ct cb o w m k) as [(_ & _ & Hr)|Hp]; [exact Hr|].
  destruct Hp as [_ _ Hd| | |]; try lia. apply Hd.
Qed.
Print Assumptions timed_unbounded_never_resets.

(** Third: if the reset clock is missing, the message has been handed over and the operation
    panics. *)
Example timed_missing_reset_clock :
  let r := run OSend ex_now ex_ready ex_ready_block (Window 97 1 true 3 true 98) ex_clocks 0 in
  r_out r = Panic NoResetClock /\ r_handed r = true.
Proof. split; reflexivity. Qed.

Example timed_reset_example :
  let r := run OSend ex_now ex_ready ex_ready_block (Window 97 1 true 3 true 97) ex_clocks 0 in
  r_out r = Ok /\ r_clocks r 97%nat = Some (ex_now 4).
Proof. split; reflexivity. Qed.

(** ** C24 *)

(** choose_atmp_mpst_multi_to_all: every receiver is judged against the clocks as they were before
    the choice, and an aborted choice resets nothing. *)
Theorem timed_multi_choice_same_clocks : forall now ct cb ws m k o m' i k',
  multi_sends now ct cb ws 0 m k = (o, m', i, k') ->
  m' = m /\ (i <= length ws)%nat /\ (o = Ok -> i = length ws).
Proof.
  intros now ct cb ws m k o m' i k' H. split; [eapply multi_sends_clocks; eauto|].
  apply multi_sends_served in H. destruct H as [H1 H2]. split; [lia|]. intros Ho. rewrite H2; auto.
Qed.
Print Assumptions timed_multi_choice_same_clocks.

(** After a successful choice exactly the requested clocks are reset, to readings made after all
    sends; the others are unchanged. *)
Theorem timed_multi_choice_resets : forall now ct cb ws m k o m' i k',
  choose_multi now ct cb ws m k = (o, m', i, k') ->
  (forall x, ~ In x (map w_reset ws) \/ x = no_reset -> m' x = m x) /\
  (o = Ok -> i = length ws /\
     forall x, In x (map w_reset ws) -> x <> no_reset ->
       exists j, (k <= j < k')%nat /\ m' x = Some (now j)).
Proof.
  intros now ct cb ws m k o m' i k' H. unfold choose_multi in H.
  destruct (multi_sends now ct cb ws 0 m k) as [[[o1 m1] i1] k1] eqn:E.
  assert (Hm := E). apply multi_sends_clocks in Hm. subst m1.
  assert (Hi := E). apply multi_sends_served in Hi. destruct Hi as [Hi1 Hi2].
  assert (Hk : (k <= k1)%nat).
  { clear -E. revert E. generalize 0%nat. revert m k o1 i1 k1.
    induction ws as [|w ws IH]; intros m k o1 i1 k1 i0 E; cbn in E; [inversion E; lia|].
    assert (Hn : (k <= r_next (tsend_without_reset now (ct i0) (cb i0) w m k))%nat).
    { unfold tsend_without_reset, body.
      assert (Htt : forall snd c k0, (k0 <= r_next (transfer_timeout now (ct i0) snd false w m c k0))%nat).
      { intros snd c k0. unfold transfer_timeout. destruct (u64_of (w_end w)); cbn; [|lia].
        destruct (z * second - elapsed (now k0) c <? 0); cbn; [lia|].
        destruct (ct i0 (z * second - elapsed (now k0) c) (now (S k0))) as [[|] t]; cbn; lia. }
      assert (Htb : forall snd k0, (k0 <= r_next (transfer_block now (cb i0) snd false w m k0))%nat).
      { intros snd k0. unfold transfer_block. destruct (cb i0 (now k0)) as [[[|] t]|]; cbn; lia. }
      assert (Hg : forall test f, (forall c k0 v k1, test c k0 = (v, k1) -> (k0 <= k1)%nat) ->
                (forall c k0, (k0 <= r_next (f false c k0))%nat) ->
                (k <= r_next (guarded_nr w m k test f))%nat).
      { intros test f Ht Hf. unfold guarded_nr. destruct (m (w_clock w)); [|cbn; lia].
        destruct (test z k) as [[| |] k2] eqn:Et; apply Ht in Et; cbn; try lia.
        specialize (Hf z k2). lia. }
      destruct (w_start w <? 0).
      - destruct (0 <=? w_end w).
        + apply Hg; [|intros; apply Htt]. intros c k0 v k2 Et. eapply test_next. right. left. exact Et.
        + destruct (negb (w_incl_start w) && negb (w_incl_end w)); [apply Htb|cbn; lia].
      - destruct (w_end w <? 0).
        + apply Hg; [|intros; apply Htb]. intros c k0 v k2 Et. eapply test_next. left. exact Et.
        + destruct (w_end w <? w_start w); [cbn; lia|].
          apply Hg; [|intros; apply Htt]. intros c k0 v k2 Et. eapply test_next. right. right. exact Et. }
    rewrite nr_clocks in E.
    destruct (r_out (tsend_without_reset now (ct i0) (cb i0) w m k));
      try (injection E as _ _ <-; exact Hn).
    apply IH in E. lia. }
  destruct o1; try (inversion H; subst; split; [reflexivity|discriminate]).
  destruct (reset_all now (filter (fun c => negb (Nat.eqb c no_reset)) (map w_reset ws)) m k1)
    as [[o2 m2] k2] eqn:E2.
  inversion H; subst. apply reset_all_spec in E2. destruct E2 as (H1 & H2 & H3 & _). split.
  - intros x Hx. apply H1. intros Hf. apply filter_In in Hf. destruct Hf as [Hf1 Hf2].
    destruct Hx as [Hx|Hx]; [contradiction|]. subst x. rewrite Nat.eqb_refl in Hf2. discriminate.
  - intros Ho. split; [rewrite Hi2; reflexivity|]. intros x Hx Hne.
    destruct (H2 Ho x) as (j & Hj & Hj').
    + apply filter_In. split; [exact Hx|]. destruct (Nat.eqb_spec x no_reset); [contradiction|reflexivity].
    + exists j. split; [lia|exact Hj'].
Qed.
Print Assumptions timed_multi_choice_resets.

(** With the same window towards every receiver, ready receivers and the clock standing still,
    either all receivers are served or none. *)
Theorem timed_multi_choice_all_or_none : forall now t ct cb w n m k o m' i k',
  (forall j, now j = t) ->
  (forall a d t0, fst (ct a d t0) = true) -> (forall a t0, exists t', cb a t0 = Some (true, t')) ->
  multi_sends now ct cb (repeat w n) 0 m k = (o, m', i, k') ->
  (o = Ok /\ i = n) \/ i = 0%nat.
Proof.
  intros now t ct cb w n m k o m' i k' Hn Hct Hcb H.
  exact (multi_sends_all_or_none now t ct cb w n 0 m k o m' i k' Hn Hct Hcb H).
Qed.
Print Assumptions timed_multi_choice_all_or_none.

(** The generated timed choose_left/choose_right violate this: the first send resets the clock and
    the second receiver is refused. Window [1, 5] with reset of its own clock, two receivers, clock
    at 2 s standing still. *)
Theorem timed_baked_choice_all_or_none_refuted :
  exists now t ct cb w n m k m' k',
    (forall j, now j = t) /\
    (forall a d t0, fst (ct a d t0) = true) /\ (forall a t0, exists t', cb a t0 = Some (true, t')) /\
    n = 2%nat /\ choose_baked now ct cb (repeat w n) m k = (Panic OutOfWindow, m', 1%nat, k').
Proof.
  exists (fun _ => 2 * second), (2 * second), (fun _ => ex_ready), (fun _ => ex_ready_block),
    (Window 97 1 true 5 true 97), 2%nat, ex_clocks, 0%nat.
  do 2 eexists. split; [reflexivity|]. split; [reflexivity|].
  split; [intros; eexists; reflexivity|]. split; [reflexivity|]. cbv. reflexivity.
Qed.
Print Assumptions timed_baked_choice_all_or_none_refuted.

Example timed_multi_choice_example :
  exists m' k', choose_multi (fun _ => 2 * second) (fun _ => ex_ready) (fun _ => ex_ready_block)
    (repeat (Window 97 1 true 5 true 97) 2) ex_clocks 0 = (Ok, m', 2%nat, k') /\
    m' 97%nat = Some (2 * second).
Proof. do 2 eexists. split; [cbv; reflexivity|]. reflexivity. Qed.
