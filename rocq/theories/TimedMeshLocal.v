(** Steps of the timed machine look only at the readings they make. *)
From Coq Require Import List Arith ZArith Bool Lia.
From Verif Require Import Types Wiring Session Mesh MeshWait Timed TimedProofs TimedMesh TimedMeshProofs TimedMeshPlan Global.
Import ListNotations.
Open Scope nat_scope.

(** ** One operation *)

Definition same_from (k : nat) (f f' : nat -> Z) : Prop := forall j, k <= j -> f j = f' j.
Lemma same_le : forall k k' f f', k <= k' -> same_from k f f' -> same_from k' f f'.
Proof. intros k k' f f' H E j Hj. apply E. lia. Qed.

Section Local.
  Variables f f' : nat -> Z.

  Lemma lo_local : forall w c k, same_from k f f' -> test_lo f w c k = test_lo f' w c k.
  Proof. intros w c k E. unfold test_lo. rewrite (E k (le_n k)). reflexivity. Qed.
  Lemma hi_local : forall w c k, same_from k f f' -> test_hi f w c k = test_hi f' w c k.
  Proof. intros w c k E. unfold test_hi. rewrite (E k (le_n k)). reflexivity. Qed.
  Lemma lo_next : forall w c k v k', test_lo f w c k = (v, k') -> k <= k'.
  Proof. intros w c k v k' E. unfold test_lo in E. destruct (u64_of (w_start w)); injection E as _ <-; lia. Qed.
  Lemma hi_next : forall w c k v k', test_hi f w c k = (v, k') -> k <= k'.
  Proof. intros w c k v k' E. unfold test_hi in E. destruct (u64_of (w_end w)); injection E as _ <-; lia. Qed.
  Lemma both_local : forall w c k, same_from k f f' -> test_both f w c k = test_both f' w c k.
  Proof.
    intros w c k E. unfold test_both. rewrite <- (lo_local w c k E). destruct (test_lo f w c k) as [[] k1] eqn:E1; try reflexivity.
    apply hi_local. eapply same_le; [eapply lo_next; exact E1|exact E].
  Qed.
  Lemma both_next : forall w c k v k', test_both f w c k = (v, k') -> k <= k'.
  Proof.
    intros w c k v k' E. unfold test_both in E. destruct (test_lo f w c k) as [v1 k1] eqn:E1. apply lo_next in E1.
    destruct v1; try (injection E as _ <-; exact E1). apply hi_next in E. lia.
  Qed.
  Lemma finish_local : forall d w m a k, same_from k f f' -> finish f d w m a k = finish f' d w m a k.
  Proof. intros d w m a k E. unfold finish. destruct d; [|reflexivity]. destruct (m (w_reset w)); [|reflexivity]. rewrite (E k (le_n k)). reflexivity. Qed.
  Lemma finish_next : forall d w m a k, k <= r_next (finish f d w m a k).
  Proof. intros d w m a k. unfold finish. destruct d; [|cbn; lia]. destruct (m (w_reset w)); cbn; lia. Qed.
  Lemma timeout_local : forall s d w m c k, same_from k f f' ->
    transfer_timeout f ready_timeout s d w m c k = transfer_timeout f' ready_timeout s d w m c k.
  Proof.
    intros s d w m c k E. unfold transfer_timeout. destruct (u64_of (w_end w)) as [b|]; [|reflexivity]. cbv zeta.
    rewrite (E k (le_n k)). destruct (b * second - elapsed (f' k) c <? 0)%Z; [reflexivity|]. unfold ready_timeout.
    rewrite (E (S k) (Nat.le_succ_diag_r k)). apply finish_local. eapply same_le; [|exact E]. lia.
  Qed.
  Lemma timeout_next : forall s d w m c k, k <= r_next (transfer_timeout f ready_timeout s d w m c k).
  Proof.
    intros s d w m c k. unfold transfer_timeout. destruct (u64_of (w_end w)) as [b|]; [|cbn; lia]. cbv zeta.
    destruct (b * second - elapsed (f k) c <? 0)%Z; [cbn; lia|]. unfold ready_timeout.
    pose proof (finish_next d w m (f (S k)) (S (S k))). lia.
  Qed.
  Lemma block_local : forall s d w m k, same_from k f f' ->
    transfer_block f ready_block s d w m k = transfer_block f' ready_block s d w m k.
  Proof.
    intros s d w m k E. unfold transfer_block, ready_block. rewrite (E k (le_n k)). apply finish_local.
    eapply same_le; [|exact E]. lia.
  Qed.
  Lemma block_next : forall s d w m k, k <= r_next (transfer_block f ready_block s d w m k).
  Proof. intros s d w m k. unfold transfer_block, ready_block. pose proof (finish_next d w m (f k) (S k)). lia. Qed.

  Lemma guarded_local : forall w m k t t' tr tr',
    (forall c j, k <= j -> t c j = t' c j) -> (forall c j v j', t c j = (v, j') -> j <= j') ->
    (forall d c j, k <= j -> tr d c j = tr' d c j) ->
    guarded w m k t tr = guarded w m k t' tr' /\ guarded_nr w m k t tr = guarded_nr w m k t' tr'.
  Proof.
    intros w m k t t' tr tr' Ht Hn Hr. unfold guarded, guarded_nr. destruct (m (w_clock w)) as [c|]; [|split; reflexivity].
    rewrite <- (Ht c k (le_n k)). destruct (t c k) as [v k1] eqn:E1. pose proof (Hn _ _ _ _ E1) as L1.
    split.
    - destruct v; try reflexivity;
        (match goal with |- (if ?b then _ else _) = _ => destruct b; [apply Hr, L1|] end; rewrite <- (Ht c k1 L1);
         destruct (t c k1) as [v2 k2] eqn:E2; pose proof (Hn _ _ _ _ E2); destruct v2; try reflexivity; apply Hr; lia).
    - destruct v; try reflexivity. apply Hr, L1.
  Qed.
  Lemma guarded_next : forall w m k t tr, (forall c j v j', t c j = (v, j') -> j <= j') ->
    (forall d c j, j <= r_next (tr d c j)) -> k <= r_next (guarded w m k t tr) /\ k <= r_next (guarded_nr w m k t tr).
  Proof.
    intros w m k t tr Hn Hr. unfold guarded, guarded_nr. destruct (m (w_clock w)) as [c|]; [|cbn; lia].
    destruct (t c k) as [v k1] eqn:E1. pose proof (Hn _ _ _ _ E1) as L1.
    assert (K : forall d j, k <= j -> k <= r_next (tr d c j)) by (intros d j Hj; specialize (Hr d c j); lia).
    split.
    - destruct v; try (cbn; lia);
        (match goal with |- _ <= r_next (if ?b then _ else _) => destruct b; [apply K, L1|] end;
         destruct (t c k1) as [v2 k2] eqn:E2; pose proof (Hn _ _ _ _ E2); destruct v2; try (cbn; lia); apply K; lia).
    - destruct v; try (cbn; lia). apply K, L1.
  Qed.

  Lemma body_local : forall s (nr : bool) w m k, same_from k f f' ->
    Timed.body f ready_timeout ready_block s (if nr then guarded_nr w m k else guarded w m k) w m k =
    Timed.body f' ready_timeout ready_block s (if nr then guarded_nr w m k else guarded w m k) w m k.
  Proof.
    intros s nr w m k E.
    assert (T : forall d c j, k <= j -> transfer_timeout f ready_timeout s d w m c j = transfer_timeout f' ready_timeout s d w m c j).
    { intros d c j Hj. apply timeout_local. eapply same_le; [exact Hj|exact E]. }
    assert (B : forall d (c : Z) j, k <= j -> transfer_block f ready_block s d w m j = transfer_block f' ready_block s d w m j).
    { intros d c j Hj. apply block_local. eapply same_le; [exact Hj|exact E]. }
    unfold Timed.body. destruct (w_start w <? 0)%Z; [destruct (0 <=? w_end w)%Z|destruct (w_end w <? 0)%Z; [|destruct (w_end w <? w_start w)%Z; [reflexivity|]]].
    - destruct (guarded_local w m k (test_hi f w) (test_hi f' w) _ _
                  (fun c j Hj => hi_local w c j (same_le _ _ _ _ Hj E)) (fun c j v j' H => hi_next w c j v j' H) T) as [G1 G2].
      destruct nr; assumption.
    - destruct (negb (w_incl_start w) && negb (w_incl_end w)); [|reflexivity]. apply block_local, E.
    - destruct (guarded_local w m k (test_lo f w) (test_lo f' w) _ _
                  (fun c j Hj => lo_local w c j (same_le _ _ _ _ Hj E)) (fun c j v j' H => lo_next w c j v j' H) B) as [G1 G2].
      destruct nr; assumption.
    - destruct (guarded_local w m k (test_both f w) (test_both f' w) _ _
                  (fun c j Hj => both_local w c j (same_le _ _ _ _ Hj E)) (fun c j v j' H => both_next w c j v j' H) T) as [G1 G2].
      destruct nr; assumption.
  Qed.
  Lemma body_next : forall s (nr : bool) w m k,
    k <= r_next (Timed.body f ready_timeout ready_block s (if nr then guarded_nr w m k else guarded w m k) w m k).
  Proof.
    intros s nr w m k. unfold Timed.body. destruct (w_start w <? 0)%Z; [destruct (0 <=? w_end w)%Z|destruct (w_end w <? 0)%Z; [|destruct (w_end w <? w_start w)%Z; [cbn; lia|]]].
    - destruct (guarded_next w m k (test_hi f w) (fun d c j => transfer_timeout f ready_timeout s d w m c j)
                  (fun c j v j' H => hi_next w c j v j' H) (fun d c j => timeout_next s d w m c j)) as [G1 G2]. destruct nr; assumption.
    - destruct (negb (w_incl_start w) && negb (w_incl_end w)); [apply block_next|cbn; lia].
    - destruct (guarded_next w m k (test_lo f w) (fun d c j => transfer_block f ready_block s d w m j)
                  (fun c j v j' H => lo_next w c j v j' H) (fun d c j => block_next s d w m j)) as [G1 G2]. destruct nr; assumption.
    - destruct (guarded_next w m k (test_both f w) (fun d c j => transfer_timeout f ready_timeout s d w m c j)
                  (fun c j v j' H => both_next w c j v j' H) (fun d c j => timeout_next s d w m c j)) as [G1 G2]. destruct nr; assumption.
  Qed.

  Lemma run_local : forall o w m k, same_from k f f' ->
    run o f ready_timeout ready_block w m k = run o f' ready_timeout ready_block w m k.
  Proof.
    intros o w m k E. destruct o; cbn [run]; unfold tsend, tsend_without_reset, trecv.
    - destruct (w_end w <? w_start w)%Z; [reflexivity|]. exact (body_local true false w m k E).
    - exact (body_local true true w m k E).
    - destruct (w_end w <? w_start w)%Z; [reflexivity|]. exact (body_local false false w m k E).
  Qed.
  Lemma run_next : forall o w m k, k <= r_next (run o f ready_timeout ready_block w m k).
  Proof.
    intros o w m k. destruct o; cbn [run]; unfold tsend, tsend_without_reset, trecv.
    - destruct (w_end w <? w_start w)%Z; [cbn; lia|]. exact (body_next true false w m k).
    - exact (body_next true true w m k).
    - destruct (w_end w <? w_start w)%Z; [cbn; lia|]. exact (body_next false false w m k).
  Qed.
  Lemma reset_local : forall cs m k, same_from k f f' -> reset_all f cs m k = reset_all f' cs m k.
  Proof.
    induction cs as [|c cs IH]; intros m k E; cbn; [reflexivity|]. destruct (m c); [|reflexivity].
    rewrite (E k (le_n k)). apply IH. eapply same_le; [|exact E]. lia.
  Qed.
  Lemma reset_next : forall cs m k o m' k', reset_all f cs m k = (o, m', k') -> k <= k'.
  Proof.
    induction cs as [|c cs IH]; intros m k o m' k' E; cbn in E; [injection E as _ _ <-; lia|].
    destruct (m c); [|injection E as _ _ <-; lia]. apply IH in E. lia.
  Qed.
End Local.

(** ** One operation whose readings are all the same *)

(** The number of readings of a timed send or recv that works, its window having both bounds. *)
Definition readings (w : window) : nat := if w_reset w =? no_reset then 6 else 5.

Lemma timed_run : forall o f w m k c u, o <> OSendNoReset -> m (w_clock w) = Some c ->
  (0 <= w_start w <= w_end w)%Z -> (w_end w <= u64_max)%Z ->
  w_reset w = no_reset \/ m (w_reset w) <> None ->
  well_inside w (elapsed u c) -> (forall j, k <= j < k + readings w -> f j = u) ->
  run o f ready_timeout ready_block w m k =
  Result Timed.Ok (if w_reset w =? no_reset then m else set_clock m (w_reset w) u) true u (k + readings w).
Proof.
  intros o f w m k c u Ho Hc Hb Hu Hr Hin Hf.
  assert (Hu0 : (0 <= w_start w <= u64_max)%Z) by lia. assert (Hu1 : (0 <= w_end w <= u64_max)%Z) by lia.
  assert (R5 : 5 <= readings w) by (unfold readings; destruct (w_reset w =? no_reset); lia).
  assert (T : forall j, k <= j -> j + 1 < k + readings w -> test_both f w c j = (Yes, S (S j))).
  { intros j H1 H2. unfold test_both. rewrite (test_lo_inside f w c j Hu0); [|rewrite Hf by lia; exact Hin].
    apply test_hi_inside; [exact Hu1|]. rewrite Hf by lia. apply Hin. }
  assert (X : forall s d j, k <= j -> j + 1 < k + readings w ->
            transfer_timeout f ready_timeout s d w m c j = finish f d w m u (S (S j))).
  { intros s d j H1 H2. unfold transfer_timeout. rewrite (u64_of_ok (w_end w) Hu1). cbv zeta. rewrite (Hf j) by lia.
    destruct Hin as [Hin _]. apply in_window_upper in Hin; [|lia].
    destruct (Z.ltb_spec (w_end w * second - elapsed u c) 0) as [L|L]; [lia|]. unfold ready_timeout. rewrite Hf by lia. reflexivity. }
  assert (B : forall s, Timed.body f ready_timeout ready_block s (guarded w m k) w m k =
            Result Timed.Ok (if w_reset w =? no_reset then m else set_clock m (w_reset w) u) true u (k + readings w)).
  { intros s. unfold Timed.body. destruct (Z.ltb_spec (w_start w) 0) as [L|L]; [lia|]. destruct (Z.ltb_spec (w_end w) 0) as [L1|L1]; [lia|].
    destruct (Z.ltb_spec (w_end w) (w_start w)) as [L2|L2]; [lia|]. unfold guarded. rewrite Hc, (T k) by lia.
    unfold readings in *. destruct (Nat.eqb_spec (w_reset w) no_reset) as [E|E]; cbn [negb andb].
    - rewrite T by lia. rewrite X by lia. unfold finish. f_equal. lia.
    - rewrite X by lia. unfold finish. destruct Hr as [Hr|Hr]; [contradiction|]. destruct (m (w_reset w)); [|contradiction].
      rewrite Hf by lia. f_equal. lia. }
  destruct (Z.ltb_spec (w_end w) (w_start w)) as [L|L]; [lia|].
  destruct o; cbn [run]; unfold tsend, trecv; try contradiction; destruct (Z.ltb_spec (w_end w) (w_start w)); try lia; apply B.
Qed.

Lemma free_run : forall o f m k, run o f ready_timeout ready_block free_window m k = Result Timed.Ok m true (f k) (S k).
Proof. intros [] f m k; reflexivity. Qed.

Lemma kept_free : forall f m k, kept f m k free_window.
Proof. intros f m k. split; [left; reflexivity|]. split; [cbn; unfold u64_max; lia|]. left. cbn. split; [lia|]. auto. Qed.

(** ** Steps and runs *)

Section Runs.
  Context {S H : Type}.
  Variable O : ops S H.
  Variable n : nat.
  Variable branch : nat -> nat -> nat -> mty.
  Variable branchw : nat -> nat -> nat -> list (list window).
  Variable labels : nat -> nat.
  Notation ttstep := (ttstep O n branch branchw labels).
  Notation texec := (texec O n branch branchw labels).

  Lemma ttstep_local : forall now now' p i tt s, same_from (tm_next tt) (now p) (now' p) ->
    ttstep now p i tt s = ttstep now' p i tt s.
  Proof.
    intros now now' p i tt s E. unfold TimedMesh.ttstep. cbv zeta.
    pose proof (fun w => run_local _ _ OSend w (tm_clocks tt) (tm_next tt) E) as L1.
    pose proof (fun w => run_local _ _ OSendNoReset w (tm_clocks tt) (tm_next tt) E) as L2.
    pose proof (fun w => run_local _ _ ORecv w (tm_clocks tt) (tm_next tt) E) as L3. cbn [run] in L1, L2, L3.
    destruct (t_trash (tm_thr tt)); [|reflexivity]. destruct (tm_dead tt); [reflexivity|].
    rewrite (E (tm_next tt) (le_n _)).
    destruct (t_prog (tm_thr tt)) as [ss [| |x r|? ?|? ? ?|? ? ?] hs|b l [|[[x h] ms] pend] own|a r hs|res|hs]; try reflexivity.
    - rewrite L1, L3. reflexivity.
    - rewrite (reset_local _ _ _ _ _ E). reflexivity.
    - rewrite L2. reflexivity.
  Qed.

  Lemma ttstep_next : forall now p i tt s tt' s', ttstep now p i tt s = Some (tt', s') -> tm_next tt <= tm_next tt'.
  Proof.
    intros now p i tt s tt' s' E.
    assert (L : forall r, lift tt r = Some (tt', s') -> tm_next tt <= tm_next tt').
    { intros r El. apply lift_some in El as (_ & _ & _ & -> & _). lia. }
    assert (Q : forall o w j wins todo, timed_op O n branch labels (run o (now p) ready_timeout ready_block w (tm_clocks tt) (tm_next tt)) p j tt s wins todo = Some (tt', s') ->
              tm_next tt <= tm_next tt').
    { intros o w j wins todo Et. unfold timed_op in Et. pose proof (run_next (now p) o w (tm_clocks tt) (tm_next tt)) as G.
      destruct (r_handed _); [|eapply L; exact Et].
      destruct (TimedMesh.mesh O n branch labels p j tt s) as [[th s1]|]; [|discriminate].
      destruct (t_prog th); try (injection Et as <- <-; apply le_n); destruct (r_out _); injection Et as <- <-; exact G. }
    pose proof (Q OSend) as Q1. pose proof (Q OSendNoReset) as Q2. pose proof (Q ORecv) as Q3. clear Q. cbn [run] in Q1, Q2, Q3.
    unfold TimedMesh.ttstep in E. cbv zeta in E.
    destruct (t_trash (tm_thr tt)); [|destruct i as [[]| |]; try discriminate; eauto].
    destruct (tm_dead tt); [destruct i as [[]| |]; try discriminate; eauto|].
    destruct i as [i| |c].
    - destruct i as [|v|l|]; eauto;
        (destruct (t_prog (tm_thr tt)) as [ss [| |x r|? ?|? ? ?|? ? ?] hs|b l0 [|[[x h] ms] pend] own|a r hs|res|hs]; try discriminate; eauto;
         [destruct (callable n p x); [|discriminate];
          destruct (nth_error ss (comm_field p x - 1)) as [[|[t|b j] k|[t|b j] [| |]]|]; try discriminate; eauto; try (destruct (j =? p); [eauto|discriminate])
         |..]).
      destruct (reset_all (now p) (tm_todo tt) (tm_clocks tt) (tm_next tt)) as [[[] m'] k'] eqn:Er; eauto.
      destruct (TimedMesh.mesh O n branch labels p ITau tt s) as [[th s1]|]; [|discriminate]. injection E as <- <-. eapply reset_next; exact Er.
    - destruct (t_prog (tm_thr tt)) as [ss [| |x r|? ?|? ? ?|? ? ?] hs|b l0 [|[[x h] ms] pend] own|a r hs|res|hs]; try discriminate; eauto.
      destruct (callable n p x); [|discriminate].
      destruct (nth_error ss (comm_field p x - 1)) as [[|[t|b j] k|[t|b j] [| |]]|]; try discriminate; eauto;
        match type of E with (if ?c then _ else _) = _ => destruct c; [|discriminate] end;
        (destruct (TimedMesh.mesh O n branch labels p ITau tt s); [discriminate|eauto]).
    - destruct (t_prog (tm_thr tt)); try discriminate; injection E as <- <-; cbn; lia.
  Qed.

  Lemma texec_local : forall now now' p i st, same_from (tm_next (ts_thr st p)) (now p) (now' p) ->
    texec now p i st = texec now' p i st.
  Proof. intros now now' p i st E. unfold TimedMesh.texec. rewrite (ttstep_local now now' p i _ _ E). reflexivity. Qed.
  Lemma texec_next : forall now p i st st' q, texec now p i st = Some st' -> tm_next (ts_thr st q) <= tm_next (ts_thr st' q).
  Proof.
    intros now p i st st' q E. destruct (texec_inv _ _ _ _ _ _ p i st st' E) as (_ & tt & s & Et & ->). cbn.
    destruct (Nat.eqb_spec q p) as [->|]; [|lia]. eapply ttstep_next; exact Et.
  Qed.

  (** Runs that keep real time and all windows. *)
  Definition good cs now left v st tr st' v' : Prop :=
    on_clock O n branch branchw labels now cs left v st tr st' v' /\ punctual O n branch branchw labels now st tr st'.

  Lemma good_local : forall cs now now' left v st tr st' v', good cs now left v st tr st' v' ->
    (forall q, same_from (tm_next (ts_thr st q)) (now q) (now' q)) -> good cs now' left v st tr st' v'.
  Proof.
    intros cs now now' left v st tr st' v' [A B]. revert B.
    induction A as [left v st|left v u st p i st1 tr st2 v' Hv Ex Hr Ht A IH]; intros B E.
    - split; constructor.
    - inversion B as [|? ? ? st1' ? ? Ex' Q1 Q2 Hon B']; subst. assert (st1' = st1) by congruence. subst st1'.
      destruct (IH B') as [A1 B1].
      { intros q. eapply same_le; [eapply texec_next; exact Ex|apply E]. }
      rewrite (texec_local now now' p i st (E p)) in Ex. split.
      + apply on_clock_cons with (u := u) (st1 := st1); try assumption. intros k Hk. rewrite <- (E p) by lia. apply Hr, Hk.
      + apply punctual_cons with (st1 := st1); try assumption. intros H1 H2 w Hw. destruct (Hon H1 H2 w Hw) as (K1 & K2 & K3).
        split; [exact K1|]. split; [exact K2|]. destruct K3 as [K3|(K3 & c & Kc & Kj)]; [left; exact K3|right].
        split; [exact K3|]. exists c. split; [exact Kc|]. intros j Hj. rewrite <- (E p) by lia. apply Kj, Hj.
  Qed.

  (** A step at instant u, in front of a run that starts at u. *)
  Lemma good_cons : forall cs left v u st p i st1 now tr st2 v', (v <= u)%Z -> i <> TIn ICrash -> i <> TTimeout ->
    (forall now, (forall k, tm_next (ts_thr st p) <= k < tm_next (ts_thr st1 p) -> now p k = u) ->
       texec now p i st = Some st1 /\
       (is_clock i = false -> t_trash (tm_thr (ts_thr st p)) = [] -> on_time (now p) p (ts_thr st p))) ->
    turn p i st left ->
    good cs now (left_after cs p i st st1 left) u st1 tr st2 v' ->
    exists now', good cs now' left v st ((p, i) :: tr) st2 v'.
  Proof.
    intros cs left v u st p i st1 now tr st2 v' Hv Q1 Q2 Hx Ht G.
    set (now' := fun q k => if (q =? p) && (k <? tm_next (ts_thr st1 p)) then u else now q k). exists now'.
    destruct (Hx now') as [Ex Hon].
    { intros k Hk. unfold now'. rewrite Nat.eqb_refl. destruct (Nat.ltb_spec k (tm_next (ts_thr st1 p))); [reflexivity|lia]. }
    assert (G' : good cs now' (left_after cs p i st st1 left) u st1 tr st2 v').
    { eapply good_local; [exact G|]. intros q j Hj. unfold now'. destruct (Nat.eqb_spec q p) as [->|]; [|reflexivity].
      destruct (Nat.ltb_spec j (tm_next (ts_thr st1 p))); [lia|reflexivity]. }
    destruct G' as [A B]. split.
    - apply on_clock_cons with (u := u) (st1 := st1); try assumption. intros k Hk. unfold now'. rewrite Nat.eqb_refl.
      destruct (Nat.ltb_spec k (tm_next (ts_thr st1 p))); [reflexivity|lia].
    - apply punctual_cons with (st1 := st1); assumption.
  Qed.
End Runs.
