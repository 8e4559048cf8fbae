(** The concrete machine: two runs of the same deterministic programs. *)
From Coq Require Import List Arith Bool Lia Permutation.
From Verif Require Import Types Diag DiagProofs Wiring WiringProofs Session Mesh MeshSpec Links LinksProofs Refine Sim
  MeshWire MeshInv MeshStep MeshKeep MeshSafe MeshRounds MeshRun MeshLog MeshReach MeshSignal MeshClean TidySpec MeshTidy MeshDet
  Global MeshGlobal.
Import ListNotations.

Lemma visible_map : forall A B (g : A -> B) th, visible (map_thread g th) = visible th.
Proof.
  intros A B g [pr tr r lo]. unfold visible, map_thread. cbn. rewrite map_length. destruct pr; reflexivity.
Qed.

Lemma inp_eq_dec : forall a b : nat * inp, {a = b} + {a <> b}.
Proof. decide equality; [decide equality; apply Nat.eq_dec|apply Nat.eq_dec]. Defined.

Lemma count_occ_own : forall p i tr, count_occ inp_eq_dec (own p tr) (p, i) = count_occ inp_eq_dec tr (p, i).
Proof.
  intros p i. induction tr as [|[q j] tr IH]; [reflexivity|]. unfold own in *. cbn [filter fst].
  destruct (Nat.eqb_spec q p) as [->|Hne].
  - cbn [count_occ]. rewrite IH. reflexivity.
  - rewrite IH. cbn [count_occ]. destruct (inp_eq_dec (q, j) (p, i)); [congruence|reflexivity].
Qed.

Lemma own_perm : forall a b, (forall p, own p a = own p b) -> Permutation a b.
Proof.
  intros a b H. apply (Permutation_count_occ inp_eq_dec). intros [p i]. rewrite <- (count_occ_own p i a), <- (count_occ_own p i b), H. reflexivity.
Qed.

(** Lengths are sums of counts. *)
Lemma list_sum_seq : forall k m p, list_sum (map (fun q => if p =? q then 1 else 0) (seq k m)) =
  if (k <=? p) && (p <? k + m) then 1 else 0.
Proof.
  intros k m. revert k. induction m as [|m IH]; intros k p; cbn [seq map list_sum].
  - replace (k + 0) with k by lia. destruct (Nat.leb_spec k p), (Nat.ltb_spec p k); try lia; reflexivity.
  - change (list_sum (?x :: ?l)) with (x + list_sum l). rewrite IH.
    destruct (Nat.eqb_spec p k); destruct (Nat.leb_spec (S k) p), (Nat.ltb_spec p (S k + m));
      destruct (Nat.leb_spec k p), (Nat.ltb_spec p (k + S m)); cbn [andb]; try lia; try lia.
Qed.

Lemma list_sum_plus : forall (f g : nat -> nat) l, list_sum (map (fun x => f x + g x) l) = list_sum (map f l) + list_sum (map g l).
Proof.
  intros f g. induction l as [|x l IH]; [reflexivity|]. cbn [map]. change (list_sum (?x :: ?l)) with (x + list_sum l). rewrite IH. lia.
Qed.

Lemma length_counts : forall n tr, (forall p i, In (p, i) tr -> 1 <= p <= n) -> length tr = list_sum (map (fun p => count p tr) (seq 1 n)).
Proof.
  intros n tr. induction tr as [|[p i] tr IH]; intros H.
  - cbn. induction (seq 1 n) as [|x l IH]; [reflexivity|]. cbn. exact IH.
  - rewrite (map_ext _ (fun q => (if p =? q then 1 else 0) + count q tr)).
    + rewrite list_sum_plus, list_sum_seq, <- IH by (intros; eapply H; right; eauto).
      pose proof (H p i (or_introl eq_refl)). destruct (Nat.leb_spec 1 p), (Nat.ltb_spec p (1 + n)); cbn; lia.
    + intros q. unfold count, own. cbn [filter fst]. destruct (p =? q); reflexivity.
Qed.

Lemma sum_le : forall (f g : nat -> nat) l, (forall x, In x l -> f x <= g x) -> list_sum (map f l) <= list_sum (map g l).
Proof.
  intros f g. induction l as [|x l IH]; intros H; [cbn; lia|]. cbn [map]. change (list_sum (?x :: ?l)) with (x + list_sum l).
  pose proof (H x (or_introl eq_refl)). assert (list_sum (map f l) <= list_sum (map g l)) by (apply IH; intros; apply H; right; assumption). lia.
Qed.

Section Sched.
  Variable n : nat.
  Variable branch : nat -> nat -> nat -> mty.
  Variable labels : nat -> nat.
  Variable strict : bool.
  Hypothesis branch_dual : forall b l, l < labels b -> dual_mesh n (branch b l).
  Hypothesis branch_tidy : forall b l, l < labels b -> tidy_mesh n (branch b l).
  Variable T : nat -> mty.
  Hypothesis T_dual : dual_mesh n T.
  Hypothesis T_tidy : tidy_mesh n T.
  Variable f : programs.

  Notation hstate := (@state heap ep).
  Notation init_l := (init link_ops n T empty_links).
  Notation init_h := (init heap_ops n T empty_heap).
  Notation exec_l := (exec link_ops n branch labels strict).
  Notation exec_h := (exec heap_ops n branch labels strict).
  Notation runs_l := (runs link_ops n branch labels strict init_l f).
  Notation runs_h := (runs heap_ops n branch labels strict init_h f).
  Notation complete_h := (complete heap_ops n branch labels strict f).
  Notation complete_l := (complete link_ops n branch labels strict f).
  Notation inv := (inv n branch labels).

  Lemma exec_range : forall S H (O : ops S H) p i st st', exec O n branch labels strict p i st = Some st' -> 1 <= p <= n.
  Proof.
    intros S H O p i st st' E. unfold exec in E. destruct ((1 <=? p) && (p <=? n)) eqn:Eb; [|discriminate].
    apply andb_true_iff in Eb. rewrite !Nat.leb_le in Eb. exact Eb.
  Qed.

  Lemma runs_range : forall tr sh, runs_h tr sh -> forall p i, In (p, i) tr -> 1 <= p <= n.
  Proof.
    intros tr sh H. induction H as [|tr st p i st' _ IH _ Hx]; intros q j Hin; [contradiction|].
    apply in_app_or in Hin. destruct Hin as [Hin|[E|[]]]; [eapply IH; eauto|]. injection E as <- <-. eapply exec_range; eauto.
  Qed.

  Lemma runs_follow : forall tr sh, runs_h tr sh -> exists sl e, runs_l tr sl /\ inv (st_store sl) (st_thr sl) /\ follows n e sh sl.
  Proof.
    intros tr sh H. induction H as [|tr sh p i sh' H (sl & e & Hl & I & F) Hd Hx].
    - destruct (init_follows n T T_dual) as [e F]. exists init_l, e. split; [constructor|]. split; [apply init_inv; assumption|exact F].
    - pose proof (exec_follows n branch labels strict p i e sh sl I F) as HE. rewrite Hx in HE.
      destruct (exec_l p i sl) as [sl'|] eqn:El; [|contradiction]. destruct HE as [e' F'].
      assert (Hp : 1 <= p <= n) by (eapply exec_range; eauto).
      assert (Ht : t_log (st_thr sh p) = t_log (st_thr sl p)) by (destruct F as [_ F]; rewrite (F p Hp); reflexivity).
      exists sl', e'. split; [econstructor; eauto; rewrite <- Ht; exact Hd|]. split; [|exact F'].
      destruct sl as [L thr]. eapply exec_inv; eauto.
  Qed.

  Lemma complete_follow : forall e sh sl, inv (st_store sl) (st_thr sl) -> follows n e sh sl -> complete_h sh -> complete_l sl.
  Proof.
    intros e sh sl I F C p i Hd. destruct (exec_l p i sl) as [sl'|] eqn:El; [|reflexivity]. exfalso.
    assert (Hp : 1 <= p <= n) by (eapply exec_range; eauto).
    pose proof (exec_follows n branch labels strict p i e sh sl I F) as HE. rewrite El in HE.
    rewrite (C p i) in HE; [exact HE|]. destruct F as [_ F]. rewrite (F p Hp). exact Hd.
  Qed.

  Lemma visible_follow : forall e sh sl p, follows n e sh sl -> 1 <= p <= n -> visible (st_thr sh p) = visible (st_thr sl p).
  Proof. intros e sh sl p [_ F] Hp. rewrite (F p Hp). apply visible_map. Qed.

  Theorem sched_same : forall trA stA trB stB p, runs_h trA stA -> runs_h trB stB -> 1 <= p <= n ->
    count p trA = count p trB -> visible (st_thr stA p) = visible (st_thr stB p) /\ own p trA = own p trB.
  Proof.
    intros trA stA trB stB p HA HB Hp Hc.
    destruct (runs_follow _ _ HA) as (sA & eA & RA & IA & FA). destruct (runs_follow _ _ HB) as (sB & eB & RB & IB & FB).
    destruct (same_count n branch labels strict branch_dual branch_tidy T T_dual T_tidy f trA sA trB sB p RA RB Hp Hc) as [E1 E2].
    split; [|exact E2]. rewrite (visible_follow eA stA sA p FA Hp), (visible_follow eB stB sB p FB Hp), E1. reflexivity.
  Qed.

  Theorem sched_fewer : forall trA stA trB stB p, runs_h trA stA -> runs_h trB stB -> 1 <= p <= n ->
    count p trA <= count p trB -> starts_with (t_log (st_thr stB p)) (t_log (st_thr stA p)) /\ starts_with (own p trB) (own p trA).
  Proof.
    intros trA stA trB stB p HA HB Hp Hc.
    destruct (runs_follow _ _ HA) as (sA & eA & RA & IA & FA). destruct (runs_follow _ _ HB) as (sB & eB & RB & IB & FB).
    destruct (fewer_steps n branch labels strict branch_dual branch_tidy T T_dual T_tidy f trA sA trB sB p RA RB Hp Hc) as [[E1 _] E2].
    split; [|exact E2]. destruct FA as [_ FA], FB as [_ FB]. rewrite (FA p Hp), (FB p Hp). exact E1.
  Qed.

  Theorem sched_complete : forall trA stA trB stB, runs_h trA stA -> complete_h stA -> runs_h trB stB ->
    forall p, 1 <= p <= n -> count p trB <= count p trA.
  Proof.
    intros trA stA trB stB HA C HB.
    destruct (runs_follow _ _ HA) as (sA & eA & RA & IA & FA). destruct (runs_follow _ _ HB) as (sB & eB & RB & IB & FB).
    eapply complete_last with (stA := sA) (stB := sB); eauto. eapply complete_follow; eauto.
  Qed.

  Lemma own_out : forall tr st p, runs_h tr st -> ~ 1 <= p <= n -> own p tr = [].
  Proof.
    intros tr st p H Hp. pose proof (runs_range _ _ H) as Hr. clear H.
    induction tr as [|[q i] tr IH]; [reflexivity|]. unfold own in *. cbn [filter fst].
    destruct (Nat.eqb_spec q p) as [->|]; [exfalso; apply Hp; apply (Hr p i); left; reflexivity|].
    apply IH. intros; eapply Hr; right; eauto.
  Qed.

  Theorem sched_unique : forall trA stA trB stB, runs_h trA stA -> complete_h stA -> runs_h trB stB -> complete_h stB ->
    Permutation trA trB /\ forall p, 1 <= p <= n -> own p trA = own p trB /\ visible (st_thr stA p) = visible (st_thr stB p).
  Proof.
    intros trA stA trB stB HA CA HB CB.
    assert (H : forall p, 1 <= p <= n -> own p trA = own p trB /\ visible (st_thr stA p) = visible (st_thr stB p)).
    { intros p Hp. pose proof (sched_complete _ _ _ _ HA CA HB p Hp). pose proof (sched_complete _ _ _ _ HB CB HA p Hp).
      destruct (sched_same _ _ _ _ p HA HB Hp) as [E1 E2]; [lia|]. auto. }
    split; [|exact H]. apply own_perm. intros p. destruct (le_dec 1 p), (le_dec p n); try (apply H; lia);
      rewrite (own_out _ _ p HA), (own_out _ _ p HB) by lia; reflexivity.
  Qed.

  Theorem sched_shorter : forall trA stA trB stB, runs_h trA stA -> complete_h stA -> runs_h trB stB -> length trB <= length trA.
  Proof.
    intros trA stA trB stB HA CA HB. rewrite (length_counts n trA), (length_counts n trB) by (eapply runs_range; eauto).
    apply sum_le. intros p Hp. apply in_seq in Hp. eapply sched_complete; eauto. lia.
  Qed.

  (** *** Going on *)

  Definition decided_moves (p : nat) (st : hstate) : list inp := [ITau; IVal (f p (t_log (st_thr st p))); ILabel (f p (t_log (st_thr st p)))].

  Lemma complete_or : forall st, complete_h st \/ exists p i st', decides f p (t_log (st_thr st p)) i /\ exec_h p i st = Some st'.
  Proof.
    intros st.
    assert (G : forall ps, (forall p i, In p ps -> decides f p (t_log (st_thr st p)) i -> exec_h p i st = None) \/
              exists p i st', decides f p (t_log (st_thr st p)) i /\ exec_h p i st = Some st').
    { induction ps as [|p ps [IH|IH]]; [left; contradiction| |right; exact IH].
      assert (K : forall is, (forall i, In i is -> decides f p (t_log (st_thr st p)) i) -> (forall i, In i is -> exec_h p i st = None) \/
                exists p i st', decides f p (t_log (st_thr st p)) i /\ exec_h p i st = Some st').
      { induction is as [|i is IHi]; intros Hi; [left; contradiction|].
        destruct (exec_h p i st) as [st'|] eqn:E; [right; exists p, i, st'; split; [apply Hi; left; reflexivity|exact E]|].
        destruct IHi as [H|H]; [intros; apply Hi; right; assumption| |right; exact H].
        left. intros j [<-|Hj]; auto. }
      destruct (K (decided_moves p st)) as [H|H]; [|clear K|right; exact H].
      - intros i [<-|[<-|[<-|[]]]]; cbn; auto.
      - left. intros q i [<-|Hq] Hd; [|apply IH; assumption]. apply H. unfold decided_moves.
        destruct i; cbn in Hd; [left; reflexivity|subst; right; left; reflexivity|subst; right; right; left; reflexivity|contradiction]. }
    destruct (G (seq 1 n)) as [H|H]; [left|right; exact H].
    intros p i Hd. destruct (exec_h p i st) as [st'|] eqn:E; [|reflexivity]. exfalso.
    rewrite (H p i) in E; [discriminate| |exact Hd]. apply exec_range in E. apply in_seq. lia.
  Qed.

  Theorem sched_extends : forall trA stA trB stB, runs_h trA stA -> complete_h stA -> runs_h trB stB ->
    exists tr stC, runs_h (trB ++ tr) stC /\ complete_h stC.
  Proof.
    intros trA stA trB stB HA CA HB. remember (length trA - length trB) as k eqn:Ek.
    assert (Hk : length trA - length trB <= k) by lia. clear Ek. revert trB stB HB Hk.
    induction k as [|k IH]; intros trB stB HB Hk.
    - destruct (complete_or stB) as [C|(p & i & st' & Hd & E)]; [exists [], stB; rewrite app_nil_r; auto|].
      exfalso. pose proof (sched_shorter _ _ (trB ++ [(p, i)]) st' HA CA ltac:(econstructor; eauto)) as H. rewrite app_length in H. cbn in H. lia.
    - destruct (complete_or stB) as [C|(p & i & st' & Hd & E)]; [exists [], stB; rewrite app_nil_r; auto|].
      destruct (IH (trB ++ [(p, i)]) st') as (tr & stC & H1 & H2); [econstructor; eauto|rewrite app_length; cbn; lia|].
      exists ((p, i) :: tr), stC. rewrite <- app_assoc in H1. auto.
  Qed.

  Lemma ok_complete : forall st, all_ok n st -> complete_h st.
  Proof.
    intros st H p i _. unfold exec. destruct ((1 <=? p) && (p <=? n)) eqn:Eb; [|reflexivity].
    apply andb_true_iff in Eb. rewrite !Nat.leb_le in Eb. destruct (H p Eb) as [E1 E2].
    unfold tstep. rewrite E2, E1. reflexivity.
  Qed.

  Lemma visible_ok : forall (stA stB : hstate), all_ok n stA -> (forall p, 1 <= p <= n -> visible (st_thr stA p) = visible (st_thr stB p)) -> all_ok n stB.
  Proof.
    intros stA stB H E p Hp. destruct (H p Hp) as [E1 E2]. specialize (E p Hp). unfold visible in E. rewrite E1, E2 in E.
    injection E as _ _ _ Er Ex. destruct (t_prog (st_thr stB p)); try discriminate. injection Er as <-. split; [reflexivity|].
    destruct (t_trash (st_thr stB p)); [reflexivity|discriminate].
  Qed.
End Sched.

(** The types of global protocols are tidy. *)
Lemma proj_tidy : forall n labels G, wf_round n labels G -> tidy_mesh n (proj n G).
Proof.
  intros n labels [ms e] [Wm We] p Hp. cbn [fst snd proj] in *. induction ms as [|m ms IH].
  - cbn [stack_of]. destruct e as [|c b]; cbn [last_stack]; [exact I|]. destruct We as [Hc _].
    destruct (Nat.eqb_spec p c) as [->|Hne]; [exact I|]. cbn [tidy]. rewrite sessions_nth by (auto; congruence). cbn [sess_of last_sess].
    destruct (Nat.eqb_spec p c); [contradiction|]. rewrite Nat.eqb_refl. intros k s Hk Hs.
    unfold sessions_of in Hs. rewrite nth_error_map in Hs. destruct (nth_error (seq 1 (n - 1)) k) as [j|] eqn:Ej; [|discriminate].
    cbn in Hs. injection Hs as <-. destruct (Nat.eqb_spec p c); [contradiction|].
    destruct (Nat.eqb_spec (other p j) c) as [E|]; [|reflexivity]. exfalso. apply Hk.
    assert (Hkl : k < length (seq 1 (n - 1))) by (apply nth_error_Some; congruence). rewrite seq_length in Hkl.
    rewrite (nth_error_nth' _ 0) in Ej by (rewrite seq_length; exact Hkl). rewrite seq_nth in Ej by exact Hkl. injection Ej as <-.
    unfold other, field_pos in *. cbn [Nat.add] in E. destruct (Nat.leb_spec p (S k)), (Nat.ltb_spec c p); lia.
  - apply Forall_inv in Wm as Hm. apply Forall_inv_tail in Wm. specialize (IH Wm). destruct Hm as (Hf & Hi & Hfi).
    destruct (involves p m) eqn:Ei.
    + assert (Hx : exists x, stack_of p (m :: ms) e = SRole x (stack_of p ms e) /\ 1 <= x <= n /\ x <> p).
      { unfold involves in Ei. cbn [stack_of]. destruct (Nat.eqb_spec (from m) p) as [E|E].
        - exists (into m). split; [reflexivity|]. split; [exact Hi|congruence].
        - cbn in Ei. rewrite Ei. apply Nat.eqb_eq in Ei. exists (from m). split; [reflexivity|]. split; [exact Hf|congruence]. }
      destruct Hx as (x & Es & Hx & Hxp). destruct (next_message n p x _ m ms e Hp Hx Hxp Ei Es) as (_ & E2 & E3).
      rewrite Es. cbn [tidy]. rewrite sessions_nth by auto. destruct E3 as [E3|E3]; rewrite E3, <- E2; exact IH.
    + unfold involves in Ei. apply orb_false_iff in Ei. destruct Ei as [E1 E2].
      assert (Es : sessions_of n p (m :: ms) e = sessions_of n p ms e).
      { unfold sessions_of. apply map_ext. intros j. cbn [sess_of]. rewrite E1, E2, andb_false_r. reflexivity. }
      cbn [stack_of]. rewrite E1, E2, Es. exact IH.
Qed.
