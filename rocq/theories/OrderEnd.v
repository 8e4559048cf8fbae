(** Fair executions with finitely many choices come to an end; tables without recursion have only such executions. Proofs. *)
From Coq Require Import List Arith Bool Lia Permutation.
From Verif Require Import Types Diag DiagProofs Wiring WiringProofs Session Mesh MeshSpec Links LinksProofs Refine Sim
  MeshWire MeshInv MeshStep MeshKeep MeshSafe MeshRounds MeshRun MeshLog MeshReach Global MeshGlobal MeshSignal MeshProgress MeshBound
  MeshClean MeshFair OrderSpec OrderProofs MeshOrder OrderReady OrderFair Properties_Mesh Properties_Global Properties_Order
  FairSpec FairTypes FairTurns OrderLive OrderTurns.
Import ListNotations.

Lemma over_or_not : forall n (st : @state heap ep), all_over n st \/ ~ all_over n st.
Proof.
  intros n st. assert (H : forall m, (forall p, 1 <= p <= m -> (exists r, t_prog (st_thr st p) = PFin r) /\ t_trash (st_thr st p) = []) \/
    ~ (forall p, 1 <= p <= m -> (exists r, t_prog (st_thr st p) = PFin r) /\ t_trash (st_thr st p) = [])).
  { induction m as [|m [IH|IH]]; [left; intros; lia| |right; intros H; apply IH; intros p Hp; apply H; lia].
    destruct (t_prog (st_thr st (S m))) as [| | |r|] eqn:E; try (right; intros H; destruct (H (S m) ltac:(lia)) as [[r0 Hr] _]; congruence).
    destruct (t_trash (st_thr st (S m))) as [|y ys] eqn:Et; [|right; intros H; destruct (H (S m) ltac:(lia)) as [_ Hr]; congruence].
    left. intros p Hp. destruct (Nat.eq_dec p (S m)) as [->|]; [eauto|apply IH; lia]. }
  apply H.
Qed.

(** What is chosen in a round is written in its types. *)
Definition chosen_in (n : nat) (labels : nat -> nat) (branch : nat -> nat -> nat -> mty) (T : nat -> mty) (hist : history) : Prop :=
  forall g p b l, nth_error hist g = Some (p, b, l) -> 1 <= p <= n /\ l < labels b /\
    exists s, script_of n labels (round_types branch T hist g) p = Some s /\ In (AChoose b) s.

Section OEnd.
  Variable n : nat.
  Variable branch : nat -> nat -> nat -> mty.
  Variable labels : nat -> nat.
  Variable strict : bool.
  Hypothesis branch_dual : forall b l, l < labels b -> dual_mesh n (branch b l).
  Variable T : nat -> mty.
  Hypothesis T_dual : dual_mesh n T.
  Hypothesis T_ordered : forall R, OrderSpec.reached n labels branch T R -> ordered n labels R.

  Notation lstate := (@state links handle).
  Notation tcase := (tcase n branch labels strict).
  Notation inv := (inv n branch labels).
  Notation rinv := (rinv n labels).
  Notation xinv := (xinv n branch labels T (OrderSpec.reached n labels branch T)).
  Notation RT := (round_types branch T).
  Notation chosen_in := (chosen_in n labels branch T).
  Notation ok := (OrderLive.ok n branch labels T).
  Notation exec_l := (exec link_ops n branch labels strict).
  Notation mu := (OrderFair.mu n branch T).

  Lemma chosen_step : forall hist L thr p i th' L', 1 <= p <= n -> inv L thr -> rinv hist L thr -> xinv hist thr -> chosen_in hist ->
    tcase p (thr p) L i th' L' -> chosen_in (record p i (thr p) hist).
  Proof.
    intros hist L thr p i th' L' Hp I R X H C.
    destruct (record_case n branch labels strict L p i (thr p) th' L' hist C)
      as [Er|(b & l & ss & hs & pl & Er & Hl & Ei & Et & Ep & Ec & Ea)]; rewrite Er; [exact H|].
    assert (Hround : t_round (thr p) = length hist) by (eapply chooser_last; eauto).
    intros g q b' l' E. destruct (lt_dec g (length hist)) as [Hg|Hg].
    - rewrite nth_error_app1 in E by exact Hg. rewrite rt_app by lia. apply H. exact E.
    - destruct (Nat.eq_dec g (length hist)) as [->|Hne].
      + rewrite nth_error_app2, Nat.sub_diag in E by lia. cbn in E. injection E as <- <- <-. split; [exact Hp|]. split; [exact Hl|].
        rewrite rt_app by lia. destruct (x_run _ _ _ _ _ _ _ X p _ _ _ Hp Ep) as (past & rest & S1 & S2 & _). rewrite Hround in S1.
        pose proof (script_begins _ _ _ _ _ _ S2) as B. inversion B as [| | |b0 Hc0 Hl0 E1 E2|]; subst. rewrite Ec in Hc0. injection Hc0 as <-.
        exists (past ++ [AChoose b]). split; [exact S1|]. apply in_or_app. right; left; reflexivity.
      + exfalso. assert (E' : nth_error (hist ++ [(p, b, l)]) g = None) by (apply nth_error_None; rewrite app_length; cbn; lia). congruence.
  Qed.

  Variable x : execution.
  Hypothesis V : FairTypes.valid n branch labels strict T x.
  Notation tracks := (OrderLive.tracks n branch labels T x).

  (** Up to the next step of anybody nothing changes. *)
  Lemma until_next : forall t d, (exists u, t <= u < t + d /\ at_time x u = at_time x t /\ doing x u <> None) \/ at_time x (t + d) = at_time x t.
  Proof.
    intros t d. induction d as [|d [(u & Hu & Hx)|Hs]]; [right; rewrite Nat.add_0_r; reflexivity|left; exists u; split; [lia|exact Hx]|].
    destruct V as [_ V1]. specialize (V1 (t + d)). rewrite Nat.add_succ_r. destruct (doing x (t + d)) as [[y j]|] eqn:Ed.
    - left. exists (t + d). split; [lia|]. split; [exact Hs|congruence].
    - right. rewrite V1. exact Hs.
  Qed.

  (** In a fair execution somebody is run again unless all is over. *)
  Lemma next_action : FairTypes.fair n branch labels strict x -> forall t, ~ all_over n (at_time x t) ->
    exists u, t <= u /\ at_time x u = at_time x t /\ doing x u <> None.
  Proof.
    intros FA t HN. pose proof (prefix_steps n branch labels strict T x V t) as E.
    destruct (ordered_progress n branch labels strict T _ _ (conj T_dual branch_dual) T_ordered E) as [H|(q & i & st' & Hq & Hi & En)]; [contradiction|].
    destruct (FA q t Hq) as (t1 & Ht1 & Hd).
    destruct (until_next t (t1 - t)) as [(u & Hu & Hx)|Hs]; [exists u; split; [lia|exact Hx]|].
    replace (t + (t1 - t)) with t1 in Hs by lia. destruct Hd as [[j Hj]|Hne]; [exists t1; split; [lia|]; split; [exact Hs|congruence]|].
    exfalso. apply Hne. rewrite Hs. exists i, st'. auto.
  Qed.
  Lemma busy_action : (forall t, exists u, t <= u /\ doing x u <> None) -> forall t, exists u, t <= u /\ at_time x u = at_time x t /\ doing x u <> None.
  Proof.
    intros H t. destruct (H t) as (u & Hu & Hd). destruct (until_next t (u - t)) as [(v & Hv & Hx)|Hs]; [exists v; split; [lia|exact Hx]|].
    replace (t + (u - t)) with u in Hs by lia. exists u. auto.
  Qed.

  (** Along the execution the histories stay in [good], which bounds their length. *)
  Variable good : history -> Prop.
  Variable B : nat.
  Hypothesis good_first : good [].
  Hypothesis good_bound : forall hist, good hist -> length hist <= B.
  Hypothesis good_next : forall t hist sl p i sl', tracks t hist sl -> good hist -> doing x t = Some (p, i) -> exec_l p i sl = Some sl' ->
    good (record p i (st_thr sl p) hist).

  Variable stop : nat -> Prop.
  Hypothesis stop_or_not : forall t, stop t \/ ~ stop t.
  Hypothesis go_on : forall t, ~ stop t -> exists u, t <= u /\ at_time x u = at_time x t /\ doing x u <> None.

  Lemma ends_from : forall a b t hist sl, tracks t hist sl -> good hist -> B - length hist <= a -> mu hist (length hist) (st_store sl) (st_thr sl) <= b ->
    exists t', stop t'.
  Proof.
    induction a as [a IHa] using lt_wf_ind. induction b as [b IHb] using lt_wf_ind. intros t hist sl Tr G Ha Hb.
    destruct (stop_or_not t) as [H|H]; [eauto|]. destruct (go_on t H) as (u & _ & Eu & Hu).
    assert (Tu : tracks u hist sl) by (destruct Tr as [[e F] O]; split; [exists e; rewrite Eu; exact F|exact O]).
    destruct (advance n branch labels strict branch_dual T T_ordered x V u hist sl Tu) as [(y & i & sl' & Ed & E & Tr')|[Ed _]]; [|congruence].
    pose proof (good_next u hist sl y i sl' Tu G Ed E) as G'.
    destruct Tu as [_ O]. destruct (ok_step n branch labels strict branch_dual T T_ordered hist sl y i sl' O E) as (Hy & th' & L' & -> & C & _).
    destruct O as (I & R & _ & X & _).
    destruct (record_case n branch labels strict (st_store sl) y i (st_thr sl y) th' L' hist C)
      as [Er|(b0 & l & ss & hs & pl & Er & _)]; rewrite Er in *.
    - destruct (mu_step n branch labels strict branch_dual T hist (st_store sl) (st_thr sl) y i th' L' (length hist) Hy I R (le_n _) C) as [_ M].
      cbn zeta in M. rewrite Er in M.
      assert (Hm : matters n (length hist) (st_thr sl y)).
      { unfold matters. destruct (t_trash (st_thr sl y)) as [|[[m s] f] rest] eqn:Et; [apply (r_thr _ _ _ _ _ R y Hy)|].
        assert (Hlv : live (st_store sl) (m, s, f)).
        { apply (live_link n branch labels (st_store sl) (st_thr sl) y _ Hy I). unfold all_of. rewrite Et. apply in_or_app. right; left; reflexivity. }
        destruct Hlv as [Hl _]. rewrite (r_next _ _ _ _ _ R) in Hl. unfold MeshOrder.cut. exact Hl. }
      specialize (M Hm). eapply (IHb (mu hist (length hist) L' (set_thr (st_thr sl) y th'))); [lia|exact Tr'|exact G'|exact Ha|apply le_n].
    - pose proof (good_bound _ G') as HB. rewrite app_length in HB. cbn [length] in HB.
      eapply (IHa (B - length (hist ++ [(y, b0, l)]))); [rewrite app_length; cbn; lia|exact Tr'|exact G'|apply le_n|apply le_n].
  Qed.

  Lemma comes_to_end : exists t, stop t.
  Proof.
    assert (H : steps heap_ops n branch labels strict (start n T) [] (at_time x 0)) by (rewrite (proj1 V); constructor).
    destruct (steps_follow n branch labels strict branch_dual T [] _ T_dual H) as (sl & Hs & _ & e & F). inversion Hs; subst.
    apply (ends_from B (mu [] 0 (st_store (init link_ops n T empty_links)) (st_thr (init link_ops n T empty_links))) 0 [] (init link_ops n T empty_links));
      [|exact good_first|cbn; lia|apply le_n].
    split; [exists e; exact F|]. unfold OrderLive.ok. split; [apply init_inv; assumption|]. split; [apply init_rinv; assumption|].
    split; [apply init_dinv; assumption|]. split; [|apply sinv_init; assumption].
    apply xinv_init; auto; [constructor|]. intros R p HR Hp. destruct (T_ordered R HR) as (rank & H1 & _). auto.
  Qed.
End OEnd.

(** ** Bounded numbers of choices *)

(** The rest of a history, seen from the round that its first choice leads to. *)
Lemma round_shift : forall branch T p b l hist g, g <= length hist ->
  round_types branch T ((p, b, l) :: hist) (S g) = round_types branch (branch b l) hist g.
Proof.
  intros branch T p b l hist g Hg. destruct g as [|g]; [reflexivity|]. cbn [round_types nth_error].
  destruct (nth_error hist g) as [[[q b'] l']|] eqn:E; [reflexivity|]. apply nth_error_None in E. lia.
Qed.
Lemma chosen_tail : forall n labels branch T p b l hist, chosen_in n labels branch T ((p, b, l) :: hist) ->
  (1 <= p <= n /\ l < labels b /\ exists s, script_of n labels T p = Some s /\ In (AChoose b) s) /\ chosen_in n labels branch (branch b l) hist.
Proof.
  intros n labels branch T p b l hist H. split; [exact (H 0 p b l eq_refl)|]. intros g q b' l' E. specialize (H (S g) q b' l' E).
  rewrite round_shift in H; [exact H|]. apply Nat.lt_le_incl, nth_error_Some. congruence.
Qed.

Section Bounded.
  Variable n : nat.
  Variable branch : nat -> nat -> nat -> mty.
  Variable labels : nat -> nat.
  Variable strict : bool.
  Variable T : nat -> mty.
  Hypothesis D : dual_types n branch labels T.
  Hypothesis O : all_ordered n branch labels T.
  Variable x : execution.
  Hypothesis V : FairTypes.valid n branch labels strict T x.

  Lemma good_rounds : forall G, (forall t p, 1 <= p <= n -> t_round (st_thr (at_time x t) p) <= G) ->
    forall t hist sl p i sl', OrderLive.tracks n branch labels T x t hist sl -> length hist <= S G -> doing x t = Some (p, i) ->
    exec link_ops n branch labels strict p i sl = Some sl' -> length (record p i (st_thr sl p) hist) <= S G.
  Proof.
    intros G HG t hist sl p i sl' Tr Hl Ed E. pose proof Tr as [_ OK].
    destruct (ok_step n branch labels strict (proj2 D) T O hist sl p i sl' OK E) as (Hp & th' & L' & -> & C & _).
    destruct OK as (I & R & _ & X & _).
    destruct (record_case n branch labels strict (st_store sl) p i (st_thr sl p) th' L' hist C)
      as [Er|(b0 & l & ss & hs & pl & Er & _ & _ & _ & Ep & Ec & _)]; rewrite Er; [exact Hl|].
    assert (Hround : t_round (st_thr sl p) = length hist) by (eapply chooser_last; eauto).
    rewrite app_length. cbn [length]. destruct (tracks_thr n branch labels T x t hist sl p Tr Hp) as [Hr _]. specialize (HG t p Hp). lia.
  Qed.

  Lemma good_chosen : forall t hist sl p i sl', OrderLive.tracks n branch labels T x t hist sl -> chosen_in n labels branch T hist -> doing x t = Some (p, i) ->
    exec link_ops n branch labels strict p i sl = Some sl' -> chosen_in n labels branch T (record p i (st_thr sl p) hist).
  Proof.
    intros t hist sl p i sl' Tr Hl Ed E. pose proof Tr as [_ OK].
    destruct (ok_step n branch labels strict (proj2 D) T O hist sl p i sl' OK E) as (Hp & th' & L' & -> & C & _).
    destruct OK as (I & R & _ & X & _). eapply chosen_step; eauto.
  Qed.
  Lemma chosen_nil : chosen_in n labels branch T [].
  Proof. intros g p b l E. destruct g; discriminate. Qed.
End Bounded.
