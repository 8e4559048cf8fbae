(** Hand-written types with binary choices when nobody crashes, and how long sessions run: proofs for C71. *)
From Coq Require Import List Arith Bool Lia Permutation.
From Verif Require Import Types Diag DiagProofs Wiring WiringProofs Session Mesh MeshSpec Links LinksProofs Refine Sim
  MeshWire MeshInv MeshStep MeshKeep MeshSafe MeshRounds MeshRun MeshLog MeshReach Global MeshGlobal MeshSignal MeshProgress MeshBound
  MeshClean MeshFair TidySpec MeshTidy MeshDet OrderSpec OrderProofs MeshOrder OrderReady OrderFair Properties_Mesh Properties_Global Properties_Order
  Properties_Schedule OrderEnd Properties_OrderFair OrderFinish OrderBound BinMesh BinSpec BinSim BinReach BinProps.
Import ListNotations.

(** ** Sessions with enums *)

Section Received.
  Variable n : nat.
  Variable branch : nat -> nat -> nat -> mty.
  Variable labels : nat -> nat.
  Variable strict : bool.
  Variable T : nat -> mty.
  Hypothesis TT : tidy_types n branch labels T.

  (** When everybody has finished without a crash, everything that was sent has been received. *)
  Lemma over_received : forall tr st, steps heap_ops n branch labels strict (start n T) tr st -> crash_free tr -> all_over n st ->
    forall g p q, 1 <= p <= n -> 1 <= q <= n -> p <> q -> ins (evs g q (t_log (st_thr st p))) = outs (evs g p (t_log (st_thr st q))).
  Proof.
    intros tr st H NC HF g p q Hp Hq0 Hne. destruct TT as (T1 & T2 & B).
    assert (D2 : forall b l, l < labels b -> dual_mesh n (branch b l)) by (intros b l Hl; apply B, Hl).
    destruct (steps_follow n branch labels strict D2 T tr st T1 H) as (sl & Hs & _ & e & F).
    destruct (quiet_good n branch labels strict D2 (fun b l Hl => proj2 (B b l Hl)) T T1 T2 tr sl Hs NC) as [hist G].
    destruct F as [_ F].
    assert (Fin : forall x, 1 <= x <= n -> (exists r, t_prog (st_thr sl x) = PFin r) /\ t_trash (st_thr sl x) = []).
    { intros x Hx. destruct (HF x Hx) as [[r Hr] Ht]. rewrite (F x Hx) in Hr, Ht. cbn in Hr, Ht. apply map_fin in Hr. split; [eauto|].
      destruct (t_trash (st_thr sl x)); [reflexivity|discriminate]. }
    rewrite (F p Hp), (F q Hq0). cbn [map_thread t_log]. destruct G as [I R D _ _ C].
    assert (Hq : peer_role n p q) by (split; [congruence|exact Hq0]). symmetry. change (all_in (st_thr sl) g p q).
    destruct (lt_dec (lnk n g p q) (lnext (st_store sl))) as [Hm|Hm].
    - destruct (c_left _ _ _ C g p q Hp Hq Hm) as [[Hk _]|(_ & _ & Hd)]; [|exact Hd]. exfalso.
      assert (St : MeshOrder.settled n (st_thr sl)).
      { intros x Hx. destruct (Fin x Hx) as [[r E] Et]. split; [exact Et|]. intros. rewrite E. discriminate. }
      destruct (MeshOrder.holder n branch labels hist _ _ I R St g p q Hp Hq Hk) as [_ Hh].
      destruct (Fin p Hp) as [[r E] _]. unfold MeshOrder.running in Hh. rewrite E in Hh. exact Hh.
    - pose proof (lnk_range n g p q Hp Hq) as Hr. rewrite (r_next _ _ _ _ _ R) in Hm.
      assert (Hg : length hist < g) by nia.
      unfold all_in. rewrite !(d_late _ _ _ _ _ _ _ D); auto.
      + pose proof (r_thr _ _ _ _ _ R p Hp) as [Hl _]. lia.
      + pose proof (r_thr _ _ _ _ _ R q Hq0) as [Hl _]. lia.
  Qed.
End Received.

(** The number of steps, from the choices made. *)
Lemma run_length : forall n branch labels strict T tr st, dual_types n branch labels T ->
  steps heap_ops n branch labels strict (start n T) tr st ->
  exists hist, faithful n branch labels T hist (fun p => t_log (st_thr st p)) /\
    (forall g c b l, nth_error hist g = Some (c, b, l) -> 1 <= c <= n /\ l < labels b /\ g <= t_round (st_thr st c)) /\
    (all_ordered n branch labels T -> chosen_in n labels branch T hist) /\
    length hist = length (choices_made tr) /\ length tr <= total_cost n branch T hist.
Proof.
  intros n branch labels strict T tr st [D1 D2] H.
  destruct (steps_follow n branch labels strict D2 T tr st D1 H) as (sl & Hs & _ & e & F).
  destruct (paid n branch labels strict D2 T D1 tr sl Hs) as (hist & I & R & D & Hc & HO & Hp). exists hist.
  destruct F as [_ F]. split; [|split; [|split; [|split; [exact Hc|lia]]]].
  - eapply faithful_ext; [|eapply dinv_faithful; exact D]. intros p Hx. rewrite (F p Hx). reflexivity.
  - intros g c b l E. destruct (r_past _ _ _ _ _ R g c b l E) as (Hx & Hl & Hg). rewrite (F c Hx). cbn. auto.
  - intros O. apply HO, O.
Qed.
Lemma run_bounded : forall n branch labels T, dual_types n branch labels T -> all_ordered n branch labels T -> unwinds n branch labels T ->
  exists N, forall strict tr st, steps heap_ops n branch labels strict (start n T) tr st -> length tr <= N.
Proof.
  intros n branch labels T D O U. destruct (unwinds_cost n branch labels T U) as [N HN]. exists N. intros strict tr st H.
  destruct (run_length n branch labels strict T tr st D H) as (hist & _ & _ & Hc & _ & Hl). specialize (HN hist (Hc O)). lia.
Qed.
(** If no round that can be reached costs more than K. *)
Lemma total_le : forall n branch T hist K, (forall g, g <= length hist -> round_cost n (round_types branch T hist g) <= K) ->
  total_cost n branch T hist <= K * S (length hist).
Proof.
  intros n branch T hist K H. unfold total_cost. rewrite (sum_fold (fun g => round_cost n (round_types branch T hist g))). rewrite Nat.mul_comm.
  apply sum_to_le. intros g Hg. apply H. lia.
Qed.
Lemma hist_reached : forall n branch labels T hist, chosen_in n labels branch T hist -> forall g, g <= length hist ->
  reached n labels branch T (round_types branch T hist g).
Proof.
  intros n branch labels T hist H. induction g as [|g IH]; intros Hg; [constructor|].
  cbn [round_types]. destruct (nth_error hist g) as [[[c b] l]|] eqn:E; [|apply nth_error_None in E; lia].
  destruct (H g c b l E) as (Hc & Hl & s & Hs & Hin). eapply reached_next; [exact (IH ltac:(lia))|exact Hc|exact Hs|exact Hin|exact Hl].
Qed.

(** ** Sessions with binary choices *)

Lemma usable_tidy : forall n branch labels p r ss, usable n branch labels p ss r -> tidy p ss (enum_stack r).
Proof.
  intros n branch labels p. induction r as [| |x r IH|x r IH|x r1 IH1 r2 IH2|x r1 IH1 r2 IH2]; intros ss H; cbn; try exact Logic.I.
  - destruct H as (_ & _ & H). destruct (nth_error ss (field_pos p x)) as [[|[t|b j] k|[t|b j] k]|]; try exact Logic.I; try contradiction; auto.
  - cbn in H. destruct r1; try contradiction. destruct r2; try contradiction. destruct H as (_ & _ & (b & ->) & H). exact H.
Qed.
Lemma enum_tidy : forall n branch labels T, dual_types n branch labels T -> all_usable n branch labels T ->
  tidy_types n (enum_branch branch) labels (enum_mesh T).
Proof.
  intros n branch labels T [D1 D2] [U UB]. split; [exact D1|]. split; [intros p Hp; exact (usable_tidy n branch labels p _ _ (U p Hp))|].
  intros b l Hl. split; [exact (D2 b l Hl)|]. intros p Hp. exact (usable_tidy n branch labels p _ _ (UB b l Hl p Hp)).
Qed.
Lemma enum_dual : forall n branch labels T, dual_types n branch labels T -> dual_types n (enum_branch branch) labels (enum_mesh T).
Proof. intros n branch labels T [D1 D2]. split; [exact D1|intros b l Hl; exact (D2 b l Hl)]. Qed.

Lemma bin_over : forall n s Q D w st sl, srel n s Q D w st sl -> b_over n st -> all_over n sl.
Proof.
  intros n s Q D w st sl R Hf p Hp. destruct (Hf p Hp) as [[r Hr] Ht].
  destruct R as [_ RT]. destruct (RT p Hp) as [(d & v & dn & u & E1 & E2 & E3 & _) _ [Hc|Hc]].
  - unfold bprog in Hr. rewrite Hr in Hc. destruct Hc.
  - rewrite Ht in E1. rewrite Hc in E2. destruct d; [|discriminate]. destruct v; [|discriminate]. destruct dn; [|discriminate].
    destruct u; [|discriminate]. rewrite E3. unfold bprog in Hr. rewrite Hr. cbn. eauto.
Qed.

(** Without crashes no operation fails; when nothing more can happen every role has returned Ok and has received everything. *)
Lemma made_ordered_ok : forall n branch labels make any T tr st, makes n branch labels make ->
  dual_types n branch labels T -> all_usable n branch labels T ->
  all_ordered n (enum_branch branch) labels (enum_mesh T) -> mrun_to n branch labels make any T tr st -> crash_free tr ->
  (forall p r, 1 <= p <= n -> bresult st p = Some r -> r = ROk) /\
  ((forall p i, i <> ICrash -> mnext n branch labels make any p i st = None) ->
   (forall p, 1 <= p <= n -> bresult st p = Some ROk) /\
   forall g p q, 1 <= p <= n -> 1 <= q <= n -> p <> q -> ins (evs g q (blog st p)) = outs (evs g p (blog st q))).
Proof.
  intros n branch labels make any T tr st MK HD HU HO H NC.
  destruct (bin_follows n branch labels make any MK T tr st H) as (s & Q & D & w & sl & tr' & Hs & R & _ & Hi).
  assert (NC' : crash_free tr') by (intros p i Hin; destruct (Hi p i Hin) as [-> |Hin']; [discriminate|eapply NC; eauto]).
  pose proof (enum_tidy n branch labels T HD HU) as TT. pose proof TT as (T1 & T2 & B).
  assert (Hok : forall p r, 1 <= p <= n -> bresult st p = Some r -> r = ROk).
  { intros p r Hp Hr. rewrite <- (srel_result _ _ _ _ _ _ _ _ R Hp) in Hr. unfold result_of in Hr.
    destruct (t_prog (st_thr sl p)) as [| | |r0|] eqn:E; try discriminate. injection Hr as ->.
    exact (quiet_ok n (enum_branch branch) labels false (fun b l Hl => proj1 (B b l Hl)) (fun b l Hl => proj2 (B b l Hl)) (enum_mesh T) T1 T2 tr' sl Hs NC' p r Hp E). }
  split; [exact Hok|]. intros Hn.
  destruct (made_progress n branch labels make any T tr st MK HD HU HO H) as [Hf|(p & i & st' & _ & Hic & E)]; [|rewrite (Hn p i Hic) in E; discriminate].
  split.
  - intros p Hp. destruct (Hf p Hp) as [[r Hr] _]. assert (E : bresult st p = Some r) by (unfold bresult; rewrite Hr; reflexivity).
    rewrite (Hok p r Hp E) in E. exact E.
  - intros g p q Hp Hq Hne. destruct (srel_same _ _ _ _ _ _ _ _ R Hp) as (_ & <- & _). destruct (srel_same _ _ _ _ _ _ _ _ R Hq) as (_ & <- & _).
    exact (over_received n (enum_branch branch) labels false (enum_mesh T) TT tr' sl Hs NC' (bin_over _ _ _ _ _ _ _ R Hf) g p q Hp Hq Hne).
Qed.

(** The number of steps. *)
Lemma made_bounded : forall n branch labels T, dual_types n branch labels T ->
  all_ordered n (enum_branch branch) labels (enum_mesh T) -> unwinds n (enum_branch branch) labels (enum_mesh T) ->
  exists N, forall make any tr st, makes n branch labels make -> mrun_to n branch labels make any T tr st -> length tr <= N.
Proof.
  intros n branch labels T HD HO HU. destruct (run_bounded n (enum_branch branch) labels (enum_mesh T) (enum_dual n branch labels T HD) HO HU) as [N HN].
  exists N. intros make any tr st MK H. destruct (made_is_enum n branch labels make any T tr st MK H) as (tr' & sl & Hs & _ & _ & Hl).
  specialize (HN false tr' sl Hs). lia.
Qed.
Lemma made_length : forall n branch labels make any T tr st, makes n branch labels make -> dual_types n branch labels T ->
  mrun_to n branch labels make any T tr st ->
  exists hist, (forall g c b l, nth_error hist g = Some (c, b, l) -> 1 <= c <= n /\ l < labels b /\ g <= bround st c) /\
    length tr <= total_cost n (enum_branch branch) (enum_mesh T) hist.
Proof.
  intros n branch labels make any T tr st MK HD H. destruct (made_is_enum n branch labels make any T tr st MK H) as (tr' & sl & Hs & E & _ & Hl).
  destruct (run_length n _ labels false _ tr' sl (enum_dual n branch labels T HD) Hs) as (hist & _ & Hp & _ & _ & Hc). exists hist. split; [|lia].
  intros g c b l Hg. destruct (Hp g c b l Hg) as (H1 & H2 & H3). split; [exact H1|]. split; [exact H2|].
  destruct (E c H1) as (_ & E2 & _). rewrite <- E2. exact H3.
Qed.
