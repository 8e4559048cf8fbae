(** Roles with binary choices, for any code of choose_left and choose_right that [makes] the channels of a choice: what
    Properties_Bin.v and Properties_BinThree.v have in common. *)
From Coq Require Import List Arith Bool Lia.
From Verif Require Import Types Wiring WiringProofs Session Mesh MeshSpec Global OrderSpec Properties_Mesh Properties_Global Properties_Order
  MeshGlobal BinMesh BinSpec BinSim BinReach MeshExt.
Import ListNotations.

(** An execution from fork_mpst on; the log, the round and the result of a role. *)
Definition mrun_to (n : nat) branch labels make any (T : nat -> mty) (tr : list (nat * inp)) (st : @bstate heap ep) : Prop :=
  bsteps heap_ops n branch labels false make any (binit heap_ops n T empty_heap) tr st.
Definition mnext (n : nat) branch labels make any (p : nat) (i : inp) (st : @bstate heap ep) :=
  bexec heap_ops n branch labels false make any p i st.
Definition blog (st : @bstate heap ep) (p : nat) : list event := t_log (b_th (bs_thr st p)).
Definition bround (st : @bstate heap ep) (p : nat) : nat := t_round (b_th (bs_thr st p)).
Definition bprog (st : @bstate heap ep) (p : nat) : @prog ep := t_prog (b_th (bs_thr st p)).
Definition bresult (st : @bstate heap ep) (p : nat) : option result := match bprog st p with PFin r => Some r | _ => None end.
(** Every thread has returned and dropped all it owned. *)
Definition b_over (n : nat) (st : @bstate heap ep) : Prop :=
  forall p, 1 <= p <= n -> (exists r, bprog st p = PFin r) /\ t_trash (b_th (bs_thr st p)) = [].

(** ** From binary choices to enums with two variants *)

Lemma srel_same : forall n s P D w st sl p, srel n s P D w st sl -> 1 <= p <= n ->
  t_prog (st_thr sl p) = conv s (bprog st p) /\ t_log (st_thr sl p) = blog st p /\ t_round (st_thr sl p) = bround st p.
Proof.
  intros n s P D w st sl p [_ T] Hp. destruct (T p Hp) as [(d & v & dn & u & _ & _ & E & _) _ _]. rewrite E. auto.
Qed.
Lemma srel_result : forall n s P D w st sl p, srel n s P D w st sl -> 1 <= p <= n -> result_of sl p = bresult st p.
Proof.
  intros n s P D w st sl p R Hp. destruct (srel_same _ _ _ _ _ _ _ _ R Hp) as (E & _). unfold result_of, bresult. rewrite E.
  destruct (bprog st p); reflexivity.
Qed.

(** Every execution of roles with binary choices does what one of roles with enums does: the same actions of every role
    in the same order, the same results, and nobody crashes who does not crash in the first. *)
Lemma made_is_enum : forall n branch labels make any T tr st, makes n branch labels make ->
  mrun_to n branch labels make any T tr st ->
  exists tr' sl, steps heap_ops n (enum_branch branch) labels false (start n (enum_mesh T)) tr' sl /\
    (forall p, 1 <= p <= n -> t_log (st_thr sl p) = blog st p /\ t_round (st_thr sl p) = bround st p /\ result_of sl p = bresult st p) /\
    (forall p, In (p, ICrash) tr' -> In (p, ICrash) tr) /\ length tr <= length tr'.
Proof.
  intros n branch labels make any T tr st MK H. destruct (bin_follows n branch labels make any MK T tr st H) as (s & P & D & w & sl & tr' & Hs & R & Hl & Hi).
  exists tr', sl. split; [exact Hs|]. split; [|split; [|exact Hl]].
  - intros p Hp. destruct (srel_same _ _ _ _ _ _ _ _ R Hp) as (_ & E1 & E2). split; [exact E1|]. split; [exact E2|]. eapply srel_result; eauto.
  - intros p Hx. destruct (Hi _ _ Hx) as [E|E]; [discriminate|exact E].
Qed.

Lemma round_enum : forall branch T hist g p q,
  sess (round_types (enum_branch branch) (enum_mesh T) hist g) p q = sess (round_types branch T hist g) p q.
Proof.
  intros. unfold round_types. destruct g as [|g]; [reflexivity|]. destruct (nth_error hist g) as [[[c b] l]|]; reflexivity.
Qed.

(** ** Safety *)

(** For any number of roles, pairwise dual types at the start and on both sides of every choice, any schedule, any
    values, sides and crashes: one list of choices explains everything all roles did, nobody meets a message of the wrong
    type or the wrong side, and the type of what a role holds is what remains of its declared type. *)
Lemma made_safe : forall n branch labels make any T tr st, makes n branch labels make ->
  (forall b l, l < labels b -> dual_mesh n (branch b l)) -> dual_mesh n T -> mrun_to n branch labels make any T tr st ->
  exists hist,
    faithful n branch labels T hist (blog st) /\
    (forall p, 1 <= p <= n -> bround st p <= length hist) /\
    (forall p hs, 1 <= p <= n -> bprog st p <> PStuck hs) /\
    (forall p ss r hs q, 1 <= p <= n -> 1 <= q <= n -> p <> q -> bprog st p = PRun ss r hs ->
       after labels (sess (round_types branch T hist (bround st p)) p q) (evs (bround st p) q (blog st p)) =
       nth_error ss (field_pos p q)).
Proof.
  intros n branch labels make any T tr st MK HB HT H.
  destruct (bin_follows n branch labels make any MK T tr st H) as (s & P & D & w & sl & tr' & Hs & R & _ & _).
  destruct (multiparty_safe n (enum_branch branch) labels false (enum_mesh T) tr' sl) as (hist & F & F1 & F2 & F3);
    [intros b l Hl; exact (HB b l Hl)|exact HT|exact Hs|].
  assert (E : forall p, 1 <= p <= n -> t_prog (st_thr sl p) = conv s (bprog st p) /\ t_log (st_thr sl p) = blog st p /\ t_round (st_thr sl p) = bround st p)
    by (intros; eapply srel_same; eauto).
  exists hist. split; [|split; [|split]].
  - destruct F as [G1 G2 G3 G4]. constructor.
    + intros g p q Hp Hq Hne. specialize (G1 g p q Hp Hq Hne). cbn beta in G1. destruct (E p Hp) as (_ & <- & _). destruct (E q Hq) as (_ & <- & _). exact G1.
    + intros g p q Hp Hq Hne. specialize (G2 g p q Hp Hq Hne). cbn beta in G2. rewrite round_enum in G2. destruct (E p Hp) as (_ & <- & _). exact G2.
    + intros g p x b l j Hp Hx. destruct (E p Hp) as (_ & E1 & _). rewrite <- E1 in Hx. eapply G3; eauto.
    + intros g p x b l j Hp Hx. destruct (E p Hp) as (_ & E1 & _). rewrite <- E1 in Hx. eapply G4; eauto.
  - intros p Hp. destruct (E p Hp) as (_ & _ & <-). apply F1, Hp.
  - intros p hs Hp Hx. destruct (E p Hp) as (E1 & _). rewrite Hx in E1. cbn in E1. eapply F2; eauto.
  - intros p ss r hs q Hp Hq Hne Hx. destruct (E p Hp) as (E1 & E2 & E3). rewrite Hx in E1. cbn in E1.
    specialize (F3 p ss _ _ q Hp Hq Hne E1). rewrite round_enum, E2, E3 in F3. exact F3.
Qed.

(** Two roles never take different sides. *)
Lemma made_same_side : forall n branch labels make any T tr st, makes n branch labels make ->
  (forall b l, l < labels b -> dual_mesh n (branch b l)) -> dual_mesh n T -> mrun_to n branch labels make any T tr st ->
  forall p q g c b l j c' b' l' j', 1 <= p <= n -> 1 <= q <= n ->
    In (EvRecv g c (VLabel b l j)) (blog st p) -> In (EvRecv g c' (VLabel b' l' j')) (blog st q) -> c = c' /\ b = b' /\ l = l'.
Proof.
  intros n branch labels make any T tr st MK HB HT H p q g c b l j c' b' l' j' Hp Hq H1 H2.
  destruct (made_safe n branch labels make any T tr st MK HB HT H) as (hist & F & _).
  destruct (label_received _ _ _ _ _ _ F g p c b l j Hp H1) as [_ E1].
  destruct (label_received _ _ _ _ _ _ F g q c' b' l' j' Hq H2) as [_ E2].
  rewrite E1 in E2. injection E2 as <- <- <-. auto.
Qed.

(** Whose close returned Ok knows that every role has called close. *)
Lemma made_close_ok : forall n branch labels make any T tr st, makes n branch labels make ->
  (forall b l, l < labels b -> dual_mesh n (branch b l)) -> dual_mesh n T -> mrun_to n branch labels make any T tr st ->
  forall p q, 1 <= p <= n -> 1 <= q <= n -> bresult st p = Some ROk -> In EvClose (blog st q).
Proof.
  intros n branch labels make any T tr st MK HB HT H p q Hp Hq Hr.
  destruct (bin_follows n branch labels make any MK T tr st H) as (s & P & D & w & sl & tr' & Hs & R & _ & _).
  destruct (srel_same _ _ _ _ _ _ _ _ R Hq) as (_ & <- & _).
  eapply (close_ok_means_all_called_close n (enum_branch branch) labels false (enum_mesh T) tr' sl); [intros b l Hl; exact (HB b l Hl)|exact HT|exact Hs|exact Hp| |exact Hq].
  rewrite (srel_result _ _ _ _ _ _ _ _ R Hp). exact Hr.
Qed.

(** ** Progress *)

(** The types can be used to the end: there is a method for every step, at the start and on both sides of every choice. *)
Definition all_usable (n : nat) branch labels (T : nat -> mty) : Prop :=
  usable_mesh n branch labels T /\ forall b l, l < labels b -> usable_mesh n branch labels (branch b l).

(** Hand-written types whose actions can be put in an order (see C56) never deadlock, whoever crashes. *)
Lemma made_progress : forall n branch labels make any T tr st, makes n branch labels make ->
  dual_types n branch labels T -> all_usable n branch labels T ->
  all_ordered n (enum_branch branch) labels (enum_mesh T) -> mrun_to n branch labels make any T tr st ->
  b_over n st \/ exists p i st', 1 <= p <= n /\ i <> ICrash /\ mnext n branch labels make any p i st = Some st'.
Proof.
  intros n branch labels make any T tr st MK [HT HB] [U UB] HO H.
  destruct (bin_follows n branch labels make any MK T tr st H) as (s & P & D & w & sl & tr' & Hs & R & _ & _).
  apply (bin_next n branch labels make any s P D w st sl R (ready_reach n branch labels make any MK UB T tr st U H)).
  apply (ordered_progress n (enum_branch branch) labels false (enum_mesh T) tr' sl); [|exact HO|exact Hs].
  split; [exact HT|intros b l Hl; exact (HB b l Hl)].
Qed.

(** ** Roles that follow one global protocol *)

(** The types are the projections of P, with RoleXtoAll and RoleAlltoX at the choices. *)
Definition projected (n : nat) (labels : nat -> nat) (P : protocol) branch (T : nat -> mty) : Prop :=
  (forall p, 1 <= p <= n -> enum (T p) = proj n (first_round P) p) /\
  forall b l p, l < labels b -> 1 <= p <= n -> enum (branch b l p) = branches P n b l p.

Lemma dual_enum : forall n (T : nat -> mty) T', (forall p, 1 <= p <= n -> enum (T p) = T' p) -> dual_mesh n T' -> dual_mesh n T.
Proof.
  intros n T T' H [H1 H2].
  assert (E : forall p, 1 <= p <= n -> fst (T p) = fst (T' p)) by (intros p Hp; rewrite <- (H p Hp); reflexivity).
  split; [intros p Hp; rewrite (E p Hp); auto|]. intros p q Hp Hq Hne. specialize (H2 p q Hp Hq Hne). unfold sess in *.
  rewrite (E p Hp), (E q Hq). exact H2.
Qed.
Lemma projected_dual : forall n labels P branch T, projected n labels P branch T ->
  dual_mesh n T /\ forall b l, l < labels b -> dual_mesh n (branch b l).
Proof.
  intros n labels P branch T [H1 H2]. split.
  - eapply dual_enum; [exact H1|]. exact (T_g_dual n P).
  - intros b l Hl. eapply dual_enum; [intros p Hp; exact (H2 b l p Hl Hp)|]. exact (branch_g_dual n labels P b l Hl).
Qed.
Lemma projected_run : forall n labels P branch T tr sl, projected n labels P branch T ->
  steps heap_ops n (enum_branch branch) labels false (start n (enum_mesh T)) tr sl ->
  exists sl', executes n labels false P tr sl' /\ MeshExt.same n sl sl' /\ all_chosen_ok n labels sl.
Proof.
  intros n labels P branch T tr sl [H1 H2] H.
  eapply (MeshExt.steps_same heap_ops n (enum_branch branch) (branches P n) labels false H2 _ tr sl H);
    [apply same_init; exact H1|apply init_chosen].
Qed.

Lemma made_global_progress : forall n labels P branch make any T tr st, makes n branch labels make ->
  wf_protocol n labels P -> projected n labels P branch T -> all_usable n branch labels T -> mrun_to n branch labels make any T tr st ->
  b_over n st \/ exists p i st', 1 <= p <= n /\ i <> ICrash /\ mnext n branch labels make any p i st = Some st'.
Proof.
  intros n labels P branch make any T tr st MK W HP [U UB] H. destruct (projected_dual n labels P branch T HP) as [HT HB].
  destruct (bin_follows n branch labels make any MK T tr st H) as (s & Q & D & w & sl & tr' & Hs & R & _ & _).
  apply (bin_next n branch labels make any s Q D w st sl R (ready_reach n branch labels make any MK UB T tr st U H)).
  destruct (projected_run n labels P branch T tr' sl HP Hs) as (sl' & Hx & Sm & C).
  destruct (global_progress n labels false P tr' sl' W Hx) as [Hf|(p & i & sl2 & Hp & Hi & E)].
  - left. intros p Hp. destruct Sm as [_ Sm]. rewrite (Sm p Hp). apply Hf, Hp.
  - right. exists p, i. destruct Sm as [Es Sm]. unfold next, exec in E.
    rewrite (proj2 (Nat.leb_le 1 p)), (proj2 (Nat.leb_le p n)) in E by lia. cbn [andb] in E. unfold exec.
    rewrite (proj2 (Nat.leb_le 1 p)), (proj2 (Nat.leb_le p n)) by lia. cbn [andb].
    rewrite (tstep_ext heap_ops n (enum_branch branch) (branches P n) labels false (proj2 HP) p i _ _ Hp (C p Hp)), Es, (Sm p Hp).
    destruct (tstep heap_ops n (branches P n) labels false p i (st_thr sl' p) (st_store sl')) as [[th h]|]; [|discriminate]. eauto.
Qed.

(** Every execution of a finite protocol is finite, with the bound of C16; one that cannot be continued has ended every
    thread. Any crashes. *)
Lemma made_terminates : forall n labels P size branch make any T tr st, makes n branch labels make ->
  wf_protocol n labels P -> finite_protocol n labels P size -> projected n labels P branch T -> all_usable n branch labels T ->
  mrun_to n branch labels make any T tr st ->
  length tr <= longest n size P /\ ((forall p i, i <> ICrash -> mnext n branch labels make any p i st = None) -> b_over n st).
Proof.
  intros n labels P size branch make any T tr st MK W FN HP U H. split.
  - destruct (projected_dual n labels P branch T HP) as [HT HB].
    destruct (bin_follows n branch labels make any MK T tr st H) as (s & Q & D & w & sl & tr' & Hs & R & Hl & _).
    destruct (projected_run n labels P branch T tr' sl HP Hs) as (sl' & Hx & _).
    pose proof (proj1 (finite_protocols_terminate n labels false P size tr' sl' W FN Hx)). lia.
  - intros Hn. destruct (made_global_progress n labels P branch make any T tr st MK W HP U H) as [|(p & i & st' & _ & Hi & E)]; [assumption|].
    rewrite (Hn p i Hi) in E. discriminate.
Qed.

(** If nobody crashes no operation fails, and when nothing more can happen every role has returned Ok from close and has
    received everything that was sent to it. *)
Lemma made_all_ok : forall n labels P branch make any T tr st, makes n branch labels make ->
  wf_protocol n labels P -> projected n labels P branch T -> all_usable n branch labels T -> mrun_to n branch labels make any T tr st ->
  crash_free tr ->
  (forall p r, 1 <= p <= n -> bresult st p = Some r -> r = ROk) /\
  ((forall p i, i <> ICrash -> mnext n branch labels make any p i st = None) ->
   (forall p, 1 <= p <= n -> bresult st p = Some ROk) /\
   forall g p q, 1 <= p <= n -> 1 <= q <= n -> p <> q -> ins (evs g q (blog st p)) = outs (evs g p (blog st q))).
Proof.
  intros n labels P branch make any T tr st MK W HP U H NC. destruct (projected_dual n labels P branch T HP) as [HT HB].
  destruct (bin_follows n branch labels make any MK T tr st H) as (s & Q & D & w & sl & tr' & Hs & R & _ & Hi).
  destruct (projected_run n labels P branch T tr' sl HP Hs) as (sl' & Hx & [_ Sm] & _).
  assert (NC' : crash_free tr') by (intros p i Hin; destruct (Hi p i Hin) as [-> |Hin']; [discriminate|eapply NC; eauto]).
  destruct (no_crash_all_ok n labels false P tr' sl' W Hx NC') as [A1 A2].
  assert (ER : forall p, 1 <= p <= n -> result_of sl' p = bresult st p).
  { intros p Hp. rewrite <- (srel_result _ _ _ _ _ _ _ _ R Hp). unfold result_of. rewrite (Sm p Hp). reflexivity. }
  assert (EL : forall p, 1 <= p <= n -> t_log (st_thr sl' p) = blog st p).
  { intros p Hp. rewrite <- (Sm p Hp). apply (srel_same _ _ _ _ _ _ _ _ R Hp). }
  split.
  - intros p r Hp Hr. apply (A1 p r Hp). rewrite (ER p Hp). exact Hr.
  - intros Hn. destruct (made_global_progress n labels P branch make any T tr st MK W HP U H) as [Hf|(p & i & st' & _ & Hic & E)];
      [|rewrite (Hn p i Hic) in E; discriminate].
    assert (K : forall p i, i <> ICrash -> next n labels false P p i sl' = None).
    { intros p i Hic. unfold next, exec. destruct ((1 <=? p) && (p <=? n)) eqn:Ep; [|reflexivity].
      apply andb_prop in Ep as [L1 L2]. apply Nat.leb_le in L1, L2. assert (Hp : 1 <= p <= n) by lia.
      destruct (Hf p Hp) as [[r Hr] Ht]. rewrite <- (Sm p Hp).
      destruct R as [_ RT]. destruct (RT p Hp) as [(d & v & dn & u & E1 & E2 & E3 & _) _ [Hc|Hc]].
      - unfold bprog in Hr. rewrite Hr in Hc. destruct Hc.
      - rewrite Ht in E1. rewrite Hc in E2. destruct d; [|discriminate]. destruct v; [|discriminate]. destruct dn; [|discriminate].
        destruct u; [|discriminate]. rewrite E3. unfold bprog in Hr. rewrite Hr. cbn. unfold tstep. cbn [t_trash t_prog]. destruct i; reflexivity. }
    destruct (A2 K) as [B1 B2]. split.
    + intros p Hp. rewrite <- (ER p Hp). apply B1, Hp.
    + intros g p q Hp Hq Hne. rewrite <- (EL p Hp), <- (EL q Hq). apply B2; assumption.
Qed.

