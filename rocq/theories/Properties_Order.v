(** C56: whether hand-written MeshedChannels types can deadlock is decidable: they can be followed to the end exactly
    if the actions of all roles can be put in an order. *)
From Coq Require Import List Arith Bool Lia Permutation.
From Verif Require Import Types WiringProofs Session Mesh MeshSpec Links MeshInv MeshStep MeshSafe MeshRounds MeshLog MeshReach Refine Sim Global MeshGlobal
  MeshSignal MeshClean TidySpec MeshTidy MeshDet MeshSched OrderSpec OrderProofs OrderProj MeshOrder MeshOrderConv
  Properties_Mesh Properties_Global Properties_Schedule.
Import ListNotations.

(** The sessions of all roles are pairwise dual, at the start and after every choice. *)
Definition dual_types (n : nat) (branch : nat -> nat -> nat -> mty) (labels : nat -> nat) (T : nat -> mty) : Prop :=
  dual_mesh n T /\ forall b l, l < labels b -> dual_mesh n (branch b l).
(** In every round that can come, every role has a program; in every round that can come, the types can be followed in some order. *)
Definition writable (n : nat) branch labels T : Prop := forall R p, reached n labels branch T R -> 1 <= p <= n -> script_of n labels R p <> None.
Definition all_ordered (n : nat) branch labels T : Prop := forall R, reached n labels branch T R -> ordered n labels R.

Notation steps_h n branch labels strict T := (Mesh.steps heap_ops n branch labels strict (start n T)).

Lemma ordered_writable : forall n branch labels T, all_ordered n branch labels T -> writable n branch labels T.
Proof. intros n branch labels T H R p HR Hp. destruct (H R HR) as (rank & H1 & _). auto. Qed.

Lemma reached_dual : forall n branch labels T, dual_types n branch labels T -> forall R, reached n labels branch T R -> dual_mesh n R.
Proof. intros n branch labels T [H1 H2] R H. destruct H; auto. Qed.

Lemma steps_end : forall n branch labels strict a tr b p i c, Mesh.steps heap_ops n branch labels strict a tr b ->
  exec heap_ops n branch labels strict p i b = Some c -> Mesh.steps heap_ops n branch labels strict a (tr ++ [(p, i)]) c.
Proof.
  intros n branch labels strict a tr b p i c H. induction H as [st|st q j st1 tr st2 Hx Hs IH]; intros E; cbn; econstructor; eauto. constructor.
Qed.
Lemma runs_are_steps : forall n branch labels strict T f tr st, runs_h n branch labels strict T f tr st -> steps_h n branch labels strict T tr st.
Proof.
  intros n branch labels strict T f tr st H. induction H as [|tr st p i st' _ IH _ Hx]; [constructor|]. eapply steps_end; eauto.
Qed.

(** ** From the specification store to the concrete one *)

Lemma order_heap : forall n branch labels strict T say pick tr st, dual_types n branch labels T -> all_ordered n branch labels T ->
  steps_h n branch labels strict T tr st ->
  (forall p ss hs b, 1 <= p <= n -> t_prog (st_thr st p) = PRun ss SBroadcast hs -> choice_of p ss = Some b -> 0 < labels b -> pick p < labels b) ->
  all_over n st \/ exists p i st', 1 <= p <= n /\ (i = ITau \/ i = IVal (say p) \/ i = ILabel (pick p)) /\
    exec heap_ops n branch labels strict p i st = Some st'.
Proof.
  intros n branch labels strict T say pick tr st HD HO H Hpick. pose proof (ordered_writable _ _ _ _ HO) as HW. destruct HD as [D1 D2].
  pose proof (reached_dual n branch labels T (conj D1 D2)) as HRD.
  destruct (steps_follow n branch labels strict D2 T tr st D1 H) as (sl & Hs & _ & e & F).
  destruct (reach_inv n branch labels strict D2 T D1
              (fun _ hist L thr => xinv n branch labels T (reached n labels branch T) hist thr /\ sinv n L thr)) with (tr := tr) (st := sl)
    as (hist & I & R & _ & X & S); [| |exact Hs|].
  - split; [apply xinv_init; auto; constructor|apply sinv_init; exact D1].
  - intros tr0 hist L thr p i th' L' Hp I R D [X S] C. split; [|eapply sinv_step; eauto].
    eapply xinv_step with (L := L) (strict := strict); eauto; [constructor|]. intros; eapply reached_next; eauto.
  - destruct (order_progress_links n branch labels strict T (reached n labels branch T) HRD HO say pick hist _ _ I R X S)
      as [Hf|(p & Hp & i & Hi & Hc)].
    + intros p ss hs b Hp Ep Hc Hl. destruct F as [_ F]. apply (Hpick p ss (map (beta e) hs) b Hp); [|exact Hc|exact Hl].
      rewrite (F p Hp). cbn. rewrite Ep. reflexivity.
    + left. eapply follows_over; eauto.
    + right. exists p, i. pose proof (exec_follows n branch labels strict p i e st sl I F) as HE.
      destruct (exec heap_ops n branch labels strict p i st) as [st'|] eqn:E1; [eauto|]. unfold exec at 1 in HE.
      assert (Hb : (1 <=? p) && (p <=? n) = true) by (apply andb_true_iff; rewrite !Nat.leb_le; lia). rewrite Hb in HE.
      destruct (tstep link_ops n branch labels strict p i (st_thr sl p) (st_store sl)) as [[th s1]|]; [contradiction|congruence].
Qed.

(** * The test decides whether there is an order *)
Theorem check_decides : forall n labels T, check n labels T = true <-> ordered n labels T.
Proof. exact check_ordered. Qed.
Print Assumptions check_decides.

(** * If there is an order in every round, nobody blocks, whoever crashes and whenever

    For any number of roles, any pairwise dual types (hand-written, recursive through choices or not), with [send] or
    with [send_canceled], any schedule, values, branches and crashes: in every reachable state either every role has
    returned, or some role can do something other than crash. *)
Theorem ordered_progress : forall n branch labels strict T tr st, dual_types n branch labels T -> all_ordered n branch labels T ->
  steps_h n branch labels strict T tr st ->
  all_over n st \/ exists p i st', 1 <= p <= n /\ i <> ICrash /\ exec heap_ops n branch labels strict p i st = Some st'.
Proof.
  intros n branch labels strict T tr st HD HO H.
  destruct (order_heap n branch labels strict T (fun _ => 0) (fun _ => 0) tr st HD HO H) as [Hf|(p & i & st' & Hp & Hi & E)]; auto.
  right. exists p, i, st'. split; [exact Hp|]. split; [|exact E]. destruct Hi as [-> |[-> | ->]]; discriminate.
Qed.
Print Assumptions ordered_progress.

(** The programs only pick branches that exist (in the source a branch is named when it is chosen, so the compiler checks this). *)
Definition in_range n branch labels strict T (f : programs) : Prop := forall tr st p ss hs b, runs_h n branch labels strict T f tr st ->
  1 <= p <= n -> t_prog (st_thr st p) = PRun ss SBroadcast hs -> choice_of p ss = Some b -> 0 < labels b -> f p (t_log (st_thr st p)) < labels b.

(** * If moreover no offer drops a session in use, every run that comes to an end ends well: every role returns Ok *)
Theorem ordered_all_ok : forall n branch labels strict T f tr st, tidy_types n branch labels T -> all_ordered n branch labels T ->
  in_range n branch labels strict T f ->
  runs_h n branch labels strict T f tr st -> complete_h n branch labels strict f st -> all_ok n st.
Proof.
  intros n branch labels strict T f tr st (T1 & T2 & T3) HO HI H C.
  assert (HD : dual_types n branch labels T) by (split; [exact T1|]; intros b l Hl; apply T3, Hl).
  destruct (order_heap n branch labels strict T (fun p => f p (t_log (st_thr st p))) (fun p => f p (t_log (st_thr st p))) tr st HD HO
              (runs_are_steps _ _ _ _ _ _ _ _ H)) as [Hf|(p & i & st' & Hp & Hi & E)].
  - intros p ss hs b Hp Ep Hc Hl. eapply HI; eauto.
  - destruct (runs_follow n branch labels strict (fun b l Hl => proj1 (T3 b l Hl)) T T1 f tr st H) as (sl & e & Hl & I & F).
    destruct (runs_good n branch labels strict (fun b l Hl => proj1 (T3 b l Hl)) (fun b l Hl => proj2 (T3 b l Hl)) T T1 T2 f tr sl Hl) as [hist G].
    intros p Hp. destruct (Hf p Hp) as [[r Er] Et]. split; [|exact Et]. rewrite Er. f_equal.
    destruct F as [_ F]. rewrite (F p Hp) in Er. cbn in Er. apply map_fin in Er. exact (c_ok _ _ _ (o_c _ _ _ _ _ _ G) p r Hp Er).
  - rewrite (C p i) in E; [discriminate|]. destruct Hi as [-> |[-> | ->]]; cbn; auto.
Qed.
Print Assumptions ordered_all_ok.

(** * The converse: if all roles return Ok in some run, the types of every round of that run can be followed in order

    The choices made are those of the logs ([faithful], MeshSpec.v). *)
Theorem ok_was_ordered : forall n branch labels strict T tr st, 1 <= n -> dual_types n branch labels T -> writable n branch labels T ->
  steps_h n branch labels strict T tr st -> (forall p, 1 <= p <= n -> t_prog (st_thr st p) = PFin ROk) ->
  exists hist, faithful n branch labels T hist (fun p => t_log (st_thr st p)) /\
    (forall p, 1 <= p <= n -> t_round (st_thr st p) <= length hist) /\
    forall g, (forall p, 1 <= p <= n -> g <= t_round (st_thr st p)) -> ordered n labels (round_types branch T hist g).
Proof.
  intros n branch labels strict T tr st Hn HD HW H Hok. destruct HD as [D1 D2].
  pose proof (reached_dual n branch labels T (conj D1 D2)) as HRD.
  destruct (steps_follow n branch labels strict D2 T tr st D1 H) as (sl & Hs & _ & e & F).
  destruct (reach_inv n branch labels strict D2 T D1
              (fun _ hist L thr => xinv n branch labels T (reached n labels branch T) hist thr /\ yinv n branch labels T hist thr)) with (tr := tr) (st := sl)
    as (hist & I & R & D & X & Y); [| |exact Hs|].
  - split; [apply xinv_init; auto; constructor|eapply yinv_init with (ok := reached n labels branch T); eauto; constructor].
  - intros tr0 hist L thr p i th' L' Hp I R D [X Y] C. split.
    + eapply xinv_step with (L := L) (strict := strict); eauto; [constructor|]. intros; eapply reached_next; eauto.
    + eapply yinv_step with (L := L) (strict := strict); eauto.
  - destruct F as [_ F]. exists hist. split; [|split].
    + eapply faithful_ext; [|eapply dinv_faithful; exact D]. intros p Hp. rewrite (F p Hp). reflexivity.
    + intros p Hp. rewrite (F p Hp). cbn. apply (r_thr _ _ _ _ _ R p Hp).
    + intros g Hg. eapply yinv_ordered; [exact HW|exact X|exact Y| |].
      * specialize (Hg 1 ltac:(lia)). rewrite (F 1 ltac:(lia)) in Hg. cbn in Hg. pose proof (proj1 (r_thr _ _ _ _ _ R 1 ltac:(lia))). lia.
      * intros p Hp. specialize (Hok p Hp). specialize (Hg p Hp). rewrite (F p Hp) in Hok, Hg. cbn in Hok, Hg. apply map_fin in Hok. auto.
Qed.
Print Assumptions ok_was_ordered.

(** * If the test fails for the first round, no run ends well, whatever the programs, the schedule and the environment do *)
Theorem check_failed_never_ok : forall n branch labels strict T tr st, 1 <= n -> dual_types n branch labels T -> writable n branch labels T ->
  check n labels T = false -> steps_h n branch labels strict T tr st -> exists p, 1 <= p <= n /\ t_prog (st_thr st p) <> PFin ROk.
Proof.
  intros n branch labels strict T tr st Hn HD HW Hc H.
  assert (K : forall m, (forall p, 1 <= p <= m -> t_prog (st_thr st p) = PFin ROk) \/ exists p, 1 <= p <= m /\ t_prog (st_thr st p) <> PFin ROk).
  { induction m as [|m [IH|(p & Hp & IH)]]; [left; intros; lia| |right; exists p; split; [lia|exact IH]].
    assert (E : t_prog (st_thr st (S m)) = PFin ROk \/ t_prog (st_thr st (S m)) <> PFin ROk)
      by (destruct (t_prog (st_thr st (S m))) as [| | |[| |]|]; auto; right; discriminate).
    destruct E as [E|E]; [left|right; exists (S m); split; [lia|exact E]].
    intros p Hp. destruct (Nat.eq_dec p (S m)) as [->|]; [exact E|apply IH; lia]. }
  destruct (K n) as [Hok|]; [exfalso|assumption].
  destruct (ok_was_ordered n branch labels strict T tr st Hn HD HW H Hok) as (hist & _ & _ & HO).
  specialize (HO 0 ltac:(intros; lia)). cbn in HO. apply check_ordered in HO. congruence.
Qed.
Print Assumptions check_failed_never_ok.

(** * Without choices the test decides everything *)
Definition no_choice (n : nat) (labels : nat -> nat) (T : nat -> mty) : Prop := forall p l a, 1 <= p <= n -> script_of n labels T p = Some l -> In a l ->
  match a with AChoose _ | AOffer _ _ => False | _ => True end.

Lemma no_choice_reached : forall n branch labels T, no_choice n labels T -> forall R, reached n labels branch T R -> R = T.
Proof.
  intros n branch labels T H R HR. induction HR as [|R p l b lab HR IH Hp Hs Hin Hl]; [reflexivity|]. subst R. destruct (H p l (AChoose b) Hp Hs Hin).
Qed.

Lemma no_broadcast : forall n labels p r ss l, script n labels p ss r = Some l -> (forall a, In a l -> match a with AChoose _ | AOffer _ _ => False | _ => True end) ->
  tidy p ss r.
Proof.
  intros n labels p r. induction r as [| |x r IH|x r IH|x r1 IH1 r2 IH2|x r1 IH1 r2 IH2]; intros ss l H Hno; cbn; auto.
  apply script_begins in H. inversion H as [x0 r0 t k rest Hx Es Hk E1 E2|x0 r0 t k rest Hx Es Hk E1 E2|x0 r0 b Hx Es E1 E2| |]; subst; rewrite Es.
  - eapply IH; [exact Hk|]. intros a Ha. apply Hno. right. exact Ha.
  - eapply IH; [exact Hk|]. intros a Ha. apply Hno. right. exact Ha.
  - exfalso. exact (Hno _ (or_introl eq_refl)).
Qed.

Theorem choice_free_decided : forall n branch labels strict T f tr st, 1 <= n -> dual_types n branch labels T ->
  (forall p, 1 <= p <= n -> script_of n labels T p <> None) -> no_choice n labels T ->
  (forall b l, l < labels b -> tidy_mesh n (branch b l)) ->
  runs_h n branch labels strict T f tr st -> complete_h n branch labels strict f st ->
  (all_ok n st <-> check n labels T = true).
Proof.
  intros n branch labels strict T f tr st Hn HD Hs Hno HB H C.
  assert (HW : writable n branch labels T).
  { intros R p HR Hp. rewrite (no_choice_reached n branch labels T Hno R HR). auto. }
  split.
  - intros Hok. destruct (check n labels T) eqn:E; [reflexivity|].
    destruct (check_failed_never_ok n branch labels strict T tr st Hn HD HW E (runs_are_steps _ _ _ _ _ _ _ _ H)) as (p & Hp & Hne).
    destruct (Hok p Hp) as [E' _]. contradiction.
  - intros E. apply check_ordered in E.
    assert (HO : all_ordered n branch labels T) by (intros R HR; rewrite (no_choice_reached n branch labels T Hno R HR); exact E).
    eapply ordered_all_ok; eauto.
    + destruct HD as [D1 D2]. split; [exact D1|]. split; [|intros b l Hl; split; auto].
      intros p Hp. specialize (Hs p Hp). unfold script_of in Hs. destruct (script n labels p (fst (T p)) (snd (T p))) as [l|] eqn:El; [|congruence].
      eapply no_broadcast; [exact El|]. intros a Ha. eapply Hno; eauto.
    + (* no role ever comes to a choice *)
      intros tr0 st0 p ss hs b Hr Hp Ep Hc Hl. exfalso.
      destruct HD as [D1 D2]. destruct (steps_follow n branch labels strict D2 T tr0 st0 D1 (runs_are_steps _ _ _ _ _ _ _ _ Hr)) as (sl & Hsl & _ & e & F).
      destruct (reach_inv n branch labels strict D2 T D1 (fun _ hist L thr => xinv n branch labels T (reached n labels branch T) hist thr))
        with (tr := tr0) (st := sl) as (hist & I & R & D & X); [| |exact Hsl|].
      * apply xinv_init; auto; constructor.
      * intros tr1 hist L thr q i th' L' Hq I R D X CA.
        eapply xinv_step with (L := L) (strict := strict); eauto; [constructor|]. intros; eapply reached_next; eauto.
      * destruct F as [_ F]. rewrite (F p Hp) in Ep. cbn in Ep. destruct (t_prog (st_thr sl p)) as [ss' r' hs'| | | |] eqn:Ep'; try discriminate.
        cbn in Ep. injection Ep as -> -> _. destruct (x_run _ _ _ _ _ _ _ X p _ _ _ Hp Ep') as (past & rest & S1 & S2 & _).
        rewrite (no_choice_reached n branch labels T Hno _ (x_ok _ _ _ _ _ _ _ X (t_round (st_thr sl p)))) in S1.
        apply script_begins in S2. inversion S2 as [| | |b0 Hc0 Hl0 E1 E2|]; subst.
        exact (Hno p _ (AChoose b0) Hp S1 ltac:(apply in_or_app; right; left; reflexivity)).
Qed.
Print Assumptions choice_free_decided.

(** * A test for protocols with choices: the rounds after the choices [bs] pass too, and lead to no other choices *)
Definition choices (n : nat) (labels : nat -> nat) (R : nat -> mty) : list nat :=
  flat_map (fun p => flat_map (fun a => match a with AChoose b => [b] | _ => [] end) (script_at n labels R p)) (seq 1 n).
Definition check_round (n : nat) (labels : nat -> nat) (bs : list nat) (R : nat -> mty) : bool :=
  check n labels R && forallb (fun b => existsb (Nat.eqb b) bs) (choices n labels R).
Definition check_all (n : nat) branch labels (bs : list nat) (T : nat -> mty) : bool :=
  check_round n labels bs T && forallb (fun b => forallb (fun l => check_round n labels bs (branch b l)) (seq 0 (labels b))) bs.

Theorem check_all_ordered : forall n branch labels bs T, check_all n branch labels bs T = true -> all_ordered n branch labels T.
Proof.
  intros n branch labels bs T H R HR. apply andb_true_iff in H. destruct H as [H1 H2]. rewrite forallb_forall in H2.
  assert (K : check_round n labels bs R = true).
  { induction HR as [|R p l b lab HR IH Hp Hs Hin Hl]; [exact H1|]. apply andb_true_iff in IH. destruct IH as [_ IH].
    rewrite forallb_forall in IH. assert (Hb : In b (choices n labels R)).
    { apply in_flat_map. exists p. split; [apply in_seq; lia|]. apply in_flat_map. exists (AChoose b). split; [|left; reflexivity].
      unfold script_at. rewrite Hs. exact Hin. }
    specialize (IH b Hb). apply existsb_exists in IH. destruct IH as (b' & Hb' & E). apply Nat.eqb_eq in E. subst b'.
    specialize (H2 b Hb'). rewrite forallb_forall in H2. apply H2. apply in_seq. lia. }
  apply andb_true_iff in K. apply check_ordered, K.
Qed.
Print Assumptions check_all_ordered.

(** * Every well-formed global protocol passes; the test accepts more *)
Theorem projections_ordered : forall n labels P, wf_protocol n labels P -> all_ordered n (branches P n) labels (proj n (first_round P)).
Proof.
  intros n labels P (Hn & W1 & W2) R HR. destruct HR as [|R p l b lab HR Hp Hs Hin Hl]; apply proj_ordered; auto.
Qed.
Print Assumptions projections_ordered.

(** Three roles, each first sends to the next one and then receives from the previous one: all send at once. *)
Definition carousel : nat -> mty := fun p =>
  match p with
  | 1 => ([Snd (PVal 0) End; Rcv (PVal 0) End], SRole 2 (SRole 3 SEnd))
  | 2 => ([Rcv (PVal 0) End; Snd (PVal 0) End], SRole 3 (SRole 1 SEnd))
  | _ => ([Snd (PVal 0) End; Rcv (PVal 0) End], SRole 1 (SRole 2 SEnd))
  end.
Definition no_branch : nat -> nat -> nat -> mty := fun _ _ _ => ([], SEnd).
Definition no_labels : nat -> nat := fun _ => 0.
Theorem beyond_projections : dual_mesh 3 carousel /\ check 3 no_labels carousel = true /\
  forall labels G, wf_round 3 labels G -> ~ forall p, 1 <= p <= 3 -> snd (proj 3 G p) = snd (carousel p).
Proof.
  split; [all_pairs|]. split; [vm_compute; reflexivity|]. intros labels [ms e] [W _] H. cbn in W.
  pose proof (H 1 ltac:(lia)) as H1. pose proof (H 2 ltac:(lia)) as H2. pose proof (H 3 ltac:(lia)) as H3. cbn [proj snd fst] in *.
  destruct ms as [|m ms]; [cbn in *; destruct e as [|c b]; [discriminate|]; cbn in *;
    destruct c as [|[|[|[|c]]]]; cbn in *; discriminate|].
  inversion W as [|m' ms' (M1 & M2 & M3) _]; subst. cbn [stack_of] in *.
  assert (from m = 1 \/ from m = 2 \/ from m = 3) as [E1|[E1|E1]] by lia; assert (into m = 1 \/ into m = 2 \/ into m = 3) as [E2|[E2|E2]] by lia;
    rewrite E1, E2 in *; cbn in *; try congruence; discriminate.
Qed.
Print Assumptions beyond_projections.

(** ** Examples *)

(** The carousel ends well in every schedule. *)
Definition carousel_run (order : list nat) := played 3 no_branch no_labels true zero carousel order 100.
Example carousel_ends : all_done 3 (snd (carousel_run [1; 2; 3])) = true /\
  t_log (st_thr (snd (carousel_run [1; 2; 3])) 1) = [EvSend 0 2 (VData 0 0); EvRecv 0 3 (VData 0 0); EvClose].
Proof. vm_compute. auto. Qed.
Lemma no_labels_none : forall (A : Prop) b l, l < no_labels b -> A.
Proof. intros A b l H. unfold no_labels in H. lia. Qed.
Example carousel_types : dual_types 3 no_branch no_labels carousel /\ (forall p, 1 <= p <= 3 -> script_of 3 no_labels carousel p <> None) /\
  no_choice 3 no_labels carousel.
Proof.
  split; [split; [apply beyond_projections|]; intros b l Hl; exact (no_labels_none _ b l Hl)|]. split.
  - intros p Hp. assert (p = 1 \/ p = 2 \/ p = 3) as [-> | [-> | ->]] by lia; discriminate.
  - intros p l a Hp E Hin. assert (p = 1 \/ p = 2 \/ p = 3) as [-> | [-> | ->]] by lia; cbn in E; injection E as <-;
      cbn in Hin; destruct Hin as [<- |[<- |[<- |[]]]]; exact I.
Qed.
Example carousel_all_ok : forall strict f tr st, runs_h 3 no_branch no_labels strict carousel f tr st ->
  complete_h 3 no_branch no_labels strict f st -> all_ok 3 st.
Proof.
  intros strict f tr st H C. destruct carousel_types as (H1 & H2 & H3).
  apply (choice_free_decided 3 no_branch no_labels strict carousel f tr st ltac:(lia) H1 H2 H3); [|exact H|exact C|vm_compute; reflexivity].
  intros b l Hl. exact (no_labels_none _ b l Hl).
Qed.

(** The ring of C19, in which each first receives, fails the test: no run of it ends well. *)
Example ring_fails : check 3 no_labels ring = false /\ forall p, 1 <= p <= 3 -> script_of 3 no_labels ring p <> None.
Proof.
  split; [vm_compute; reflexivity|]. intros p Hp. assert (p = 1 \/ p = 2 \/ p = 3) as [-> | [-> | ->]] by lia; discriminate.
Qed.
Example ring_never_ok : forall strict tr st, steps_h 3 no_branch no_labels strict ring tr st ->
  exists p, 1 <= p <= 3 /\ t_prog (st_thr st p) <> PFin ROk.
Proof.
  intros strict tr st. apply (check_failed_never_ok 3 no_branch no_labels strict ring tr st ltac:(lia)).
  - split; [apply pairwise_dual_types_can_deadlock|]. intros b l Hl. exact (no_labels_none _ b l Hl).
  - intros R p HR. destruct HR as [|R q l b lab HR Hq Hs Hin Hl]; [apply ring_fails|exact (no_labels_none _ b lab Hl)].
  - apply ring_fails.
Qed.

(** A recursive protocol that no global protocol projects to: in every turn all roles first send to the next one, then receive,
    then role 1 chooses between another turn and the end. *)
Definition turn : nat -> mty := fun p =>
  match p with
  | 1 => ([Snd (PVal 0) (Snd (PChoice 0 2) End); Rcv (PVal 0) (Snd (PChoice 0 3) End)], SRole 2 (SRole 3 SBroadcast))
  | 2 => ([Rcv (PVal 0) (Rcv (PChoice 0 2) End); Snd (PVal 0) End], SRole 3 (SRole 1 (SRole 1 SEnd)))
  | _ => ([Snd (PVal 0) (Rcv (PChoice 0 3) End); Rcv (PVal 0) End], SRole 1 (SRole 2 (SRole 1 SEnd)))
  end.
Definition turns : nat -> nat -> nat -> mty := fun _ l p => match l with 0 => turn p | _ => ([End; End], SEnd) end.
Definition two : nat -> nat := fun _ => 2.
Example turn_checked : check_all 3 turns two [0] turn = true.
Proof. vm_compute. reflexivity. Qed.
Example turn_types : tidy_types 3 turns two turn.
Proof.
  assert (D : dual_mesh 3 turn) by all_pairs.
  assert (D' : dual_mesh 3 (fun _ => ([End; End], SEnd))) by all_pairs.
  assert (U : tidy_mesh 3 turn).
  { intros p Hp. assert (p = 1 \/ p = 2 \/ p = 3) as [-> | [-> | ->]] by lia; cbn; auto;
      intros f s Hf Hs; destruct f as [|[|f]]; cbn in Hf, Hs; try congruence; destruct f; cbn in Hs; discriminate Hs. }
  split; [exact D|]. split; [exact U|]. intros b [|l] _; [auto|]. split; [exact D'|]. intros p Hp. cbn. exact I.
Qed.
(** Role 1 goes for another turn while it has done less than nine things: three turns. *)
Definition three_turns : programs := fun p log => match p with 1 => if length log <? 9 then 0 else 1 | _ => 0 end.
Definition turning (order : list nat) := played 3 turns two true three_turns turn order 300.
Example turning_ends : all_done 3 (snd (turning [2; 3; 1])) = true /\ t_round (st_thr (snd (turning [2; 3; 1])) 2) = 3.
Proof. vm_compute. auto. Qed.
Example turning_ok : all_ok 3 (snd (turning [2; 3; 1])).
Proof.
  intros p Hp. assert (p = 1 \/ p = 2 \/ p = 3) as [-> | [-> | ->]] by lia; vm_compute; auto.
Qed.
Example turn_always_ok : forall strict tr st, runs_h 3 turns two strict turn three_turns tr st ->
  complete_h 3 turns two strict three_turns st -> all_ok 3 st.
Proof.
  intros strict tr st. apply ordered_all_ok; [exact turn_types|exact (check_all_ordered _ _ _ _ _ turn_checked)|].
  intros tr0 st0 p ss hs b _ _ _ _ _. unfold three_turns, two. destruct p as [|[|p]]; [lia| |lia]. destruct (_ <? _); lia.
Qed.
(** And if role 2 crashes at the very start, somebody can still go on, and again. *)
Example turn_crash : exists st, steps_h 3 turns two false turn [(2, ICrash); (1, IVal 5); (3, IVal 6)] st /\ ~ all_over 3 st /\
  exists p i st', 1 <= p <= 3 /\ i <> ICrash /\ exec heap_ops 3 turns two false p i st = Some st'.
Proof.
  assert (E : exists st, steps_h 3 turns two false turn [(2, ICrash); (1, IVal 5); (3, IVal 6)] st /\ result_of st 1 = None).
  { apply outcome_steps. vm_compute. reflexivity. }
  destruct E as (st & H & E). exists st. split; [exact H|].
  assert (Hn : ~ all_over 3 st).
  { intros HA. destruct (HA 1 ltac:(lia)) as [[r Hr] _]. unfold result_of in E. rewrite Hr in E. discriminate. }
  split; [exact Hn|]. destruct turn_types as (D1 & _ & D2).
  destruct (ordered_progress 3 turns two false turn _ st (conj D1 (fun b l Hl => proj1 (D2 b l Hl))) (check_all_ordered _ _ _ _ _ turn_checked) H); tauto.
Qed.
