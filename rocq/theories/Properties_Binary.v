(** C02-C07: binary sessions. *)
From Coq Require Import List Arith Bool Lia.
From Verif Require Import Types Wiring WiringProofs Session Mesh MeshSpec Links LinksProofs Refine Sim MeshWire MeshInv MeshStep MeshKeep
  MeshSafe MeshRounds MeshRun MeshLog MeshReach Global MeshGlobal MeshSignal MeshProgress Properties_Mesh Properties_Global Binary.
Import ListNotations.

(** The executions of a binary protocol. *)
Definition bexecutes (labels : nat -> nat) (strict : bool) (B : binary) := executes 2 labels strict (two B).
Definition bnext (labels : nat -> nat) (strict : bool) (B : binary) := next 2 labels strict (two B).

(** ** The types of the two sides *)

Lemma side_co : forall s, side 2 (bdual s) = co (side 1 s).
Proof. induction s; cbn; try rewrite IHs; reflexivity. Qed.

(** The machine with two roles runs the session of role 1 and its dual. *)
Theorem binary_types : forall s,
  proj 2 (round_of s) 1 = as_role 1 s /\ proj 2 (round_of s) 2 = as_role 2 (bdual s) /\
  side 2 (bdual s) = co (side 1 s).
Proof.
  intros s. split; [|split; [|apply side_co]].
  - unfold proj, as_role, sessions_of. cbn [seq map Nat.sub]. f_equal.
    + f_equal. induction s; cbn in *; try rewrite IHs; reflexivity.
    + induction s; cbn in *; try rewrite IHs; reflexivity.
  - unfold proj, as_role, sessions_of. cbn [seq map Nat.sub]. f_equal.
    + f_equal. induction s; cbn in *; try rewrite IHs; reflexivity.
    + induction s; cbn in *; try rewrite IHs; reflexivity.
Qed.
Print Assumptions binary_types.

Lemma wf_two : forall labels B, wf_binary labels B -> wf_protocol 2 labels (two B).
Proof.
  intros labels B [H1 H2].
  assert (G : forall s, wf_bty labels s -> wf_round 2 labels (round_of s)).
  { induction s; cbn; intros H.
    - split; [constructor|exact I].
    - destruct (IHs H) as [A C]. split; [|exact C]. constructor; [|exact A]. repeat split; cbn; lia.
    - destruct (IHs H) as [A C]. split; [|exact C]. constructor; [|exact A]. repeat split; cbn; lia.
    - split; [constructor|]. cbn. split; [lia|exact H].
    - split; [constructor|]. cbn. split; [lia|exact H]. }
  split; [lia|]. split; [apply G, H1|]. intros b l Hl. apply G, H2, Hl.
Qed.

Lemma weight_two : forall size s, weight 2 size (round_of s) = bsize size s.
Proof. intros size. induction s; cbn in *; try lia; unfold weight in *; cbn in *; lia. Qed.

Lemma finite_two : forall labels B size, finite_binary labels B size -> finite_protocol 2 labels (two B) size.
Proof. intros labels B size H b l Hl. cbn. rewrite weight_two. apply H, Hl. Qed.

Lemma bdual_mesh : forall labels B b l, l < labels b -> dual_mesh 2 (branches (two B) 2 b l).
Proof. intros labels B b l Hl. exact (branch_g_dual 2 labels (two B) b l Hl). Qed.
Lemma bfirst_dual : forall B, dual_mesh 2 (proj 2 (first_round (two B))).
Proof. intros B. exact (T_g_dual 2 (two B)). Qed.

Definition peer_of (p : nat) : nat := 3 - p.

(** The session type that side p follows after the choices [hist] (label chosen of each enum). *)
Definition declared (B : binary) (hist : list (nat * nat * nat)) (g p : nat) : sty :=
  let s := match g with
           | 0 => b_first B
           | S g' => match nth_error hist g' with Some (_, b, l) => b_body B b l | None => b_first B end
           end in
  if p =? 1 then side 1 s else side 2 (bdual s).

Lemma sess_declared : forall B hist g p, 1 <= p <= 2 ->
  sess (round_types (branches (two B) 2) (proj 2 (first_round (two B))) hist g) p (peer_of p) = declared B hist g p.
Proof.
  intros B hist g p Hp.
  assert (G : forall s, sess (proj 2 (round_of s)) p (peer_of p) = if p =? 1 then side 1 s else side 2 (bdual s)).
  { intros s. destruct (binary_types s) as (H1 & H2 & _). unfold sess.
    assert (p = 1 \/ p = 2) as [-> | ->] by lia; [rewrite H1|rewrite H2]; reflexivity. }
  unfold declared, round_types. destruct g as [|g]; [apply G|].
  destruct (nth_error hist g) as [[[c b] l]|]; [|apply G]. apply G.
Qed.

(** * C02 *)

(** At every moment, whatever the schedule, values, branches and crashes: what a side received in each round
    is a prefix of what the other side sent in it, in the same order; all actions of a side follow
    its declared session type (so every received value has the announced payload type); and no side ever
    holds a message it did not expect. *)
Theorem binary_delivery : forall labels strict B tr st,
  bexecutes labels strict B tr st ->
  exists hist, forall p, 1 <= p <= 2 ->
    (forall g, is_prefix (ins (evs g (peer_of p) (t_log (st_thr st p)))) (outs (evs g p (t_log (st_thr st (peer_of p)))))) /\
    (forall g, after labels (declared B hist g p) (evs g (peer_of p) (t_log (st_thr st p))) <> None) /\
    (forall hs, t_prog (st_thr st p) <> PStuck hs) /\
    (forall g x v, In (EvSend g x v) (t_log (st_thr st p)) \/ In (EvRecv g x v) (t_log (st_thr st p)) ->
       forall b l j, v = VLabel b l j -> exists c, nth_error hist g = Some (c, b, l)).
Proof.
  intros labels strict B tr st H.
  destruct (multiparty_safe 2 (branches (two B) 2) labels strict (proj 2 (first_round (two B))) tr st
              (bdual_mesh labels B) (bfirst_dual B) H) as (hist & F & _ & Hst & _).
  exists hist. intros p Hp. assert (Hq : 1 <= peer_of p <= 2 /\ p <> peer_of p) by (unfold peer_of; lia). destruct Hq as [Hq Hne].
  split; [|split; [|split]].
  - intros g. exact (received_was_sent _ _ _ _ _ _ F g p (peer_of p) Hp Hq Hne).
  - intros g. rewrite <- sess_declared by exact Hp. exact (follows_type _ _ _ _ _ _ F g p (peer_of p) Hp Hq Hne).
  - intros hs. apply Hst, Hp.
  - intros g x v Hin b l j ->. destruct Hin as [Hin|Hin].
    + exists p. apply (label_sent _ _ _ _ _ _ F g p x b l j Hp Hin).
    + exists x. apply (label_received _ _ _ _ _ _ F g p x b l j Hp Hin).
Qed.
Print Assumptions binary_delivery.

(** A recursive example: the parent sends two numbers and gets one back, then chooses to do it again
    or to stop (labels 0 and 1 of enum 0). *)
Definition sum : bty := BSnd 1 (BSnd 1 (BRcv 1 (BChoose 0))).
Definition again : binary := Bin sum (fun _ l => match l with 0 => sum | _ => BEnd end).
Definition two_labels (b : nat) : nat := 2.
Example again_wf : wf_binary two_labels again.
Proof. split; [cbn; unfold two_labels; lia|]. intros b [|l] _; cbn; unfold two_labels; auto; lia. Qed.

(** The child crashes in the second round after one of the two numbers. *)
Definition again_schedule : list (nat * inp) :=
  [(1, IVal 3); (1, IVal 4)] ++ tau 2 2 ++ [(2, IVal 7)] ++ tau 1 1 ++ [(1, ILabel 0)] ++ tau 1 4 ++ [(1, IVal 5)] ++ tau 2 4 ++
  [(1, IVal 6); (2, ICrash)] ++ tau 2 2.
Definition logs2 (st : @state heap ep) := (t_log (st_thr st 1), t_log (st_thr st 2)).
Example again_runs : exists st, bexecutes two_labels false again again_schedule st /\
  (logs2 st, result_of st 2, t_trash (st_thr st 2)) =
  ([EvSend 0 2 (VData 1 3); EvSend 0 2 (VData 1 4); EvRecv 0 2 (VData 1 7); EvSend 0 2 (VLabel 0 0 2);
    EvSend 1 2 (VData 1 5); EvSend 1 2 (VData 1 6)],
   [EvRecv 0 1 (VData 1 3); EvRecv 0 1 (VData 1 4); EvSend 0 1 (VData 1 7); EvRecv 0 1 (VLabel 0 0 2);
    EvRecv 1 1 (VData 1 5)], Some RCrash, []).
Proof. apply outcome_steps. vm_compute. reflexivity. Qed.

(** * C03 *)

Lemma map_run : forall (f : handle -> ep) pr ss r hs, map_prog f pr = PRun ss r hs ->
  exists hl, pr = PRun ss r hl /\ hs = map f hl.
Proof. intros f pr ss r hs H. destruct pr; try discriminate. cbn in H. injection H as -> -> <-. eauto. Qed.

Lemma map_nil : forall A B (f : A -> B) l, map f l = [] -> l = [].
Proof. intros A B f [|x l] H; [reflexivity|discriminate]. Qed.

(** The step exists in the specification machine, and what it is. *)
Lemma send_case : forall n branch labels strict p v sl ss x r hl t k,
  (forall b l, l < labels b -> dual_mesh n (branch b l)) ->
  inv n branch labels (st_store sl) (st_thr sl) -> 1 <= p <= n -> peer_role n p x ->
  t_prog (st_thr sl p) = PRun ss (SRole x r) hl -> t_trash (st_thr sl p) = [] ->
  nth_error ss (field_pos p x) = Some (Snd (PVal t) k) ->
  exists sl' h, nth_error hl (field_pos p x) = Some h /\ lty (st_store sl) h = Snd (PVal t) k /\
    exec link_ops n branch labels strict p (IVal v) sl = Some sl' /\
    ((t_prog (st_thr sl' p) = PRun (set_nth (field_pos p x) k ss) r hl /\
      t_log (st_thr sl' p) = t_log (st_thr sl p) ++ [EvSend (t_round (st_thr sl p)) x (VData t v)] /\
      (strict = true -> exists L', lk_send h (VData t v) [] k (st_store sl) = SentOk h L')) \/
     (t_prog (st_thr sl' p) = PFin RErr /\ strict = true /\
      exists lost L', lk_send h (VData t v) [] k (st_store sl) = SentLost h lost L')).
Proof.
  intros n branch labels strict p v sl ss x r hl t k HB I Hp Hx Ep Et Es.
  pose proof (i_prog _ _ _ _ _ I p Hp) as HP. rewrite Ep in HP. cbn in HP. destruct HP as (Hl & Hf & H2).
  pose proof (Forall2_len _ _ _ _ _ H2) as Hlen. pose proof (nth_error_len _ _ _ _ Es) as Hlt.
  destruct (nth_error hl (field_pos p x)) as [h|] eqn:Eh; [|apply nth_error_None in Eh; lia].
  destruct (Forall2_nth _ _ _ _ _ _ _ _ H2 Eh Es) as [Hty Hqu].
  assert (Hfu : full h = true) by (rewrite Forall_forall in Hf; apply Hf; eapply nth_error_In; eauto).
  assert (Hex : exists sl', exec link_ops n branch labels strict p (IVal v) sl = Some sl').
  { unfold exec. assert (Hb : (1 <=? p) && (p <=? n) = true) by (apply andb_true_iff; rewrite !Nat.leb_le; lia). rewrite Hb.
    unfold tstep. rewrite Et, Ep. rewrite (callable_true n p x Hx), comm_field_pos by (destruct Hx; lia).
    rewrite Es, Eh. unfold do_send. cbn [op_send link_ops]. destruct h as [[m s] f]. cbn [full] in Hfu.
    cbn in Hfu. subst f. unfold lk_send. cbn [lty] in Hty. rewrite Hty. cbn [andb is_snd].
    destruct (l_open (lk (st_store sl) m) (negb s)); [eauto|]. destruct strict; eauto. }
  destruct Hex as [sl' Ex]. exists sl', h. split; [reflexivity|]. split; [exact Hty|]. split; [exact Ex|].
  destruct sl as [L thr]. cbn [st_store st_thr] in *.
  destruct (exec_case n branch labels strict HB p (IVal v) L thr sl' I Ex) as (_ & th' & L' & -> & C).
  cbn [st_thr]. rewrite set_here.
  inversion C as [| |v0 x0 ss0 r0 hs0 t0 k0 h0 L0 A1 A2 A3 A4 A5 A6|v0 x0 ss0 r0 hs0 t0 k0 h0 lost0 L0 A1 A2 A3 A4 A5 A6 A7
                 |v0 x0 ss0 r0 hs0 t0 k0 h0 lost0 L0 A1 A2 A3 A4 A5 A6 A7| | | | | | | | | | | | | | |]; subst; try congruence;
    rewrite Ep in A2; injection A2 as <- <- <- <-; rewrite Es in A4; injection A4 as <- <-; rewrite Eh in A5; injection A5 as <-.
  - left. split; [reflexivity|]. split; [reflexivity|]. intros _. eauto.
  - left. split; [reflexivity|]. split; [reflexivity|]. congruence.
  - right. split; [reflexivity|]. split; [reflexivity|]. eauto.
Qed.

(** [send] never blocks and never fails: in every reachable state of any session (binary or with n roles,
    any pairwise dual types), a thread whose next action is a send can do it at once, with any value, whatever
    the others have done, crashed or dropped; and with [send] (not [send_canceled]) the thread goes
    on with the continuation of its session. *)
Theorem send_never_blocks : forall n branch labels strict T tr st p ss x r hs t k v,
  (forall b l, l < labels b -> dual_mesh n (branch b l)) -> dual_mesh n T ->
  steps heap_ops n branch labels strict (start n T) tr st ->
  1 <= p <= n -> 1 <= x <= n -> x <> p ->
  t_prog (st_thr st p) = PRun ss (SRole x r) hs -> t_trash (st_thr st p) = [] ->
  nth_error ss (field_pos p x) = Some (Snd (PVal t) k) ->
  exists st', exec heap_ops n branch labels strict p (IVal v) st = Some st' /\
    ((exists hs', t_prog (st_thr st' p) = PRun (set_nth (field_pos p x) k ss) r hs' /\
        t_log (st_thr st' p) = t_log (st_thr st p) ++ [EvSend (t_round (st_thr st p)) x (VData t v)]) \/
     strict = true /\ result_of st' p = Some RErr).
Proof.
  intros n branch labels strict T tr st p ss x r hs t k v HB HT H Hp Hx Hne Ep Et Es.
  destruct (reach_heap n branch labels strict HB T HT tr st H) as (hist & sl & e & Hs & F & I & _).
  pose proof F as F0. destruct F0 as [_ F0]. rewrite (F0 p Hp) in Ep, Et. cbn in Ep, Et.
  apply map_run in Ep. destruct Ep as (hl & Ep & ->). apply map_nil in Et.
  destruct (send_case n branch labels strict p v sl ss x r hl t k HB I Hp (conj Hne Hx) Ep Et Es) as (sl' & h & _ & _ & Ex & HC).
  pose proof (exec_follows n branch labels strict p (IVal v) e st sl I F) as HE. rewrite Ex in HE.
  destruct (exec heap_ops n branch labels strict p (IVal v) st) as [st'|]; [|contradiction].
  destruct HE as (e' & _ & F'). exists st'. split; [reflexivity|]. unfold result_of. rewrite (F' p Hp), (F0 p Hp). cbn.
  destruct HC as [(-> & -> & _)|(-> & -> & _)].
  - left. cbn. eauto.
  - right. auto.
Qed.
Print Assumptions send_never_blocks.

(** The parent sends twice though the child crashed before it even started. *)
Definition lonely_schedule : list (nat * inp) := [(2, ICrash)] ++ tau 2 1 ++ [(1, IVal 3)].
Example lonely_runs : exists st, bexecutes two_labels false again lonely_schedule st /\
  (result_of st 2, match t_prog (st_thr st 1) with PRun ss r _ => Some (ss, r) | _ => None end) =
  (Some RCrash, Some ([side 1 (BSnd 1 (BRcv 1 (BChoose 0)))], SRole 2 (SRole 2 SBroadcast))).
Proof. apply outcome_steps. vm_compute. reflexivity. Qed.

(** * C04 *)

Lemma steps_snoc : forall n branch labels strict a tr b p i c,
  steps heap_ops n branch labels strict a tr b -> exec heap_ops n branch labels strict p i b = Some c ->
  steps heap_ops n branch labels strict a (tr ++ [(p, i)]) c.
Proof.
  intros n branch labels strict a tr b p i c H Hx. induction H as [s|s0 q j s1 tr s2 E Hs IH].
  - econstructor; [exact Hx|constructor].
  - cbn. econstructor; [exact E|apply IH, Hx].
Qed.

(** A thread that has not returned has not crashed. *)
Lemma alive_no_crash : forall n branch labels strict a tr b, steps heap_ops n branch labels strict a tr b ->
  forall q, result_of b q = None -> ~ In (q, ICrash) tr.
Proof.
  intros n branch labels strict.
  assert (Hkeep : forall a tr b, steps heap_ops n branch labels strict a tr b -> forall q r, result_of a q = Some r -> result_of b q = Some r).
  { intros a tr b H. induction H as [s|s0 p i s1 tr s2 E Hs IH]; intros q r Hr; [exact Hr|]. apply IH.
    unfold exec in E. destruct ((1 <=? p) && (p <=? n)); [|discriminate].
    destruct (tstep heap_ops n branch labels strict p i (st_thr s0 p) (st_store s0)) as [[th s']|] eqn:Et; [|discriminate].
    injection E as <-. unfold result_of, set_thr in *. cbn [st_thr].
    destruct (Nat.eqb_spec q p) as [->|]; [|exact Hr]. unfold tstep in Et.
    destruct (t_trash (st_thr s0 p)) as [|y rest]; destruct (t_prog (st_thr s0 p)) as [| | |res|]; try discriminate.
    destruct i; try discriminate. cbn [op_drop heap_ops] in Et. destruct (heap_drop y (st_store s0)) as [out s2'].
    injection Et as <- _. exact Hr. }
  intros a tr b H. induction H as [s|s0 p i s1 tr s2 E Hs IH]; intros q Hq Hin; [contradiction|].
  destruct Hin as [Hin|Hin]; [|exact (IH q Hq Hin)]. injection Hin as -> ->.
  assert (Hc : result_of s1 q = Some RCrash).
  { unfold exec in E. destruct ((1 <=? q) && (q <=? n)); [|discriminate].
    destruct (tstep heap_ops n branch labels strict q ICrash (st_thr s0 q) (st_store s0)) as [[th s']|] eqn:Et; [|discriminate].
    injection E as <-. unfold result_of, set_thr. cbn [st_thr]. rewrite Nat.eqb_refl. unfold tstep in Et.
    destruct (t_trash (st_thr s0 q)) as [|y rest]; [|discriminate].
    destruct (t_prog (st_thr s0 q)) as [ss r hs|b l pend own|x r hs|res|hs]; try discriminate; injection Et as <- _; reflexivity. }
  rewrite (Hkeep _ _ _ Hs q _ Hc) in Hq. discriminate.
Qed.

(** No thread other than the n is ever scheduled. *)
Lemma steps_roles : forall n branch labels strict a tr b, steps heap_ops n branch labels strict a tr b ->
  forall q i, In (q, i) tr -> 1 <= q <= n.
Proof.
  intros n branch labels strict a tr b H. induction H as [s|s0 p j s1 tr s2 E Hs IH]; intros q i Hin; [contradiction|].
  destruct Hin as [Hin|Hin]; [|eauto]. injection Hin as -> ->. unfold exec in E.
  destruct ((1 <=? q) && (q <=? n)) eqn:Eb; [|discriminate]. apply andb_true_iff in Eb. rewrite !Nat.leb_le in Eb. exact Eb.
Qed.

(** [send_canceled] between two threads: it returns Ok and the session goes on as long as the peer has
    not returned (from whatever cause); once the peer has returned and dropped what it held, it panics. While
    the peer is dropping, either may happen, as the peer may or may not have dropped its end yet. *)
Theorem send_canceled_exact : forall labels B tr st p ss r hs t k v,
  wf_binary labels B -> bexecutes labels true B tr st -> 1 <= p <= 2 ->
  t_prog (st_thr st p) = PRun ss (SRole (peer_of p) r) hs -> t_trash (st_thr st p) = [] ->
  nth_error ss 0 = Some (Snd (PVal t) k) ->
  exists st', bnext labels true B p (IVal v) st = Some st' /\
    (result_of st (peer_of p) = None ->
       exists hs', t_prog (st_thr st' p) = PRun (set_nth 0 k ss) r hs') /\
    (forall res, result_of st (peer_of p) = Some res -> t_trash (st_thr st (peer_of p)) = [] ->
       result_of st' p = Some RErr).
Proof.
  intros labels B tr st p ss r hs t k v W H Hp Ep Et Es.
  assert (Hq : 1 <= peer_of p <= 2 /\ peer_of p <> p) by (unfold peer_of; lia). destruct Hq as [Hq Hne].
  assert (Hfp : field_pos p (peer_of p) = 0) by (unfold field_pos, peer_of; destruct (Nat.ltb_spec (3 - p) p); lia).
  rewrite <- Hfp in Es |- *.
  pose proof H as H0. unfold bexecutes, executes in H0.
  destruct (send_never_blocks 2 _ labels true _ tr st p ss (peer_of p) r hs t k v (bdual_mesh labels B) (bfirst_dual B) H0
              Hp Hq Hne Ep Et Es) as (st' & Ex & HC).
  exists st'. split; [exact Ex|]. split.
  - intros Hr. destruct HC as [(hs' & E & _)|[_ E]]; [eauto|]. exfalso.
    assert (Hcf : crash_free (tr ++ [(p, IVal v)])).
    { intros q i Hin ->. apply in_app_or in Hin. destruct Hin as [Hin|[Hin|[]]]; [|discriminate].
      pose proof (steps_roles _ _ _ _ _ _ _ H0 q ICrash Hin) as Hq'.
      assert (q = p \/ q = peer_of p) as [-> | ->] by (unfold peer_of; lia).
      - apply (alive_no_crash _ _ _ _ _ _ _ H0 p) in Hin; [exact Hin|]. unfold result_of. rewrite Ep. reflexivity.
      - apply (alive_no_crash _ _ _ _ _ _ _ H0 (peer_of p)) in Hin; [exact Hin|exact Hr]. }
    assert (Hs : executes 2 labels true (two B) (tr ++ [(p, IVal v)]) st')
      by (unfold executes; eapply steps_snoc; eauto).
    destruct (no_crash_all_ok 2 labels true (two B) _ st' (wf_two labels B W) Hs Hcf) as [HO _].
    specialize (HO p RErr Hp E). discriminate.
  - intros res Hr Htr.
    destruct (reach_heap 2 _ labels true (bdual_mesh labels B) _ (bfirst_dual B) tr st H0) as (hist & sl & e & Hs & F & I & R & _).
    pose proof F as F0. destruct F0 as [_ F0]. unfold result_of in Hr. rewrite (F0 p Hp) in Ep, Et. cbn in Ep, Et.
    rewrite (F0 _ Hq) in Hr, Htr. cbn [map_thread t_prog t_trash] in Hr, Htr.
    apply map_run in Ep. destruct Ep as (hl & Ep & ->). apply map_nil in Et. apply map_nil in Htr.
    destruct (map_prog (beta e) (t_prog (st_thr sl (peer_of p)))) as [| | |r0|] eqn:Eq; try discriminate. apply map_fin in Eq.
    destruct (send_case 2 _ labels true p v sl ss (peer_of p) r hl t k (bdual_mesh labels B) I Hp (conj Hne Hq) Ep Et Es)
      as (sl' & h & Eh & Hty & Exl & HCl).
    pose proof (exec_follows 2 _ labels true p (IVal v) e st sl I F) as HE. rewrite Exl in HE.
    rewrite Ex in HE. destruct HE as (e' & _ & F'). unfold result_of. rewrite (F' p Hp). cbn.
    destruct HCl as [(_ & _ & Hok)|(-> & _)]; [|reflexivity]. exfalso.
    destruct (Hok eq_refl) as [L' Hsend].
    assert (Hse : settled 2 (st_thr sl)).
    { intros a Ha. assert (a = p \/ a = peer_of p) as [-> | ->] by (unfold peer_of; lia).
      - rewrite Et, Ep. split; [reflexivity|discriminate].
      - rewrite Htr, Eq. split; [reflexivity|discriminate]. }
    pose proof (r_thr _ _ _ _ _ R p Hp) as [_ HRp]. rewrite Ep in HRp. destruct HRp as [-> _].
    pose proof (mesh_nth 2 (t_round (st_thr sl p)) p (peer_of p) Hp (conj Hne Hq)) as Hm.
    rewrite Hm in Eh. injection Eh as <-.
    unfold hnd in Hsend. apply send_shape in Hsend. destruct Hsend as [Hop _].
    assert (Hpp : peer_role 2 (peer_of p) p) by (split; [congruence|exact Hp]).
    destruct (holder 2 labels (two B) hist (st_store sl) (st_thr sl) I R Hse (t_round (st_thr sl p)) (peer_of p) p Hq Hpp) as [_ Hrun].
    + unfold hnd. apply full_avail. rewrite (lnk_sym 2). rewrite (side_other p (peer_of p)) by congruence. split; [|exact Hop].
      rewrite (r_next _ _ _ _ _ R). pose proof (lnk_range 2 (t_round (st_thr sl p)) p (peer_of p) Hp (conj Hne Hq)) as Hlr.
      pose proof (proj1 (r_thr _ _ _ _ _ R p Hp)). nia.
    + unfold running in Hrun. rewrite Eq in Hrun. exact Hrun.
Qed.
Print Assumptions send_canceled_exact.

(** Both outcomes happen: the second number is accepted while the child waits, refused after it crashed
    and dropped its end. *)
Definition refused_schedule : list (nat * inp) := [(1, IVal 3)] ++ tau 2 1 ++ [(2, ICrash)] ++ tau 2 1 ++ [(1, IVal 4)].
Example refused_runs :
  (exists st, bexecutes two_labels true again ([(1, IVal 3)] ++ tau 2 1 ++ [(1, IVal 4)]) st /\
     (result_of st 2, result_of st 1) = (None, None)) /\
  exists st, bexecutes two_labels true again refused_schedule st /\ (result_of st 2, result_of st 1) = (Some RCrash, Some RErr).
Proof. split; apply outcome_steps; vm_compute; reflexivity. Qed.

(** * C05 *)

(** Parent and child never wait for each other: in every reachable state, with any crashes, either both
    threads have returned or one of them can go on. *)
Theorem binary_no_deadlock : forall labels strict B tr st,
  wf_binary labels B -> bexecutes labels strict B tr st ->
  all_over 2 st \/ exists p i st', 1 <= p <= 2 /\ i <> ICrash /\ bnext labels strict B p i st = Some st'.
Proof. intros labels strict B tr st W H. exact (global_progress 2 labels strict (two B) tr st (wf_two labels B W) H). Qed.
Print Assumptions binary_no_deadlock.

(** If the protocol is finite, every execution has a bounded number of steps; and if nobody crashes, an execution
    that cannot go on has both closes returning Ok and everything that was sent received. *)
Theorem binary_ends_well : forall labels strict B size tr st,
  wf_binary labels B -> finite_binary labels B size -> bexecutes labels strict B tr st ->
  length tr <= 4 + 7 * (2 * bsize size (b_first B)) /\
  (crash_free tr -> (forall p i, i <> ICrash -> bnext labels strict B p i st = None) ->
     forall p, 1 <= p <= 2 -> result_of st p = Some ROk /\
       forall g, ins (evs g (peer_of p) (t_log (st_thr st p))) = outs (evs g p (t_log (st_thr st (peer_of p))))).
Proof.
  intros labels strict B size tr st W FN H. split.
  - pose proof (proj1 (finite_protocols_terminate 2 labels strict (two B) size tr st (wf_two labels B W)
                        (finite_two labels B size FN) H)) as HB.
    unfold longest in HB. cbn [first_round two] in HB. rewrite weight_two in HB. exact HB.
  - intros NC Hmax p Hp.
    destruct (no_crash_all_ok 2 labels strict (two B) tr st (wf_two labels B W) H NC) as [_ HO].
    destruct (HO Hmax) as [H1 H2]. split; [apply H1, Hp|]. intros g. apply H2; unfold peer_of; lia.
Qed.
Print Assumptions binary_ends_well.

(** A finite protocol: two numbers, their sum, and then either the end or one more number. *)
Definition finite_sum : binary := Bin sum (fun _ l => match l with 0 => BRcv 1 BEnd | _ => BEnd end).
Example finite_sum_wf : wf_binary two_labels finite_sum /\ finite_binary two_labels finite_sum (fun _ => 5).
Proof.
  split; [split; [cbn; unfold two_labels; lia|]|]; intros b [|l] _; cbn; auto; lia.
Qed.
Definition finite_sum_schedule : list (nat * inp) :=
  [(1, IVal 3); (1, IVal 4)] ++ tau 2 2 ++ [(2, IVal 7)] ++ tau 1 1 ++ [(1, ILabel 0)] ++ tau 1 4 ++ tau 2 3 ++ [(2, IVal 9)] ++
  tau 1 1 ++ tau 1 2 ++ tau 2 4 ++ tau 1 2 ++ tau 1 2 ++ tau 2 2.
Example finite_sum_runs : exists st, bexecutes two_labels true finite_sum finite_sum_schedule st /\ crash_free finite_sum_schedule /\
  (result_of st 1, result_of st 2, t_trash (st_thr st 1), t_trash (st_thr st 2)) = (Some ROk, Some ROk, [], []).
Proof.
  assert (E : exists st, bexecutes two_labels true finite_sum finite_sum_schedule st /\
    (result_of st 1, result_of st 2, t_trash (st_thr st 1), t_trash (st_thr st 2)) = (Some ROk, Some ROk, [], [])).
  { apply outcome_steps. vm_compute. reflexivity. }
  destruct E as (st & H & E). exists st. split; [exact H|]. split; [|exact E].
  intros p i Hin. unfold finite_sum_schedule, tau in Hin. cbn in Hin. repeat destruct Hin as [Hin|Hin]; try discriminate; try contradiction;
    injection Hin as _ <-; discriminate.
Qed.

(** * C06 *)

(** Once the peer has returned, for whatever reason, and dropped what it held, a thread that has not returned
    is never blocked. In particular [recv] and [offer] return: either with a message or with an error. *)
Theorem crash_never_hangs : forall labels strict B tr st p res,
  wf_binary labels B -> bexecutes labels strict B tr st -> 1 <= p <= 2 ->
  result_of st (peer_of p) = Some res -> t_trash (st_thr st (peer_of p)) = [] -> result_of st p = None ->
  (exists i st', i <> ICrash /\ bnext labels strict B p i st = Some st') /\
  forall ss r hs P k, t_prog (st_thr st p) = PRun ss (SRole (peer_of p) r) hs -> t_trash (st_thr st p) = [] ->
    nth_error ss 0 = Some (Rcv P k) ->
    exists st', bnext labels strict B p ITau st = Some st' /\
      ((exists v, t_log (st_thr st' p) = t_log (st_thr st p) ++ [EvRecv (t_round (st_thr st p)) (peer_of p) v]) \/
       result_of st' p = Some RErr).
Proof.
  intros labels strict B tr st p res W H Hp Hr Htr Hn.
  assert (Hcan : exists i st', i <> ICrash /\ bnext labels strict B p i st = Some st').
  { destruct (global_progress 2 labels strict (two B) tr st (wf_two labels B W) H) as [HA|(q & i & st' & Hq & Hi & E)].
    - exfalso. destruct (HA p Hp) as [[r E] _]. unfold result_of in Hn. rewrite E in Hn. discriminate.
    - destruct (Nat.eq_dec q p) as [->|Hne]; [exists i, st'; auto|]. exfalso.
      assert (q = peer_of p) as -> by (unfold peer_of; lia).
      unfold next, exec in E. destruct ((1 <=? peer_of p) && (peer_of p <=? 2)); [|discriminate].
      unfold tstep in E. rewrite Htr in E. unfold result_of in Hr.
      destruct (t_prog (st_thr st (peer_of p))); discriminate. }
  split; [exact Hcan|]. intros ss r hs P k Ep Et Es.
  assert (Hq : 1 <= peer_of p <= 2 /\ peer_of p <> p) by (unfold peer_of; lia). destruct Hq as [Hq Hne].
  assert (Hfp : field_pos p (peer_of p) = 0) by (unfold field_pos, peer_of; destruct (Nat.ltb_spec (3 - p) p); lia).
  rewrite <- Hfp in Es. destruct Hcan as (i & st' & Hi & E).
  destruct (reach_heap 2 _ labels strict (bdual_mesh labels B) _ (bfirst_dual B) tr st H) as (hist & sl & e & Hs & F & I & _).
  pose proof (exec_follows 2 _ labels strict p i e st sl I F) as HE.
  unfold bnext, next in E |- *. rewrite E in HE. destruct (exec link_ops 2 _ labels strict p i sl) as [sl'|] eqn:El; [|contradiction].
  destruct F as [_ F]. rewrite (F p Hp) in Ep, Et. cbn [map_thread t_prog t_trash] in Ep, Et. apply map_run in Ep. destruct Ep as (hl & Ep & ->). apply map_nil in Et.
  destruct HE as (e' & _ & F'). destruct sl as [L thr]. cbn [st_store st_thr] in *.
  destruct (exec_case 2 _ labels strict (bdual_mesh labels B) p i L thr sl' I El) as (_ & th' & L' & -> & C).
  assert (Hcase : i = ITau /\ ((exists v, t_log th' = t_log (thr p) ++ [EvRecv (t_round (thr p)) (peer_of p) v]) \/ t_prog th' = PFin RErr)).
  { inversion C; subst; try congruence;
      match goal with A : t_prog (thr p) = PRun _ _ _ |- _ => rewrite Ep in A; injection A; intros; subst end;
      try congruence; split; try reflexivity; cbn [t_log t_prog fin]; eauto. }
  destruct Hcase as [-> Hc]. exists st'. split; [exact E|]. unfold result_of. rewrite (F' p Hp), (F p Hp). cbn [st_thr map_thread t_log t_prog t_round].
  rewrite set_here. destruct Hc as [[v Hc]|Hc]; [left; eauto|right]. rewrite Hc. reflexivity.
Qed.
Print Assumptions crash_never_hangs.

(** Any number of roles: a [recv] (or [offer]) from x only fails when everything that x had sent in this round
    has been received; messages sent before a crash are delivered first. *)
Theorem error_only_after_all_delivered : forall n branch labels strict T tr st p ss x r hs P k st',
  (forall b l, l < labels b -> dual_mesh n (branch b l)) -> dual_mesh n T ->
  steps heap_ops n branch labels strict (start n T) tr st ->
  1 <= p <= n -> 1 <= x <= n -> x <> p ->
  t_prog (st_thr st p) = PRun ss (SRole x r) hs -> t_trash (st_thr st p) = [] ->
  nth_error ss (field_pos p x) = Some (Rcv P k) ->
  exec heap_ops n branch labels strict p ITau st = Some st' -> result_of st' p = Some RErr ->
  let g := t_round (st_thr st p) in
  ins (evs g x (t_log (st_thr st p))) = outs (evs g p (t_log (st_thr st x))).
Proof.
  intros n branch labels strict T tr st p ss x r hs P k st' HB HT H Hp Hx Hne Ep Et Es E Hr g.
  destruct (reach_heap n branch labels strict HB T HT tr st H) as (hist & sl & e & Hs & F & I & R & D).
  pose proof (exec_follows n branch labels strict p ITau e st sl I F) as HE. rewrite E in HE.
  destruct (exec link_ops n branch labels strict p ITau sl) as [sl'|] eqn:El; [|contradiction].
  destruct F as [_ F]. subst g. rewrite (F x Hx). rewrite (F p Hp) in Ep, Et |- *. cbn in Ep, Et. cbn [map_thread t_log t_round].
  apply map_run in Ep. destruct Ep as (hl & Ep & ->). apply map_nil in Et.
  destruct HE as (e' & _ & F'). destruct sl as [L thr]. cbn [st_store st_thr] in *.
  destruct (exec_case n branch labels strict HB p ITau L thr sl' I El) as (_ & th' & L' & -> & C).
  unfold result_of in Hr. rewrite (F' p Hp) in Hr. cbn [st_thr map_thread t_prog] in Hr. rewrite set_here in Hr.
  destruct (map_prog (beta e') (t_prog th')) as [| | |r0|] eqn:Ef; try discriminate. apply map_fin in Ef. injection Hr as ->.
  assert (Hg : exists h L0, nth_error hl (field_pos p x) = Some h /\ lk_recv h L = GotErr L0).
  { inversion C; subst; try congruence; try discriminate;
      match goal with A : t_prog (thr p) = PRun _ _ _ |- _ => rewrite Ep in A; injection A; intros; subst end; eauto. }
  destruct Hg as (h & L0 & Eh & Hrecv).
  pose proof (r_thr _ _ _ _ _ R p Hp) as [_ HRp]. rewrite Ep in HRp. destruct HRp as [-> _].
  assert (Hpx : peer_role n p x) by (split; assumption).
  pose proof (mesh_nth n (t_round (thr p)) p x Hp Hpx) as Hm. pose proof (nth_error_In _ _ Hm) as Hin. rewrite Hm in Eh. injection Eh as <-.
  unfold hnd in Hrecv. apply goterr_shape in Hrecv. destruct Hrecv as (Hpe & _ & _).
  assert (Hk : kept n L thr (hnd n (t_round (thr p)) p x)).
  { eapply (held_kept n branch labels L thr p _ Hp I). rewrite Ep. exact Hin. }
  destruct (d_sync _ _ _ _ _ _ _ D (t_round (thr p)) p x Hp Hpx Hk) as [Hsy _]. rewrite Hsy.
  replace (tow (lk L (lnk n (t_round (thr p)) p x)) (p <? x)) with (@nil value); [symmetry; apply app_nil_r|].
  unfold tow. unfold pending in Hpe. destruct (Bool.eqb (l_to (lk L (lnk n (t_round (thr p)) p x))) (p <? x)); [|reflexivity].
  destruct (l_q (lk L (lnk n (t_round (thr p)) p x))); [reflexivity|discriminate].
Qed.
Print Assumptions error_only_after_all_delivered.

(** The child crashes after the parent sent two numbers of the second round, one of which the child sent
    nothing back for: the parent's [recv] fails. In the other run the child answers and then crashes: the answer is delivered. *)
Example crash_runs :
  (exists st, bexecutes two_labels false again (again_schedule ++ [(1, ITau)]) st /\ result_of st 1 = Some RErr) /\
  exists st, bexecutes two_labels false again ([(1, IVal 3); (1, IVal 4)] ++ tau 2 2 ++ [(2, IVal 7); (2, ICrash)] ++ tau 2 1 ++ tau 1 1) st /\
    (result_of st 2, nth_error (t_log (st_thr st 1)) 2) = (Some RCrash, Some (EvRecv 0 2 (VData 1 7))).
Proof. split; apply outcome_steps; vm_compute; reflexivity. Qed.

(** * C07 *)

(** [close] returns Ok only if the peer has called [close] too; if the peer returned without calling it, the
    result is never Ok, now or later. *)
Theorem binary_close : forall labels strict B tr st,
  bexecutes labels strict B tr st -> forall p, 1 <= p <= 2 ->
  (result_of st p = Some ROk -> In EvClose (t_log (st_thr st p)) /\ In EvClose (t_log (st_thr st (peer_of p)))) /\
  (forall r, result_of st (peer_of p) = Some r -> ~ In EvClose (t_log (st_thr st (peer_of p))) ->
     forall tr' st', steps heap_ops 2 (branches (two B) 2) labels strict st tr' st' -> result_of st' p <> Some ROk).
Proof.
  intros labels strict B tr st H p Hp. assert (Hq : 1 <= peer_of p <= 2) by (unfold peer_of; lia). split.
  - intros Hr. split; eapply (close_ok_means_all_called_close 2 _ labels strict _ tr st (bdual_mesh labels B) (bfirst_dual B) H p Hp Hr); assumption.
  - intros r Hr Hc tr' st' H'.
    eapply (no_ok_after_early_end 2 _ labels strict _ tr tr' st st' (bdual_mesh labels B) (bfirst_dual B) H H' (peer_of p) r Hq Hr Hc p Hp).
Qed.
Print Assumptions binary_close.

(** The peer of a parent inside close crashes in the middle of its own close, after its Stop signal: the
    parent still gets Ok. If it crashes just before close, the parent gets an error. *)
Example close_runs :
  (exists st, bexecutes two_labels true finite_sum
      ([(1, IVal 3); (1, IVal 4)] ++ tau 2 2 ++ [(2, IVal 7)] ++ tau 1 1 ++ [(1, ILabel 1)] ++ tau 1 4 ++ tau 2 3 ++
       tau 1 2 ++ tau 2 2 ++ [(2, ICrash)] ++ tau 2 2 ++ tau 1 2) st /\
     (result_of st 1, result_of st 2) = (Some ROk, Some RCrash)) /\
  exists st, bexecutes two_labels true finite_sum
      ([(1, IVal 3); (1, IVal 4)] ++ tau 2 2 ++ [(2, IVal 7)] ++ tau 1 1 ++ [(1, ILabel 1)] ++ tau 1 4 ++ tau 2 3 ++
       tau 1 2 ++ [(2, ICrash)] ++ tau 2 2 ++ tau 1 1) st /\
     (result_of st 1, result_of st 2) = (Some RErr, Some RCrash).
Proof. split; apply outcome_steps; vm_compute; reflexivity. Qed.
