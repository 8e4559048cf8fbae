(** The two threads of a binary session do the same communications in the same order, one ahead of
    the other by sends only. Proofs for C53. *)
From Coq Require Import List Arith Bool Lia.
From Verif Require Import Types Wiring WiringProofs Session Mesh MeshSpec Global Binary Properties_Mesh Properties_Global Properties_Binary Transport.
Import ListNotations.

Definition flip (e : bool * value) : bool * value := (negb (fst e), snd e).
Definition sends (l : list (bool * value)) : Prop := Forall (fun e => fst e = true) l.

Lemma after_none labels s l : after labels s l <> None -> match l with [] => True | (d, v) :: l' =>
  exists P s', s = (if d then Snd P s' else Rcv P s') /\ has labels v P = true /\ after labels s' l' <> None end.
Proof.
  destruct l as [|[d v] l]; [trivial|]. destruct s as [|P s'|P s']; cbn; intros H; [congruence| |].
  - destruct d; [|cbn in H; congruence]. destruct (has labels v P) eqn:E; [|cbn in H; congruence]. eauto.
  - destruct d; [cbn in H; congruence|]. destruct (has labels v P) eqn:E; [|cbn in H; congruence]. eauto.
Qed.
Lemma co_co s : co (co s) = s.
Proof. induction s; cbn; congruence. Qed.

Lemma no_ins l : ins l = [] -> sends l.
Proof.
  unfold ins, sends. induction l as [|[d v] l IH]; intros H; [constructor|]. cbn in H. destruct d; cbn in H; [|discriminate].
  constructor; [reflexivity|exact (IH H)].
Qed.

Lemma mirror_round labels : forall l1 l2 s, after labels s l1 <> None -> after labels (co s) l2 <> None ->
  is_prefix (ins l1) (outs l2) -> is_prefix (ins l2) (outs l1) ->
  (exists r, l1 = map flip l2 ++ r /\ sends r) \/ (exists r, l2 = map flip l1 ++ r /\ sends r).
Proof.
  induction l1 as [|[d v] l1 IH]; intros l2 s H1 H2 P1 P2.
  - right. exists l2. split; [reflexivity|]. apply no_ins. destruct P2 as [c Hc]. destruct (ins l2); [reflexivity|discriminate].
  - destruct l2 as [|[d' w] l2].
    + left. exists ((d, v) :: l1). split; [reflexivity|]. apply no_ins. destruct P1 as [c Hc]. destruct (ins ((d, v) :: l1)); [reflexivity|discriminate].
    + apply after_none in H1. destruct H1 as (P & s' & -> & Hh & H1). apply after_none in H2. destruct H2 as (Q & s2 & E2 & Hw & H2).
      assert (co s' = s2 /\ d' = negb d) as [<- ->] by (destruct d, d'; cbn in E2; try discriminate; injection E2 as _ ->; auto).
      assert (v = w) as <-.
      { destruct d; cbn in P1, P2; [destruct P2 as [c Hc]|destruct P1 as [c Hc]]; cbn in Hc; injection Hc; congruence. }
      assert (is_prefix (ins l1) (outs l2) /\ is_prefix (ins l2) (outs l1)) as [Q1 Q2].
      { destruct d; cbn in P1, P2; destruct P1 as [c1 E1], P2 as [c2 E3]; cbn in E1, E3.
        - split; [exists c1; exact E1|]. injection E3 as E3. exists c2. exact E3.
        - split; [|exists c2; exact E3]. injection E1 as E1. exists c1. exact E1. }
      destruct (IH l2 s' H1 H2 Q1 Q2) as [(r & -> & Hr)|(r & -> & Hr)]; [left|right]; exists r; (split; [|exact Hr]);
        cbn [map app]; f_equal; destruct d; reflexivity.
Qed.

(** ** Complete rounds *)

Definition is_label (v : value) : bool := match v with VLabel _ _ _ => true | _ => false end.

Lemma label_last labels p : forall s l, after labels (side p s) l <> None -> existsb (fun e => is_label (snd e)) l = true ->
  after labels (side p s) l = Some End.
Proof.
  intros s l. revert s. induction l as [|[d v] l IH]; intros s H E; [discriminate|].
  destruct s as [|t k|t k|b|b]; cbn [side] in *; apply after_none in H; destruct H as (P & s' & Es & Hh & H); destruct d; try discriminate.
  - injection Es as <- <-. destruct v as [t' x|]; [|discriminate]. cbn in E. cbn [after andb negb]. rewrite Hh. apply IH; assumption.
  - injection Es as <- <-. destruct v as [t' x|]; [|discriminate]. cbn in E. cbn [after andb negb]. rewrite Hh. apply IH; assumption.
  - generalize dependent (3 - p); intros q Es; injection Es as <- <-. apply after_none in H. destruct l as [|[d v'] l]; [|destruct H as (Q & s2 & Hx & _); destruct d; discriminate].
    cbn [after andb negb]. rewrite Hh. reflexivity.
  - injection Es as <- <-. apply after_none in H. destruct l as [|[d v'] l]; [|destruct H as (Q & s2 & Hx & _); destruct d; discriminate].
    cbn [after andb negb]. rewrite Hh. reflexivity.
Qed.

Lemma after_flip labels : forall l s, after labels (co s) (map flip l) = match after labels s l with Some s' => Some (co s') | None => None end.
Proof.
  induction l as [|[d v] l IH]; intros s; [reflexivity|]. destruct s as [|P s|P s]; [reflexivity| |];
    destruct d; cbn; try reflexivity; destruct (has labels v P); try reflexivity; apply IH.
Qed.
Lemma after_app labels : forall l s r s', after labels s l = Some s' -> after labels s (l ++ r) = after labels s' r.
Proof.
  induction l as [|[d v] l IH]; intros s r s' H; cbn in *; [congruence|]. destruct s as [|P s|P s]; [discriminate| |].
  - destruct (d && has labels v P); [now apply IH|discriminate].
  - destruct (negb d && has labels v P); [now apply IH|discriminate].
Qed.
Lemma complete_end labels s l r : after labels s l = Some End -> after labels (co s) (map flip l ++ r) <> None -> r = [].
Proof.
  intros H H'. rewrite (after_app labels _ _ r End) in H'; [|rewrite after_flip, H; reflexivity].
  apply after_none in H'. destruct r as [|[d v] r]; [reflexivity|]. destruct H' as (P & s' & E & _). destruct d; discriminate.
Qed.

(** ** Logs in order of the rounds *)

Definition dirs (l : list (bool * value)) : list bool := flat_map (fun e => if is_label (snd e) then [] else [fst e]) l.
Definition event_ok (p m : nat) (e : event) : Prop :=
  match e with EvSend g x _ | EvRecv g x _ => g <= m /\ x = peer_of p | EvClose => True end.
Definition by_round (p m : nat) (log : list event) : list bool :=
  flat_map (fun g => dirs (evs g (peer_of p) log)) (seq 0 (S m)).
Definition labelled (p g : nat) (log : list event) : Prop :=
  existsb (fun e => is_label (snd e)) (evs g (peer_of p) log) = true.

Definition ordered {H} (p : nat) (th : @thread H) : Prop :=
  Forall (event_ok p (t_round th)) (t_log th) /\
  data_ops (t_log th) = by_round p (t_round th) (t_log th) /\
  (forall g, g < t_round th -> labelled p g (t_log th)) /\
  match t_prog th with
  | PChoose b l [] own => labelled p (t_round th) (t_log th)
  | PChoose b l (e :: pend) own => pend = [] /\ fst (fst e) = peer_of p
  | _ => True
  end.

Lemma evs_app g x l l' : evs g x (l ++ l') = evs g x l ++ evs g x l'.
Proof. unfold evs. apply flat_map_app. Qed.
Lemma labelled_app p g l l' : labelled p g l -> labelled p g (l ++ l').
Proof. unfold labelled. intros H. rewrite evs_app, existsb_app, H. reflexivity. Qed.
Lemma late_none p m g log : Forall (event_ok p m) log -> m < g -> evs g (peer_of p) log = [].
Proof.
  induction 1 as [|e log He _ IH]; intros Hm; [reflexivity|].
  change (evs g (peer_of p) (e :: log)) with (with_role g (peer_of p) e ++ evs g (peer_of p) log). rewrite IH, app_nil_r by exact Hm.
  destruct e as [g' x v|g' x v|]; cbn in He |- *; [| |reflexivity];
    destruct (Nat.eqb_spec g' g); cbn; try reflexivity; lia.
Qed.
Lemma by_round_next p m log : Forall (event_ok p m) log -> by_round p (S m) log = by_round p m log.
Proof.
  intros H. unfold by_round. rewrite (seq_S (S m) 0), flat_map_app. cbn [flat_map]. rewrite Nat.add_0_l, (late_none p m) by (auto; lia).
  cbn. now rewrite app_nil_r.
Qed.
Lemma flat_map_ext_seq {A} (f g : nat -> list A) : forall n a, (forall x, a <= x < a + n -> f x = g x) -> flat_map f (seq a n) = flat_map g (seq a n).
Proof. induction n as [|n IH]; intros a H; [reflexivity|]. cbn. rewrite H by lia. f_equal. apply IH. intros x Hx. apply H. lia. Qed.
Lemma by_round_app p m log e : (forall g, g < m -> with_role g (peer_of p) e = []) ->
  by_round p m (log ++ [e]) = by_round p m log ++ dirs (with_role m (peer_of p) e).
Proof.
  intros H. unfold by_round. rewrite !(seq_S m 0), !flat_map_app. cbn [flat_map]. rewrite !Nat.add_0_l, !app_nil_r.
  rewrite evs_app. unfold evs at 3. cbn [flat_map]. rewrite app_nil_r. unfold dirs at 2. rewrite flat_map_app. fold (dirs (evs m (peer_of p) log)).
  rewrite app_assoc. f_equal. f_equal. apply flat_map_ext_seq. intros g Hg. rewrite evs_app. unfold evs at 2. cbn. rewrite app_nil_r, H by lia.
  now rewrite app_nil_r.
Qed.

Lemma ordered_same {H} p (th th' : @thread H) : ordered p th -> t_round th' = t_round th -> t_log th' = t_log th ->
  match t_prog th' with PChoose _ _ [] _ => labelled p (t_round th) (t_log th)
    | PChoose _ _ (e :: pend) _ => pend = [] /\ fst (fst e) = peer_of p | _ => True end -> ordered p th'.
Proof. intros (A & B & C & _) E1 E2 D. unfold ordered. rewrite E1, E2. auto. Qed.

Lemma ordered_event {H} p (th th' : @thread H) d v : ordered p th -> t_round th' = t_round th ->
  t_log th' = t_log th ++ [if d : bool then EvSend (t_round th) (peer_of p) v else EvRecv (t_round th) (peer_of p) v] ->
  match t_prog th' with PChoose _ _ [] _ => is_label v = true
    | PChoose _ _ (e :: pend) _ => pend = [] /\ fst (fst e) = peer_of p | _ => True end -> ordered p th'.
Proof.
  intros (A & B & C & _) E1 E2 D. unfold ordered. rewrite E1, E2.
  assert (forall g, with_role g (peer_of p) (if d then EvSend (t_round th) (peer_of p) v else EvRecv (t_round th) (peer_of p) v)
            = if t_round th =? g then [(d, v)] else []) as K.
  { intros g. destruct d; cbn; rewrite Nat.eqb_refl, andb_true_r; reflexivity. }
  split; [apply Forall_app; split; [exact A|]; constructor; [|constructor]; destruct d; cbn; auto|]. split.
  - rewrite by_round_app.
    + rewrite K, Nat.eqb_refl. unfold data_ops in *. rewrite flat_map_app, B. f_equal. destruct d, v; reflexivity.
    + intros g Hg. rewrite K. destruct (Nat.eqb_spec (t_round th) g); [lia|reflexivity].
  - split; [intros g Hg; apply labelled_app; auto|].
    destruct (t_prog th') as [|b l pend own| | |]; auto. destruct pend; auto. unfold labelled. rewrite evs_app, existsb_app. unfold evs at 2. cbn [flat_map].
    rewrite K, Nat.eqb_refl. cbn. rewrite D. apply orb_true_r.
Qed.

Section Steps.
  Variable branch : nat -> nat -> nat -> mty.
  Variable labels : nat -> nat.

  Lemma callable_peer p x : 1 <= p <= 2 -> callable 2 p x = true -> x = peer_of p.
  Proof.
    unfold callable, peer_of. rewrite !andb_true_iff, negb_true_iff, Nat.eqb_neq, !Nat.leb_le. lia.
  Qed.

  Lemma one_send p es : 1 <= p <= 2 -> choose_sends 2 p = Some es -> exists i e, es = [(i, e)] /\ other p i = peer_of p.
  Proof.
    intros Hp E. assert (p = 1 \/ p = 2) as [-> | ->] by lia; vm_compute in E; injection E as <-; eauto.
  Qed.

  Lemma make_choice_one p b l hs s pr s1 : 1 <= p <= 2 -> make_choice heap_ops 2 branch p b l hs s = Some (pr, s1) ->
    exists e own, pr = PChoose b l [e] own /\ fst (fst e) = peer_of p.
  Proof.
    intros Hp. unfold make_choice. destruct (alloc _ _ _) as [pairs s2]. destruct (choose_sends 2 p) as [es|] eqn:Es; [|discriminate].
    destruct (one_send p es Hp Es) as (i & e & -> & Ho). destruct (choose_own 2 p) as [own|]; [|discriminate]. cbn [map all_some].
    destruct (nth_error hs (i - 1)) as [h|]; [|discriminate]. destruct (pick_all pairs e) as [m|]; [|discriminate].
    destruct (pick_all pairs own) as [mine|]; [|discriminate]. intros E. injection E as <- <-. eexists _, _. split; [reflexivity|exact Ho].
  Qed.

  Lemma fin_ordered p (th : @thread ep) r xs : ordered p th -> ordered p (fin th r xs).
  Proof. intros H. eapply ordered_same; [exact H|reflexivity..|exact I]. Qed.
  Lemma stuck_ordered p (th : @thread ep) : ordered p th -> ordered p (stuck th).
  Proof. intros H. eapply ordered_same; [exact H|reflexivity..|exact I]. Qed.

  Lemma tstep_ordered p i th s th' s' : 1 <= p <= 2 -> tstep heap_ops 2 branch labels true p i th s = Some (th', s') ->
    ordered p th -> ordered p th'.
  Proof.
    intros Hp H O. unfold tstep in H. destruct (t_trash th) as [|x rest] eqn:Et.
    2: { destruct i; try discriminate. destruct (op_drop heap_ops x s) as [out s1]. injection H as <- <-.
         eapply ordered_same; [exact O|reflexivity..|]. cbn. destruct O as (_ & _ & _ & O). exact O. }
    destruct (t_prog th) as [ss r hs|b l pend own|a r hs|res|hs] eqn:Ep; try discriminate.
    - destruct i as [|v|l|].
      + destruct r as [| |x r'| | |]; try discriminate.
        * destruct (forallb is_end ss); [|discriminate]. injection H as <- <-.
          destruct O as (A & B & C & _). split; [apply Forall_app; split; [exact A|repeat constructor]|]. cbn [t_log t_round t_prog]. split; [|split].
          -- rewrite by_round_app by reflexivity. unfold data_ops in *. rewrite flat_map_app, B. reflexivity.
          -- intros g Hg. apply labelled_app, C, Hg.
          -- exact I.
        * destruct (callable 2 p x) eqn:Ec; [|discriminate]. pose proof (callable_peer p x Hp Ec) as ->.
          destruct (nth_error ss _) as [[|P k|[t|b j] k]|]; try discriminate.
          -- destruct (nth_error hs _) as [h|]; [|discriminate]. unfold do_recv in H.
             destruct (op_recv heap_ops h s) as [v c h' s1|s1| |]; try (injection H as <- <-; now (apply fin_ordered || apply stuck_ordered)); [|discriminate].
             destruct v as [t' v|]; [|injection H as <- <-; now apply stuck_ordered].
             destruct c; [|injection H as <- <-; now apply stuck_ordered].
             destruct (t' =? t); injection H as <- <-; [|now apply stuck_ordered].
             eapply (ordered_event p th _ false (VData t v)); [exact O|reflexivity..|exact I].
          -- destruct k; try discriminate. destruct (nth_error hs _) as [h|]; [|discriminate]. destruct (j =? p); [|discriminate].
             unfold do_offer in H.
             destruct (op_recv heap_ops h s) as [v c h' s1|s1| |]; try (injection H as <- <-; now (apply fin_ordered || apply stuck_ordered)); [|discriminate].
             destruct v as [|b' l j']; [injection H as <- <-; now apply stuck_ordered|].
             destruct ((b' =? b) && (j' =? p) && (l <? labels b)); injection H as <- <-; [|now apply stuck_ordered].
             destruct (ordered_event p th (Thread (t_prog th) [] (t_round th) (t_log th ++ [EvRecv (t_round th) (peer_of p) (VLabel b l p)]))
                         false (VLabel b l p) O eq_refl eq_refl) as (A & B & C & _); [cbn; rewrite Ep; exact I|].
             cbn [t_log t_round t_prog] in A, B, C. unfold ordered. cbn [t_log t_round t_prog]. split; [|split; [|split; [|exact I]]].
             ++ eapply Forall_impl; [|exact A]. intros e He. destruct e; cbn in *; lia.
             ++ rewrite by_round_next by exact A. exact B.
             ++ intros g Hg. destruct (Nat.eq_dec g (t_round th)) as [->|]; [|apply C; lia]. unfold labelled. rewrite evs_app, existsb_app.
                cbn. rewrite !Nat.eqb_refl. cbn. apply orb_true_r.
      + destruct r as [| |x r'| | |]; try discriminate. destruct (callable 2 p x) eqn:Ec; [|discriminate]. pose proof (callable_peer p x Hp Ec) as ->.
        destruct (nth_error ss _) as [[|[t|] k|]|]; try discriminate. destruct (nth_error hs _) as [h|]; [|discriminate].
        unfold do_send in H. destruct (op_send heap_ops h _ _ _ _) as [here s1|here lost s1| |]; try discriminate; injection H as <- <-;
          [|now apply fin_ordered|now apply stuck_ordered].
        eapply (ordered_event p th _ true (VData t v)); [exact O|reflexivity..|exact I].
      + destruct r; try discriminate. destruct (choice_of p ss) as [b|]; [|discriminate]. destruct (l <? labels b); [|discriminate].
        destruct (make_choice heap_ops 2 branch p b l hs s) as [[pr s1]|] eqn:E; injection H as <- <-; [|now apply stuck_ordered].
        destruct (make_choice_one p b l hs s pr s1 Hp E) as (e & own & -> & He).
        eapply ordered_same; [exact O|reflexivity..|]. cbn. auto.
      + injection H as <- <-. now apply fin_ordered.
    - destruct i; try discriminate.
      2: { destruct pend; injection H as <- <-; now apply fin_ordered. }
      destruct O as (A & B & C & D). rewrite Ep in D. destruct pend as [|[[x h] m] pend].
      + injection H as <- <-. unfold ordered. cbn [t_log t_round t_prog]. split; [|split; [|split; [|exact I]]].
        * eapply Forall_impl; [|exact A]. intros e He. destruct e; cbn in *; lia.
        * rewrite by_round_next by exact A. exact B.
        * intros g Hg. destruct (Nat.eq_dec g (t_round th)) as [->|]; [exact D|apply C; lia].
      + destruct D as [-> D]. cbn in D. subst x. unfold do_choose_send in H.
        assert (ordered p th) as O by (unfold ordered; rewrite Ep; auto).
        destruct (op_send heap_ops h _ _ _ _) as [here s1|here lost s1| |]; try discriminate; injection H as <- <-;
          [|now apply fin_ordered|now apply stuck_ordered].
        eapply (ordered_event p th _ true (VLabel b l (peer_of p))); [exact O|reflexivity..].
    - destruct i; try discriminate; [|injection H as <- <-; now apply fin_ordered].
      unfold do_close in H. destruct (nth_error hs a) as [h|].
      + destruct (op_tell heap_ops h Stop s); try discriminate; injection H as <- <-; try (now (apply fin_ordered || apply stuck_ordered));
          (eapply ordered_same; [exact O|reflexivity..|exact I]).
      + destruct (nth_error hs r) as [h|]; [|injection H as <- <-; now apply fin_ordered].
        destruct (op_hear heap_ops h s) as [[]| | |]; try discriminate; injection H as <- <-; try (now (apply fin_ordered || apply stuck_ordered));
          (eapply ordered_same; [exact O|reflexivity..|exact I]).
  Qed.

  Lemma exec_ordered p i st st' : exec heap_ops 2 branch labels true p i st = Some st' ->
    (forall q, 1 <= q <= 2 -> ordered q (st_thr st q)) -> forall q, 1 <= q <= 2 -> ordered q (st_thr st' q).
  Proof.
    unfold exec. destruct ((1 <=? p) && (p <=? 2)) eqn:E; [|discriminate]. rewrite andb_true_iff, !Nat.leb_le in E.
    destruct (tstep heap_ops 2 branch labels true p i (st_thr st p) (st_store st)) as [[th s1]|] eqn:Ex; [|discriminate].
    intros H O q Hq. injection H as <-. cbn. unfold set_thr. destruct (Nat.eqb_spec q p) as [->|]; [|auto].
    eapply tstep_ordered; eauto.
  Qed.
End Steps.

Definition ahead (d d' : list bool) : Prop := exists k, d = map negb d' ++ repeat true k.

Lemma dirs_sends l : sends l -> dirs l = repeat true (length (dirs l)).
Proof.
  induction 1 as [|e l He _ IH]; [reflexivity|]. unfold dirs in *. cbn [flat_map]. destruct (is_label (snd e)); cbn; [exact IH|].
  rewrite He, IH at 1. reflexivity.
Qed.
Lemma dirs_flip l : dirs (map flip l) = map negb (dirs l).
Proof.
  induction l as [|[d v] l IH]; [reflexivity|]. unfold dirs in *. cbn [map flip flat_map fst snd]. destruct (is_label v); cbn [app map]; [exact IH|].
  f_equal; exact IH.
Qed.
Lemma dirs_app l r : dirs (l ++ r) = dirs l ++ dirs r.
Proof. apply flat_map_app. Qed.
Lemma ahead_app d d' r : (exists k, r = repeat true k) -> ahead d d' -> ahead (d ++ r) d'.
Proof. intros [k ->] [j ->]. exists (j + k). rewrite repeat_app, app_assoc. reflexivity. Qed.
Lemma flat_trues {A} (f : A -> list bool) l : (forall x, In x l -> exists k, f x = repeat true k) -> exists k, flat_map f l = repeat true k.
Proof.
  induction l as [|x l IH]; intros H; [now exists 0|]. destruct (H x (or_introl eq_refl)) as [j Hj]. destruct IH as [k Hk]; [intros; apply H; now right|].
  exists (j + k). cbn. now rewrite Hj, Hk, repeat_app.
Qed.

Lemma start_ordered T q : ordered q (st_thr (start 2 T) q).
Proof.
  unfold start, init. destruct (alloc _ _ _) as [pairs s1]. cbn [st_thr].
  destruct (fork_mesh 2 q) as [es|]; [destruct (pick_all pairs es)|]; (split; [constructor|]; split; [reflexivity|]; split; [|exact I]; intros g Hg; cbn in Hg; lia).
Qed.
Lemma steps_ordered branch labels st tr st' : steps heap_ops 2 branch labels true st tr st' ->
  (forall q, 1 <= q <= 2 -> ordered q (st_thr st q)) -> forall q, 1 <= q <= 2 -> ordered q (st_thr st' q).
Proof. induction 1; [auto|]. intros O. apply IHsteps. eapply exec_ordered; eauto. Qed.

Lemma mirror labels B tr st : bexecutes labels true B tr st ->
  let d p := data_ops (t_log (st_thr st p)) in
  ahead (d 1) (d 2) \/ ahead (d 2) (d 1).
Proof.
  intros H d.
  assert (forall q, 1 <= q <= 2 -> ordered q (st_thr st q)) as O.
  { eapply steps_ordered; [exact H|]. intros q _. apply start_ordered. }
  destruct (binary_delivery labels true B tr st H) as (hist & F).
  assert (K : forall p, 1 <= p <= 2 -> t_round (st_thr st p) <= t_round (st_thr st (peer_of p)) -> ahead (d p) (d (peer_of p)) \/ ahead (d (peer_of p)) (d p)).
  { intros p Hp Hr. set (q := peer_of p) in *. assert (Hq : 1 <= q <= 2) by (unfold q, peer_of; lia).
    assert (Hpq : peer_of q = p) by (unfold q, peer_of; lia).
    destruct (O p Hp) as (A1 & B1 & C1 & _). destruct (O q Hq) as (A2 & B2 & C2 & _).
    destruct (F p Hp) as (F1 & F2 & _). destruct (F q Hq) as (F3 & F4 & _). fold q in F1, F2. rewrite Hpq in F3, F4.
    set (L1 g := evs g q (t_log (st_thr st p))) in *. set (L2 g := evs g p (t_log (st_thr st q))) in *.
    assert (D1 : d p = flat_map (fun g => dirs (L1 g)) (seq 0 (S (t_round (st_thr st p))))) by exact B1.
    assert (D2 : d q = flat_map (fun g => dirs (L2 g)) (seq 0 (S (t_round (st_thr st q))))).
    { unfold d. rewrite B2. unfold by_round. rewrite Hpq. reflexivity. }
    assert (Dq : forall g, declared B hist g q = co (declared B hist g p)).
    { intros g. unfold declared. set (s := match g with 0 => _ | S _ => _ end). unfold q, peer_of.
      assert (p = 1 \/ p = 2) as [-> | ->] by lia; cbn; rewrite side_co, ?co_co; reflexivity. }
    assert (M : forall g, (exists r, L1 g = map flip (L2 g) ++ r /\ sends r) \/ (exists r, L2 g = map flip (L1 g) ++ r /\ sends r)).
    { intros g. apply (mirror_round labels _ _ (declared B hist g p)); [apply F2|rewrite <- Dq; apply F4|apply F1|apply F3]. }
    assert (E1 : forall g, labelled p g (t_log (st_thr st p)) -> after labels (declared B hist g p) (L1 g) = Some End).
    { intros g Hg. pose proof (F2 g) as Hn. unfold declared in *. destruct (p =? 1); apply label_last; auto. }
    assert (E2 : forall g, labelled q g (t_log (st_thr st q)) -> after labels (declared B hist g q) (L2 g) = Some End).
    { intros g Hg. pose proof (F4 g) as Hn. unfold labelled in Hg. rewrite Hpq in Hg. unfold declared in *. destruct (q =? 1); apply label_last; auto. }
    set (m := t_round (st_thr st p)) in *. set (m' := t_round (st_thr st q)) in *.
    assert (Eq : forall g, labelled p g (t_log (st_thr st p)) -> labelled q g (t_log (st_thr st q)) -> L2 g = map flip (L1 g)).
    { intros g G1 G2. destruct (M g) as [(r & E & _)|(r & E & _)].
      - assert (r = []) as ->.
        { apply (complete_end labels (declared B hist g q) (L2 g) r (E2 g G2)). rewrite Dq, co_co, <- E. apply F2. }
        rewrite app_nil_r in E. rewrite E, map_map. rewrite <- (map_id (L2 g)) at 1. apply map_ext. intros [[] v]; reflexivity.
      - assert (r = []) as ->.
        { apply (complete_end labels (declared B hist g p) (L1 g) r (E1 g G1)). rewrite <- Dq, <- E. apply F4. }
        now rewrite app_nil_r in E. }
    assert (Pre : flat_map (fun g => dirs (L2 g)) (seq 0 m) = map negb (flat_map (fun g => dirs (L1 g)) (seq 0 m))).
    { assert (forall k, k <= m -> flat_map (fun g => dirs (L2 g)) (seq 0 k) = map negb (flat_map (fun g => dirs (L1 g)) (seq 0 k))) as X; [|now apply X].
      induction k as [|k IH]; intros Hk; [reflexivity|]. rewrite !seq_S, !flat_map_app, map_app, IH by lia. f_equal. cbn. rewrite !app_nil_r.
      rewrite Eq; [apply dirs_flip|apply C1; lia|apply C2; lia]. }
    rewrite (seq_S m 0), flat_map_app in D1. cbn [flat_map Nat.add] in D1. rewrite app_nil_r in D1.
    replace (S m') with (S m + (m' - m)) in D2 by lia. rewrite seq_app, flat_map_app in D2. rewrite (seq_S m 0), flat_map_app in D2. cbn [flat_map Nat.add] in D2.
    rewrite app_nil_r, Pre in D2.
    assert (exists k, flat_map (fun g => dirs (L2 g)) (seq (S m) (m' - m)) = repeat true k) as [k Hk].
    { apply flat_trues. intros g Hg. apply in_seq in Hg. exists (length (dirs (L2 g))). apply dirs_sends, no_ins.
      assert (L1 g = []) as N by (apply (late_none p m); [exact A1|lia]). destruct (F3 g) as [c Hc]. fold (L2 g) in Hc. fold (L1 g) in Hc. rewrite N in Hc. cbn in Hc.
      destruct (ins (L2 g)); [reflexivity|discriminate]. }
    rewrite Hk in D2. destruct (M m) as [(r & E & Hs)|(r & E & Hs)].
    - destruct (Nat.eq_dec m m') as [Em|Em].
      + left. replace (m' - m) with 0 in Hk by lia. cbn in Hk. destruct k; [|discriminate]. cbn [repeat] in D2. rewrite app_nil_r in D2.
        exists (length (dirs r)). rewrite D1, D2, E, dirs_app, dirs_flip, map_app, map_map, <- dirs_sends by exact Hs.
        rewrite (map_ext (fun x => negb (negb x)) (fun x => x)) by (intros; apply negb_involutive). rewrite map_id, app_assoc. reflexivity.
      + right. assert (r = []) as ->.
        { apply (complete_end labels (declared B hist m q) (L2 m) r); [apply E2, C2; lia|]. rewrite Dq, co_co, <- E. apply F2. }
        rewrite app_nil_r in E. exists k. rewrite D1, D2, E, map_app, dirs_flip, map_map.
        rewrite (map_ext (fun x => negb (negb x)) (fun x => x)) by (intros; apply negb_involutive). rewrite map_id. reflexivity.
    - right. rewrite D1, D2, E, dirs_app, dirs_flip. apply ahead_app; [eauto|]. rewrite app_assoc. apply ahead_app; [exists (length (dirs r)); now apply dirs_sends|].
      exists 0. cbn. now rewrite app_nil_r, map_app. }
  destruct (Nat.le_ge_cases (t_round (st_thr st 1)) (t_round (st_thr st 2))) as [Hle|Hle].
  - apply (K 1); [lia|exact Hle].
  - destruct (K 2 ltac:(lia) Hle) as [X|X]; auto.
Qed.
