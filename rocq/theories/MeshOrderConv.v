(** A run that ends well has followed an order in each of its rounds. *)
From Coq Require Import List Arith Bool Lia Permutation.
From Verif Require Import Types Diag DiagProofs Wiring WiringProofs Session Mesh MeshSpec Links LinksProofs Refine Sim
  MeshWire MeshInv MeshStep MeshKeep MeshSafe MeshRounds MeshRun MeshLog MeshReach Global MeshGlobal MeshSignal MeshProgress OrderSpec OrderProofs MeshOrder.
Import ListNotations.

(** The directions that a session prescribes. *)
Fixpoint dirs (s : sty) : list bool := match s with Snd _ k => true :: dirs k | Rcv _ k => false :: dirs k | End => [] end.
Lemma dirs_co : forall s, dirs (co s) = map negb (dirs s).
Proof. induction s as [|P k IH|P k IH]; cbn; congruence. Qed.
Lemma dirs_len : forall s, length (dirs s) = slen s.
Proof. induction s as [|P k IH|P k IH]; cbn; congruence. Qed.
Lemma after_dirs : forall labels es s, after labels s es <> None -> map fst es = firstn (length es) (dirs s).
Proof.
  intros labels. induction es as [|[d v] es IH]; intros s H; [reflexivity|]. cbn [after] in H. destruct s as [|P k|P k]; [congruence| |].
  - destruct d; cbn in H; [|congruence]. destruct (has labels v P); [|congruence]. cbn. f_equal. auto.
  - destruct d; cbn in H; [congruence|]. destruct (has labels v P); [|congruence]. cbn. f_equal. auto.
Qed.
Lemma after_len : forall labels es s, after labels s es <> None -> length es <= slen s.
Proof.
  intros labels es s H. apply after_dirs in H. apply (f_equal (@length _)) in H. rewrite map_length, firstn_length, dirs_len in H. lia.
Qed.
Lemma outs_len : forall es, length (outs es) = length (filter (fun b : bool => b) (map fst es)).
Proof. intros es. unfold outs. rewrite map_length. induction es as [|[[|] v] es IH]; cbn; congruence. Qed.
Lemma ins_len : forall es, length (ins es) = length (filter (fun b : bool => b) (map negb (map fst es))).
Proof. intros es. unfold ins. rewrite map_length. induction es as [|[[|] v] es IH]; cbn; congruence. Qed.
Lemma filter_firstn : forall (l : list bool) i j, i <= j -> length (filter (fun b => b) (firstn i l)) <= length (filter (fun b => b) (firstn j l)).
Proof.
  induction l as [|b l IH]; intros [|i] [|j] H; cbn; try lia. specialize (IH i j ltac:(lia)). destruct b; cbn; lia.
Qed.
(** More has been sent than received, so the sender has done more. *)
Lemma more_done : forall labels s es es', after labels s es <> None -> after labels (co s) es' <> None ->
  length (ins es) < length (outs es') -> length es < length es'.
Proof.
  intros labels s es es' H H' Hl. apply after_dirs in H, H'. rewrite ins_len, outs_len, H, H', dirs_co, firstn_map in Hl.
  destruct (le_lt_dec (length es') (length es)) as [Hle|]; [|assumption].
  pose proof (filter_firstn (map negb (dirs s)) _ _ Hle) as K. rewrite !firstn_map in K. lia.
Qed.

Section Conv.
  Variable n : nat.
  Variable branch : nat -> nat -> nat -> mty.
  Variable labels : nat -> nat.
  Variable strict : bool.
  Hypothesis branch_dual : forall b l, l < labels b -> dual_mesh n (branch b l).
  Variable T : nat -> mty.
  Hypothesis T_dual : dual_mesh n T.
  Variable ok : (nat -> mty) -> Prop.
  Hypothesis ok_first : ok T.
  Hypothesis ok_next : forall R p l b lab, ok R -> 1 <= p <= n -> script_of n labels R p = Some l -> In (AChoose b) l -> lab < labels b -> ok (branch b lab).
  Hypothesis ok_script : forall R p, ok R -> 1 <= p <= n -> script_of n labels R p <> None.
  Hypothesis ok_dual : forall R, ok R -> dual_mesh n R.

  Notation lthread := (@thread handle).
  Notation tcase := (tcase n branch labels strict).
  Notation inv := (inv n branch labels).
  Notation rinv := (rinv n labels).
  Notation dinv := (dinv n branch labels T).
  Notation peer_role := (peer_role n).
  Notation lnk := (lnk n).
  Notation hnd := (hnd n).
  Notation mesh := (mesh n).
  Notation script := (script n labels).
  Notation script_of := (script_of n labels).
  Notation script_at := (script_at n labels).
  Notation ordered := (ordered n labels).
  Notation RT := (round_types branch T).
  Notation xinv := (xinv n branch labels T ok).
  Notation stands := (stands n labels).
  Notation plays := (plays n labels).

  Definition count (g x : nat) (th : lthread) : nat := length (evs g x (t_log th)).

  Record yat (g : nat) (R : nat -> mty) (p : nat) (th : lthread) (k : nat) : Prop := YAt {
    y_le : forall x, peer_role p x -> count g x th <= upto x k (script_at R p);
    y_before : t_round th < g -> k = 0;
    y_after : g < t_round th -> length (script_at R p) <= k;
    y_now : t_round th = g ->
      match t_prog th with
      | PRun ss r hs => exists past rest, stands R p ss r past rest /\ k = length past /\ forall x, peer_role p x -> count g x th = upto x k (script_at R p)
      | PChoose _ _ _ _ => length (script_at R p) <= k /\ forall x, peer_role p x -> slen (sess R p x) <= upto x k (script_at R p)
      | PClose _ _ _ | PFin ROk => length (script_at R p) <= k
      | _ => True
      end
  }.

  Definition yinv (hist : history) (thr : nat -> lthread) : Prop :=
    forall g, g <= length hist -> exists pos, plays (RT hist g) pos /\ forall p, 1 <= p <= n -> yat g (RT hist g) p (thr p) (pos p).

  Lemma count_add : forall g x log e, length (evs g x (log ++ [e])) =
    length (evs g x log) + match e with EvSend g' x' _ | EvRecv g' x' _ => if (g' =? g) && (x' =? x) then 1 else 0 | _ => 0 end.
  Proof.
    intros g x log e. rewrite evs_app, app_length. f_equal. destruct e; cbn; try reflexivity;
      match goal with |- context [?a && ?b] => destruct (a && b) end; reflexivity.
  Qed.

  Lemma stands_at : forall R p ss r past rest, stands R p ss r past rest -> script_at R p = past ++ rest.
  Proof. intros R p ss r past rest (H & _). unfold OrderSpec.script_at. rewrite H. reflexivity. Qed.

  Lemma upto_next : forall x past a rest, upto x (S (length past)) (past ++ a :: rest) =
    upto x (length past) (past ++ a :: rest) + if meets x a then 1 else 0.
  Proof. intros. apply upto_S. rewrite nth_error_app2, Nat.sub_diag by lia. reflexivity. Qed.

  (** Receiving something from x: x has done more with p than p with x. *)
  Lemma got_more : forall hist L thr p x ss r hs t v c L', 1 <= p <= n -> inv L thr -> rinv hist L thr -> dinv hist L thr -> xinv hist thr ->
    t_prog (thr p) = PRun ss r hs -> peer_role p x -> nth_error ss (field_pos p x) = Some t ->
    lk_recv (hnd (t_round (thr p)) p x) L = Got v c (hnd (t_round (thr p)) p x) L' ->
    count (t_round (thr p)) x (thr p) < count (t_round (thr p)) p (thr x).
  Proof.
    intros hist L thr p x ss r hs t v c L' Hp I R D X Ep Hx Es Er. destruct (peer_sym n p x Hp Hx) as [Hx' Hxp].
    set (g := t_round (thr p)) in *.
    assert (Hk : MeshLog.kept n L thr (hnd g p x)).
    { apply (held_kept n branch labels L thr p _ Hp I). pose proof (r_thr _ _ _ _ _ R p Hp) as [_ HR]. rewrite Ep in *.
      destruct HR as [-> _]. apply in_mesh; assumption. }
    destruct (d_sync _ _ _ _ _ _ _ D g p x Hp Hx Hk) as [Hsync _].
    pose proof (d_typ _ _ _ _ _ _ _ D g p x Hp Hx) as T1. pose proof (d_typ _ _ _ _ _ _ _ D g x p Hx' Hxp) as T2.
    unfold decl in *. pose proof (ok_dual _ (x_ok _ _ _ _ _ _ _ X g)) as DM.
    rewrite (proj2 DM x p Hx' Hp ltac:(destruct Hx; congruence)) in T2.
    apply (more_done labels _ _ _ T1 T2). rewrite Hsync, app_length.
    assert (Ht : tow (lk L (lnk g p x)) (p <? x) <> []); [|destruct (tow (lk L (lnk g p x)) (p <? x)); [congruence|cbn; lia]].
    unfold MeshRounds.hnd, lk_recv in Er. destruct (true && is_rcv (l_ty (lk L (lnk g p x)) (p <? x))); [|discriminate].
    destruct (pending (lk L (lnk g p x)) (p <? x)) as [[[v0 c0] t0]|] eqn:Epe; [|destruct (l_open (lk L (lnk g p x)) (negb (p <? x))); discriminate].
    unfold pending in Epe. unfold tow. destruct (l_q (lk L (lnk g p x))) as [|e q];
      destruct (l_to (lk L (lnk g p x))), (p <? x); cbn in Epe |- *; try discriminate Epe; try discriminate.
  Qed.

  Lemma run_hnd : forall hist L thr p x ss r hs h, 1 <= p <= n -> rinv hist L thr -> t_prog (thr p) = PRun ss r hs ->
    peer_role p x -> nth_error hs (field_pos p x) = Some h -> h = hnd (t_round (thr p)) p x.
  Proof.
    intros hist L thr p x ss r hs h Hp R Ep Hx Eh. pose proof (r_thr _ _ _ _ _ R p Hp) as [_ HR]. rewrite Ep in HR. destruct HR as [-> _].
    rewrite (mesh_nth n _ p x Hp Hx) in Eh. congruence.
  Qed.

  Lemma yat_step : forall hist L thr p i th' L' g pos, 1 <= p <= n -> inv L thr -> rinv hist L thr -> dinv hist L thr -> xinv hist thr ->
    g <= length hist -> tcase p (thr p) L i th' L' ->
    (forall q, 1 <= q <= n -> yat g (RT hist g) q (thr q) (pos q)) ->
    yat g (RT hist g) p th' (pos p) \/ free n labels (RT hist g) pos p = true /\ yat g (RT hist g) p th' (S (pos p)).
  Proof.
    intros hist L thr p i th' L' g pos Hp I R D X Hg C YA. pose proof (YA p Hp) as Y.
    pose proof (dinv_case n branch labels strict branch_dual T hist L thr p i th' L' Hp I R D C) as D'.
    pose proof (effect_case n branch labels strict branch_dual hist L thr p i th' L' Hp I R C) as EF.
    pose proof (r_thr _ _ _ _ _ R p Hp) as [Hle HR].
    assert (Hlens : forall ss r hs, t_prog (thr p) = PRun ss r hs -> length ss = n - 1).
    { intros ss r hs Ep. pose proof (i_prog _ _ _ _ _ I p Hp) as PO. rewrite Ep in PO. cbn in PO. destruct PO as (P1 & _ & P3).
      rewrite <- (Forall2_len _ _ _ _ _ P3). exact P1. }
    destruct Y as [Y1 Y2 Y3 Y4].
    (* doing a communication with x *)
    assert (Hcomm : forall x a t k ss r hs e tr', t_round (thr p) = g -> t_prog (thr p) = PRun ss (SRole x r) hs -> peer_role p x ->
      nth_error ss (field_pos p x) = Some (Snd (PVal t) k) /\ a = ASend x \/ nth_error ss (field_pos p x) = Some (Rcv (PVal t) k) /\ a = ARecv x ->
      (forall z, count g z (Thread (PRun (set_nth (field_pos p x) k ss) r hs) tr' (t_round (thr p)) (t_log (thr p) ++ [e])) =
                 count g z (thr p) + if x =? z then 1 else 0) ->
      (a = ARecv x -> count g x (thr p) < count g p (thr x)) ->
      free n labels (RT hist g) pos p = true /\
      yat g (RT hist g) p (Thread (PRun (set_nth (field_pos p x) k ss) r hs) tr' (t_round (thr p)) (t_log (thr p) ++ [e])) (S (pos p))).
    { intros x a t k ss r hs e tr' Hgr Ep Hx Ha Hcnt Hmore. specialize (Y4 Hgr). rewrite Ep in Y4. destruct Y4 as (past & rest & ST & Epos & Heq).
      destruct (stands_message n labels _ _ _ _ _ a t k _ _ Hp (Hlens _ _ _ Ep) ST Hx Ha) as (rest' & -> & ST').
      pose proof (stands_at _ _ _ _ _ _ ST) as Esc.
      assert (Em : forall z, meets z a = (x =? z)) by (intros z; destruct Ha as [[_ ->]|[_ ->]]; reflexivity).
      assert (Hup : forall z, upto z (S (pos p)) (script_at (RT hist g) p) = upto z (pos p) (script_at (RT hist g) p) + if x =? z then 1 else 0).
      { intros z. rewrite Esc, Epos, upto_next, Em. reflexivity. }
      split.
      - unfold free. rewrite Esc, Epos, nth_error_app2, Nat.sub_diag by lia. cbn [nth_error].
        destruct Ha as [[_ ->]|[_ ->]]; cbn [waits]; [reflexivity|]. apply Nat.ltb_lt.
        destruct (peer_sym n p x Hp Hx) as [Hx' Hxp]. pose proof (y_le _ _ _ _ _ (YA x Hx') p Hxp) as Hlx. specialize (Hmore eq_refl).
        specialize (Heq x Hx). rewrite Epos, Esc in Heq. lia.
      - constructor; cbn [t_round t_prog]; try lia.
        + intros z Hz. rewrite Hcnt, Hup. specialize (Y1 z Hz). lia.
        + intros _. exists (past ++ [a]), rest'. split; [exact ST'|]. split; [rewrite app_length, Epos; cbn; lia|].
          intros z Hz. rewrite Hcnt, Hup, (Heq z Hz). reflexivity. }
    (* nothing happens in round g *)
    assert (Hsame : forall th2, (forall z, count g z th2 = count g z (thr p)) -> t_round th2 = t_round (thr p) ->
      (t_round (thr p) = g -> match t_prog th2 with
         | PFin ROk => length (script_at (RT hist g) p) <= pos p
         | PFin _ => True
         | PRun ss r hs => t_prog th2 = t_prog (thr p)
         | PChoose _ _ _ _ => length (script_at (RT hist g) p) <= pos p /\ forall x, peer_role p x -> slen (sess (RT hist g) p x) <= upto x (pos p) (script_at (RT hist g) p)
         | PClose _ _ _ => length (script_at (RT hist g) p) <= pos p
         | PStuck _ => True end) -> yat g (RT hist g) p th2 (pos p)).
    { intros th2 Hc Hr Hpr. constructor; rewrite ?Hr; auto.
      - intros z Hz. rewrite Hc. auto.
      - intros E. specialize (Hpr E). specialize (Y4 E). destruct (t_prog th2) as [ss r hs| | |[| |]|] eqn:Ep2; auto.
        rewrite <- Hpr in Y4. destruct Y4 as (past & rest & ST & Epos & Heq). exists past, rest. split; [exact ST|]. split; [exact Epos|].
        intros z Hz. rewrite Hc. auto. }
    assert (Hother : forall e tr' pr, t_round (thr p) <> g -> (forall z, count g z (Thread pr tr' (t_round (thr p)) (t_log (thr p) ++ [e])) = count g z (thr p)) ->
      yat g (RT hist g) p (Thread pr tr' (t_round (thr p)) (t_log (thr p) ++ [e])) (pos p)).
    { intros e tr' pr Hne Hc. apply Hsame; [exact Hc|reflexivity|intros E; contradiction]. }
    assert (Hmiss : forall e tr' pr x z v rd, rd <> g -> (e = EvSend rd x v \/ e = EvRecv rd x v) ->
      forall rd', count g z (Thread pr tr' rd' (t_log (thr p) ++ [e])) = count g z (thr p)).
    { intros e tr' pr x z v rd Hne He rd'. unfold count. cbn [t_log]. rewrite count_add.
      destruct He as [-> | ->]; destruct (Nat.eqb_spec rd g); try contradiction; cbn; lia. }
    assert (Hhit : forall e tr' pr x z v, t_round (thr p) = g -> (e = EvSend (t_round (thr p)) x v \/ e = EvRecv (t_round (thr p)) x v) ->
      forall rd', count g z (Thread pr tr' rd' (t_log (thr p) ++ [e])) = count g z (thr p) + if x =? z then 1 else 0).
    { intros e tr' pr x z v Heq He rd'. unfold count. cbn [t_log]. rewrite count_add. rewrite Heq in He.
      destruct He as [-> | ->]; rewrite Nat.eqb_refl; reflexivity. }
    (* entering round g *)
    assert (Hfresh : forall tr' hs log, S (t_round (thr p)) = g -> (forall z, length (evs g z log) = 0) ->
      yat g (RT hist g) p (Thread (PRun (fst (RT hist g p)) (snd (RT hist g p)) hs) tr' (S (t_round (thr p))) log) (pos p)).
    { intros tr' hs log E Hc. specialize (Y2 ltac:(lia)). rewrite Y2.
      constructor; cbn [t_round t_prog]; try lia.
      - intros z Hz. unfold count. cbn [t_log]. rewrite Hc. lia.
      - intros _. exists []. destruct (stands_start n labels (RT hist g) p) as [rest ST]; [apply ok_script; [apply (x_ok _ _ _ _ _ _ _ X)|exact Hp]|].
        exists rest. split; [exact ST|]. split; [reflexivity|]. intros z Hz. unfold count. cbn [t_log]. rewrite Hc. reflexivity. }
    destruct C as [x rest out L1 Et Ed|Et Hnf
        |v x ss r hs t k h L1 Et Ep Hx Es Eh El|v x ss r hs t k h lost L1 Et Ep Hx Es Eh El Est
        |v x ss r hs t k h lost L1 Et Ep Hx Es Eh El Est
        |v x ss r hs t k h L1 Et Ep Hx Es Eh El|b l m x ss r hs h L1 Et Ep Hx Es Eh El Hl
        |x ss r hs P0 k h L1 Et Ep Hx Es Eh El
        |b l ss hs pl L1 Et Ep Ec Hl Ea
        |b l x h m pend own L1 Et Ep El|b l x h m pend own lost L1 Et Ep El Est
        |b l x h m pend own lost L1 Et Ep El Est
        |b l own Et Ep|ss hs Et Ep Ee
        |a r hs h L1 Et Ep Ea El|a r hs h Et Ep Ea El
        |a r hs h L1 Et Ep Ea Er0 El|a r hs h Et Ep Ea Er0 El|a r hs h L1 Et Ep Ea Er0 El
        |a r hs Et Ep Ea Er0].
    - (* drop *)
      left. apply Hsame; [reflexivity|reflexivity|]. cbn [t_prog]. intros E. specialize (Y4 E).
      destruct (t_prog (thr p)) as [ss r hs| | |[| |]|]; auto.
    - left. apply Hsame; [reflexivity|reflexivity|]. cbn. auto.
    - destruct (Nat.eq_dec (t_round (thr p)) g) as [E|E].
      + right. eapply Hcomm; [exact E|exact Ep|exact Hx|left; split; [exact Es|reflexivity]|intros z; eapply Hhit; eauto|discriminate].
      + left. apply Hother; [exact E|]. intros z. eapply Hmiss; eauto.
    - destruct (Nat.eq_dec (t_round (thr p)) g) as [E|E].
      + right. eapply Hcomm; [exact E|exact Ep|exact Hx|left; split; [exact Es|reflexivity]|intros z; eapply Hhit; eauto|discriminate].
      + left. apply Hother; [exact E|]. intros z. eapply Hmiss; eauto.
    - left. apply Hsame; [reflexivity|reflexivity|]. cbn. auto.
    - destruct (Nat.eq_dec (t_round (thr p)) g) as [E|E].
      + right. eapply Hcomm; [exact E|exact Ep|exact Hx|right; split; [exact Es|reflexivity]|intros z; eapply Hhit; eauto|].
        intros _. rewrite (run_hnd hist L thr p x _ _ _ h Hp R Ep Hx Eh) in El. rewrite <- E.
        eapply got_more; eauto.
      + left. apply Hother; [exact E|]. intros z. eapply Hmiss; eauto.
    - (* offer *)
      destruct (Nat.eq_dec (t_round (thr p)) g) as [E|E].
      + right. specialize (Y4 E). rewrite Ep in Y4. destruct Y4 as (past & rest & ST & Epos & Heq).
        pose proof (stands_at _ _ _ _ _ _ ST) as Esc. destruct ST as (S1 & S2 & S3).
        assert (rest = [AOffer x b]).
        { pose proof (script_begins n labels _ _ _ _ S2) as B. inversion B; subst; congruence. }
        subst rest. split.
        * unfold free. rewrite Esc, Epos, nth_error_app2, Nat.sub_diag by lia. cbn [nth_error waits]. apply Nat.ltb_lt.
          destruct (peer_sym n p x Hp Hx) as [Hx' Hxp]. pose proof (y_le _ _ _ _ _ (YA x Hx') p Hxp) as Hlx.
          rewrite (run_hnd hist L thr p x _ _ _ h Hp R Ep Hx Eh) in El.
          pose proof (got_more hist L thr p x _ _ _ _ _ _ _ Hp I R D X Ep Hx Es El) as Hm. rewrite E in Hm.
          specialize (Heq x Hx). rewrite Epos, Esc in Heq. lia.
        * constructor; cbn [t_round t_prog]; try lia.
          -- intros z Hz. rewrite (Hhit _ _ _ x z (VLabel b l p) E (or_intror eq_refl)). rewrite (Heq z Hz), Esc, Epos, upto_next. cbn [meets]. lia.
          -- intros _. rewrite Esc, Epos, app_length. cbn. lia.
      + left. destruct (Nat.eq_dec (S (t_round (thr p))) g) as [E'|E'].
        * destruct (e_act _ _ _ _ _ _ _ _ EF) as [[H _]|[H|H]].
          -- exfalso. specialize (H (t_round (thr p)) x). cbn [t_log] in H. rewrite evs_app in H. cbn in H.
             rewrite !Nat.eqb_refl in H. cbn in H. apply (f_equal (@length _)) in H. rewrite app_length in H. cbn in H. lia.
          -- exfalso. destruct H as (x' & v & P' & k' & _ & _ & _ & _ & H & _). cbn [t_log] in H. apply app_inv_head in H. discriminate.
          -- destruct H as (x' & v & P' & k' & c' & _ & _ & _ & _ & H & H' & _). cbn [t_log] in H.
             apply app_inv_head in H. injection H as <- <-. destruct H' as [_ H'].
             assert (ER : RT hist g = branch b l) by (rewrite <- E'; cbn; rewrite H'; reflexivity). rewrite <- ER.
             apply Hfresh; [exact E'|]. intros z. rewrite count_add.
             rewrite (d_late _ _ _ _ _ _ _ D p g z Hp ltac:(lia)). destruct (Nat.eqb_spec (t_round (thr p)) g); [contradiction|]. reflexivity.
        * constructor; cbn [t_round t_prog]; try lia.
          -- intros z Hz. rewrite (Hmiss _ _ _ x z (VLabel b l p) (t_round (thr p)) E (or_intror eq_refl)). auto.
    - left. apply Hsame; [reflexivity|reflexivity|]. cbn. auto.
    - (* choose *)
      destruct (Nat.eq_dec (t_round (thr p)) g) as [E|E].
      + right. specialize (Y4 E). rewrite Ep in Y4. destruct Y4 as (past & rest & ST & Epos & Heq).
        pose proof (stands_at _ _ _ _ _ _ ST) as Esc. destruct ST as (S1 & S2 & S3).
        assert (rest = [AChoose b]).
        { pose proof (script_begins n labels _ _ _ _ S2) as B. inversion B; subst; congruence. }
        subst rest. split.
        * unfold free. rewrite Esc, Epos, nth_error_app2, Nat.sub_diag by lia. reflexivity.
        * constructor; cbn [t_round t_prog]; try lia.
          -- intros z Hz. unfold count. cbn [t_log]. fold (count g z (thr p)). rewrite (Heq z Hz), Esc, Epos, upto_next. lia.
          -- intros _. split; [rewrite Esc, Epos, app_length; cbn; lia|]. intros z Hz. rewrite (S3 z Hz), Esc, Epos, upto_next, upto_past. cbn [meets].
             assert (Hs : slen (nth (field_pos p z) ss End) <= 1); [|lia].
             pose proof (field_range n p z Hp Hz) as Hf. rewrite <- (Hlens _ _ _ Ep) in Hf.
             rewrite (nth_error_nth _ _ End (choice_shape p ss b Ec _ Hf)). cbn. lia.
      + left. apply Hsame; [reflexivity|reflexivity|]. intros E'; contradiction.
    - (* sending the choice *)
      left. destruct (Nat.eq_dec (t_round (thr p)) g) as [E|E]; [|apply Hother; [exact E|intros z; eapply Hmiss; eauto]].
      specialize (Y4 E). rewrite Ep in Y4. destruct Y4 as [K1 K2]. constructor; cbn [t_round t_prog]; try lia; [|auto].
      intros z Hz. pose proof (d_typ _ _ _ _ _ _ _ D' g p z Hp Hz) as Ht. apply after_len in Ht. unfold set_thr, record in Ht. rewrite Nat.eqb_refl in Ht.
      unfold decl in Ht. unfold count. specialize (K2 z Hz). lia.
    - left. destruct (Nat.eq_dec (t_round (thr p)) g) as [E|E]; [|apply Hother; [exact E|intros z; eapply Hmiss; eauto]].
      specialize (Y4 E). rewrite Ep in Y4. destruct Y4 as [K1 K2]. constructor; cbn [t_round t_prog]; try lia; [|auto].
      intros z Hz. pose proof (d_typ _ _ _ _ _ _ _ D' g p z Hp Hz) as Ht. apply after_len in Ht. unfold set_thr, record in Ht. rewrite Nat.eqb_refl in Ht.
      unfold decl in Ht. unfold count. specialize (K2 z Hz). lia.
    - left. apply Hsame; [reflexivity|reflexivity|]. cbn. auto.
    - (* enter *)
      left. rewrite Ep in HR. destruct HR as (Hg0 & _).
      destruct (Nat.eq_dec (S (t_round (thr p))) g) as [E'|E'].
      + assert (ER : RT hist g = branch b l) by (rewrite <- E'; cbn; rewrite Hg0; reflexivity). rewrite <- ER.
        apply Hfresh; [exact E'|]. intros z. rewrite (d_late _ _ _ _ _ _ _ D p g z Hp ltac:(lia)). reflexivity.
      + constructor; cbn [t_round t_prog]; try lia.
        * exact Y1.
        * intros Hlt. destruct (Nat.eq_dec (t_round (thr p)) g) as [E|E]; [|apply Y3; lia].
          specialize (Y4 E). rewrite Ep in Y4. apply Y4.
    - (* close *)
      destruct (Nat.eq_dec (t_round (thr p)) g) as [E|E].
      + right. specialize (Y4 E). rewrite Ep in Y4. destruct Y4 as (past & rest & ST & Epos & Heq).
        pose proof (stands_at _ _ _ _ _ _ ST) as Esc. destruct ST as (S1 & S2 & S3).
        assert (rest = [AClose]).
        { pose proof (script_begins n labels _ _ _ _ S2) as B. inversion B; subst; congruence. }
        subst rest. split.
        * unfold free. rewrite Esc, Epos, nth_error_app2, Nat.sub_diag by lia. reflexivity.
        * constructor; cbn [t_round t_prog]; try lia.
          -- intros z Hz. unfold count. cbn [t_log]. rewrite evs_close. fold (count g z (thr p)). rewrite (Heq z Hz), Esc, Epos, upto_next. lia.
          -- intros _. rewrite Esc, Epos, app_length. cbn. lia.
      + left. apply Hsame; [intros z; unfold count; cbn [t_log]; rewrite evs_close; reflexivity|reflexivity|]. intros E'; contradiction.
    - left. apply Hsame; [reflexivity|reflexivity|]. cbn [t_prog]. intros E. specialize (Y4 E). rewrite Ep in Y4. exact Y4.
    - left. apply Hsame; [reflexivity|reflexivity|]. cbn. auto.
    - left. apply Hsame; [reflexivity|reflexivity|]. cbn [t_prog]. intros E. specialize (Y4 E). rewrite Ep in Y4. exact Y4.
    - left. apply Hsame; [reflexivity|reflexivity|]. cbn. auto.
    - left. apply Hsame; [reflexivity|reflexivity|]. cbn. auto.
    - left. apply Hsame; [reflexivity|reflexivity|]. cbn [t_prog fin]. intros E. specialize (Y4 E). rewrite Ep in Y4. exact Y4.
  Qed.

  Lemma yinv_step : forall hist L thr p i th' L', 1 <= p <= n -> inv L thr -> rinv hist L thr -> dinv hist L thr -> xinv hist thr ->
    yinv hist thr -> tcase p (thr p) L i th' L' -> yinv (record p i (thr p) hist) (set_thr thr p th').
  Proof.
    intros hist L thr p i th' L' Hp I R D X Y C.
    assert (Hold : forall g, g <= length hist -> exists pos, plays (RT hist g) pos /\
      forall q, 1 <= q <= n -> yat g (RT hist g) q (set_thr thr p th' q) (pos q)).
    { intros g Hg. destruct (Y g Hg) as (pos & P & YA).
      destruct (yat_step hist L thr p i th' L' g pos Hp I R D X Hg C YA) as [K|[F K]].
      - exists pos. split; [exact P|]. intros q Hq. unfold set_thr. destruct (Nat.eqb_spec q p) as [->|]; [exact K|auto].
      - exists (advance pos p). split; [eapply plays_step; eauto|]. intros q Hq. unfold set_thr, advance. destruct (Nat.eqb_spec q p) as [->|]; [exact K|auto]. }
    destruct (record_case n branch labels strict L p i (thr p) th' L' hist C)
      as [Er|(b & l & ss & hs & pl & Er & Hl & Ei & Et & Ep & Ec & Ea)]; rewrite Er; [exact Hold|].
    intros g Hg. rewrite app_length in Hg. cbn in Hg. destruct (le_lt_dec g (length hist)) as [Hg'|Hg'].
    - rewrite rt_app by exact Hg'. apply Hold. exact Hg'.
    - exists (fun _ => 0). split; [apply plays_zero; auto|]. intros q Hq.
      assert (Hrd : t_round (set_thr thr p th' q) < g).
      { unfold set_thr. destruct (Nat.eqb_spec q p) as [->|].
        - destruct C; try discriminate Ei. cbn. pose proof (r_thr _ _ _ _ _ R p Hp) as [HH _]. lia.
        - pose proof (r_thr _ _ _ _ _ R q Hq) as [HH _]. lia. }
      pose proof (dinv_case n branch labels strict branch_dual T hist L thr p i th' L' Hp I R D C) as D'.
      constructor; try lia. intros x Hx. unfold count. rewrite (d_late _ _ _ _ _ _ _ D' q g x Hq Hrd). cbn. lia.
  Qed.

  Lemma yinv_init : yinv [] (st_thr (init link_ops n T empty_links)).
  Proof.
    destruct (init_form n T T_dual) as (L & _ & _ & _ & _ & _ & Hthr). intros g Hg. cbn in Hg. assert (g = 0) as -> by lia.
    exists (fun _ => 0). split; [apply plays_zero; auto|]. intros p Hp. rewrite Hthr by exact Hp.
    destruct (stands_start n labels T p) as [rest ST]; [apply ok_script; auto|].
    constructor; cbn [t_round t_prog t_log]; try lia; [intros z Hz; cbn; lia|]. intros _. exists [], rest. split; [exact ST|]. split; [reflexivity|]. intros; reflexivity.
  Qed.

  (** Everybody is through with round g. *)
  Lemma yinv_ordered : forall hist thr g, xinv hist thr -> yinv hist thr -> g <= length hist ->
    (forall p, 1 <= p <= n -> t_prog (thr p) = PFin ROk /\ g <= t_round (thr p)) -> ordered (RT hist g).
  Proof.
    intros hist thr g X Y Hg Hall. destruct (Y g Hg) as (pos & P & YA).
    eapply plays_ordered; [intros p Hp; apply ok_script; [apply (x_ok _ _ _ _ _ _ _ X)|exact Hp]|exact P|].
    intros p Hp. destruct (Hall p Hp) as [E Hr]. destruct (YA p Hp) as [_ _ Y3 Y4]. destruct (le_lt_eq_dec _ _ Hr) as [Hlt|Heq]; [auto|].
    specialize (Y4 (eq_sym Heq)). rewrite E in Y4. exact Y4.
  Qed.
End Conv.
