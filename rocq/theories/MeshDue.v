(** Whom a role that cannot move is waiting for. *)
From Coq Require Import List Arith ZArith Bool Lia Permutation.
From Verif Require Import Types Diag DiagProofs Wiring WiringProofs Session Mesh MeshSpec Links LinksProofs Refine Sim
  MeshWire MeshInv MeshStep MeshKeep MeshSafe MeshRounds MeshRun MeshLog MeshReach Global MeshGlobal MeshSignal MeshProgress.
Import ListNotations.
Open Scope nat_scope.

(** The least element of a list. *)
Lemma total_min : forall A (R : A -> A -> Prop), (forall a b, R a b \/ R b a) -> (forall a b c, R a b -> R b c -> R a c) ->
  forall l, l <> [] -> exists a, In a l /\ forall b, In b l -> R a b.
Proof.
  intros A R Htot Htr. induction l as [|x l IH]; [congruence|]. intros _. destruct l as [|y l].
  - exists x. split; [left; reflexivity|]. intros b [<-|[]]. destruct (Htot x x); assumption.
  - destruct IH as (a & Ha & Hm); [discriminate|]. destruct (Htot x a) as [H|H].
    + exists x. split; [left; reflexivity|]. intros b [<-|Hb]; [destruct (Htot x x); assumption|].
      apply (Htr x a b H), Hm, Hb.
    + exists a. split; [right; exact Ha|]. intros b [<-|Hb]; [exact H|apply Hm, Hb].
Qed.

(** Choosing one value for each of finitely many numbers. *)
Lemma finite_choice : forall (R : nat -> nat -> Prop) n, (forall p, 1 <= p <= n -> exists k, R p k) ->
  exists f, forall p, 1 <= p <= n -> R p (f p).
Proof.
  intros R n. induction n as [|n IH]; intros H; [exists (fun _ => 0); intros; lia|].
  destruct IH as [f Hf]; [intros p Hp; apply H; lia|]. destruct (H (S n)) as [k Hk]; [lia|].
  exists (fun p => if p =? S n then k else f p). intros p Hp. destruct (Nat.eqb_spec p (S n)) as [->|]; [exact Hk|apply Hf; lia].
Qed.

Section Due.
  Variable n : nat.
  Variable labels : nat -> nat.
  Variable strict : bool.
  Variable P : protocol.
  Hypothesis wf : wf_protocol n labels P.

  Notation branch := (branch_g n P).
  Notation lthread := (@thread handle).
  Notation inv := (inv n branch labels).
  Notation rinv := (rinv n labels).
  Notation ginv := (ginv n labels P).
  Notation sinv := (sinv n).
  Notation grnd := (grnd P).
  Notation peer_role := (peer_role n).
  Notation lnk := (lnk n).
  Notation hnd := (hnd n).
  Notation mesh := (mesh n).
  Notation settled := (settled n).
  Notation can := (can n labels strict P).
  Notation at_pos := (at_pos n P).
  Notation choice_last := (choice_last n labels P wf).
  Notation tstep_l := (tstep link_ops n branch labels strict).

  (** A role that cannot move waits for a role that is behind it, or that can do now what it waits for. *)
  Lemma blocked : forall hist L thr, inv L thr -> rinv hist L thr -> ginv hist thr -> sinv L thr -> settled thr ->
    forall g k p, 1 <= p <= n -> t_round (thr p) = g -> at_pos hist p (thr p) k ->
    can L thr p \/ exists x kx, 1 <= x <= n /\ running (thr x) /\ at_pos hist x (thr x) kx /\
      (t_round (thr x) < g \/ t_round (thr x) = g /\ (kx < k \/ kx = k /\ can L thr x)) /\
      (forall m, nth_error (fst (grnd hist g)) k = Some m -> x = from m).
  Proof.
    intros hist L thr I R G S St g k p Hp Hg Hk.
    destruct (St p Hp) as [Et _]. pose proof (g_wf _ _ _ _ _ G g) as Wg.
    pose proof (r_thr _ _ _ _ _ R p Hp) as [Hle HR].
    set (waits := fun x => forall m, nth_error (fst (grnd hist g)) k = Some m -> x = from m).
    assert (Hpeer : forall x y, waits x -> 1 <= x <= n -> peer_role x y -> avail (hnd g x y) L = 1 ->
              (can L thr p \/ exists x kx, 1 <= x <= n /\ running (thr x) /\ at_pos hist x (thr x) kx /\
                (t_round (thr x) < g \/ t_round (thr x) = g /\ (kx < k \/ kx = k /\ can L thr x)) /\ waits x) \/
              running (thr x) /\ t_round (thr x) = g /\ exists kx, at_pos hist x (thr x) kx /\ k <= kx).
    { intros x y Hw Hx Hy Ha. destruct (holder n labels P hist L thr I R St g x y Hx Hy Ha) as [H1 H2].
      destruct (has_pos n labels P hist thr x Hx G H2) as [kx Hkx].
      destruct (le_lt_eq_dec _ _ H1) as [Hlt|Heq].
      - left. right. exists x, kx. auto 12.
      - destruct (lt_dec kx k) as [Hlt|Hge]; [left; right; exists x, kx; auto 12|].
        right. split; [exact H2|]. split; [exact Heq|]. exists kx. split; [exact Hkx|lia]. }
    assert (Hdone : forall x kx, waits x -> 1 <= x <= n -> running (thr x) -> t_round (thr x) = g -> at_pos hist x (thr x) kx -> kx = k ->
              can L thr x -> can L thr p \/ exists x kx, 1 <= x <= n /\ running (thr x) /\ at_pos hist x (thr x) kx /\
                (t_round (thr x) < g \/ t_round (thr x) = g /\ (kx < k \/ kx = k /\ can L thr x)) /\ waits x).
    { intros x kx Hw Hx Hr Hgx Hkx E Hc. right. exists x, kx. auto 12. }
    unfold MeshProgress.at_pos in Hk. destruct (t_prog (thr p)) as [ss r hs|b l pend own|a r hs|res|hs] eqn:Ep; try contradiction.
    - (* running *)
      destruct Hk as (pre & suf & E1 & E2 & E3 & E4 & E5). rewrite Hg in *. destruct HR as [-> _].
      destruct suf as [|m suf].
      + (* end of the round *)
        destruct (snd (grnd hist g)) as [|c b] eqn:Ee.
        * left. exists ITau. split; [discriminate|]. unfold tstep. rewrite Et, Ep, E4. cbn [stack_of last_stack].
          rewrite E3, ends_last. discriminate.
        * unfold wf_round in Wg. rewrite Ee in Wg. destruct Wg as [_ [Hc Hlab]].
          (* the chooser can choose *)
          assert (Hchoose : forall pre' hs', t_trash (thr c) = [] ->
                    t_prog (thr c) = PRun (sessions_of n c [] (GChoose c b)) (stack_of c [] (GChoose c b)) hs' ->
                    fst (grnd hist g) = pre' ++ [] -> can L thr c).
          { intros pre' hs' Hct Hcp _. exists (ILabel 0). split; [discriminate|]. unfold tstep. rewrite Hct, Hcp.
            cbn [stack_of last_stack]. rewrite Nat.eqb_refl, choice_last. destruct (Nat.ltb_spec 0 (labels b)); [|lia].
            destruct (make_choice link_ops n branch c b 0 hs' L) as [[pr s1]|]; discriminate. }
          destruct (Nat.eq_dec p c) as [->|Hpc].
          -- left. eapply (Hchoose pre (mesh g c)); [exact Et| |exact E1]. rewrite Ep, E3, E4. reflexivity.
          -- assert (Hx : peer_role p c) by (split; [congruence|exact Hc]). destruct (peer_sym n p c Hp Hx) as [_ Hcp].
             assert (Es : nth_error ss (field_pos p c) = Some (Rcv (PChoice b p) End)).
             { rewrite E3, sessions_nth by (auto; congruence). cbn [sess_of last_sess].
               destruct (Nat.eqb_spec p c); [contradiction|]. rewrite Nat.eqb_refl. reflexivity. }
             pose proof (mesh_nth n g p c Hp Hx) as Eh. rewrite <- Hg in Eh.
             assert (Hr : r = SRole c SEnd).
             { rewrite E4. cbn. destruct (Nat.eqb_spec p c); [contradiction|reflexivity]. }
             assert (Ep' : t_prog (thr p) = PRun ss r (mesh (t_round (thr p)) p)) by (rewrite Hg; exact Ep).
             destruct (run_field n branch labels hist L thr p ss r _ c _ _ Hp I R Ep' Hx Es Eh) as (_ & Hl & Ht & _).
             rewrite Hg in *.
             destruct (lk_recv (hnd g p c) L) as [v cc y L1|L1| |] eqn:Er.
             4: { left. exists ITau. split; [discriminate|]. unfold tstep. rewrite Et, Ep, Hr.
                  rewrite callable_true, comm_field_pos by (auto; destruct Hx; lia). rewrite Es, Eh, Nat.eqb_refl.
                  unfold do_offer. cbn [op_recv link_ops]. rewrite Er. discriminate. }
             1: { left. exists ITau. split; [discriminate|]. unfold tstep. rewrite Et, Ep, Hr.
                  rewrite callable_true, comm_field_pos by (auto; destruct Hx; lia). rewrite Es, Eh, Nat.eqb_refl.
                  unfold do_offer. cbn [op_recv link_ops]. rewrite Er. destruct v; [discriminate|].
                  destruct ((b0 =? b) && (j =? p) && (l <? labels b)); discriminate. }
             1: { left. exists ITau. split; [discriminate|]. unfold tstep. rewrite Et, Ep, Hr.
                  rewrite callable_true, comm_field_pos by (auto; destruct Hx; lia). rewrite Es, Eh, Nat.eqb_refl.
                  unfold do_offer. cbn [op_recv link_ops]. rewrite Er. discriminate. }
             destruct (recv_open L _ _ ltac:(rewrite Ht; reflexivity) Er) as [_ Ho].
             rewrite <- (side_other p c) in Ho by congruence.
             assert (Ha : avail (hnd g c p) L = 1).
             { unfold MeshRounds.hnd. rewrite (lnk_sym n). apply full_avail. auto. }
             assert (Hw : waits c).
             { intros m0 Hm0. exfalso. assert (k < length (fst (grnd hist g))) by (apply nth_error_Some; congruence).
               rewrite E1, app_nil_r in *. lia. }
             destruct (Hpeer c p Hw Hc Hcp Ha) as [H|(Hrc & Hgc & kx & Hkx & Hkk)]; [exact H|].
             pose proof (fun E => Hdone c kx Hw Hc Hrc Hgc Hkx E) as Hd. clear Hrc.
             unfold MeshProgress.at_pos in Hkx. rewrite Hgc in Hkx. destruct (St c Hc) as [Etc _].
             destruct (t_prog (thr c)) as [ssc rc hsc| |ac rc hsc| |] eqn:Epc; try contradiction.
             ++ destruct Hkx as (prec & sufc & F1 & F2 & F3 & F4 & F5).
                assert (sufc = []).
                { rewrite app_nil_r in E1. destruct sufc as [|m0 sufc]; [reflexivity|]. exfalso.
                  rewrite E1 in F1. apply (f_equal (@length _)) in F1. rewrite app_length in F1. cbn in F1. lia. }
                subst sufc. apply Hd; [rewrite F1, !app_nil_r in E1; congruence|]. rewrite Ee in F3, F4.
                eapply (Hchoose prec hsc); [exact Etc|rewrite F3, F4; reflexivity|exact F1].
             ++ destruct Hkx as [_ Hkx]. congruence.
      + (* a message *)
        cbn in E2. set (e := snd (grnd hist g)) in *.
        assert (Hm : wf_message n m).
        { destruct Wg as [Wg _]. rewrite E1 in Wg. apply Forall_app in Wg. destruct Wg as [_ Wg]. inversion Wg; assumption. }
        destruct Hm as (Hfrom & Hinto & Hft).
        assert (Hsend : forall hs', t_trash (thr (from m)) = [] ->
                  t_prog (thr (from m)) = PRun (sessions_of n (from m) (m :: suf) e) (stack_of (from m) (m :: suf) e) hs' ->
                  length hs' = n - 1 -> can L thr (from m)).
        { intros hs' Hct Hcp Hlen. exists (IVal 0). split; [discriminate|]. unfold tstep. rewrite Hct, Hcp.
          assert (Hx : peer_role (from m) (into m)) by (split; [congruence|exact Hinto]).
          cbn [stack_of]. rewrite Nat.eqb_refl, callable_true, comm_field_pos by (auto; destruct Hx; lia).
          rewrite (sessions_nth n (from m) (into m)) by (auto; congruence).
          assert (Hs : sess_of (from m) (into m) (m :: suf) e = Snd (PVal (what m)) (sess_of (from m) (into m) suf e)).
          { cbn [sess_of]. rewrite !Nat.eqb_refl. reflexivity. }
          rewrite Hs. destruct (nth_error hs' (field_pos (from m) (into m))) as [h|] eqn:Eh.
          - unfold do_send. cbn [op_send link_ops]. destruct h as [[l0 s0] f0]. unfold lk_send.
            destruct (f0 && is_snd (l_ty (lk L l0) s0)); [|discriminate].
            destruct (l_open (lk L l0) (negb s0)); [discriminate|]. destruct strict; discriminate.
          - apply nth_error_None in Eh. pose proof (field_range n _ _ Hfrom Hx). lia. }
        assert (Hlenm : forall q, 1 <= q <= n -> length (mesh g q) = n - 1) by (intros; unfold MeshRounds.mesh; apply meshb_length).
        destruct (Nat.eq_dec (from m) p) as [Ef|Ef].
        * left. rewrite <- Ef in *. eapply Hsend; [exact Et|rewrite Ep, E3, E4; reflexivity|apply Hlenm; exact Hp].
        * unfold involves in E2. destruct (Nat.eqb_spec (from m) p); [contradiction|]. cbn in E2. apply Nat.eqb_eq in E2.
          set (x := from m) in *. assert (Hx : peer_role p x) by (split; [exact Ef|exact Hfrom]).
          destruct (peer_sym n p x Hp Hx) as [_ Hxp].
          assert (Hs : sess_of p x (m :: suf) e = Rcv (PVal (what m)) (sess_of p x suf e)).
          { cbn [sess_of]. fold x. destruct (Nat.eqb_spec x p); [contradiction|]. rewrite Nat.eqb_refl, E2, Nat.eqb_refl. reflexivity. }
          assert (Es : nth_error ss (field_pos p x) = Some (Rcv (PVal (what m)) (sess_of p x suf e))).
          { rewrite E3, sessions_nth by auto. rewrite Hs. reflexivity. }
          pose proof (mesh_nth n g p x Hp Hx) as Eh. rewrite <- Hg in Eh.
          assert (Hr : exists r', r = SRole x r').
          { exists (stack_of p suf e). rewrite E4. cbn [stack_of]. fold x. destruct (Nat.eqb_spec x p); [contradiction|].
            rewrite E2, Nat.eqb_refl. reflexivity. }
          destruct Hr as [r' Hr].
          assert (Ep' : t_prog (thr p) = PRun ss r (mesh (t_round (thr p)) p)) by (rewrite Hg; exact Ep).
          destruct (run_field n branch labels hist L thr p ss r _ x _ _ Hp I R Ep' Hx Es Eh) as (_ & Hl & Ht & _).
          rewrite Hg in *.
          destruct (lk_recv (hnd g p x) L) as [v cc y L1|L1| |] eqn:Er.
          4: { left. exists ITau. split; [discriminate|]. unfold tstep. rewrite Et, Ep, Hr.
               rewrite callable_true, comm_field_pos by (auto; destruct Hx; lia). rewrite Es, Eh.
               unfold do_recv. cbn [op_recv link_ops]. rewrite Er. discriminate. }
          1: { left. exists ITau. split; [discriminate|]. unfold tstep. rewrite Et, Ep, Hr.
               rewrite callable_true, comm_field_pos by (auto; destruct Hx; lia). rewrite Es, Eh.
               unfold do_recv. cbn [op_recv link_ops]. rewrite Er. destruct v; [|discriminate]. destruct cc; [|discriminate].
               destruct (t =? what m); discriminate. }
          1: { left. exists ITau. split; [discriminate|]. unfold tstep. rewrite Et, Ep, Hr.
               rewrite callable_true, comm_field_pos by (auto; destruct Hx; lia). rewrite Es, Eh.
               unfold do_recv. cbn [op_recv link_ops]. rewrite Er. discriminate. }
          destruct (recv_open L _ _ ltac:(rewrite Ht; reflexivity) Er) as [Hpe Ho].
          pose proof (not_ahead n labels P L _ _ (i_wf _ _ _ _ _ I) (i_q _ _ _ _ _ I) Hl Hpe) as Hlen.
          rewrite <- (side_other p x) in Ho, Hlen by (destruct Hx; congruence).
          assert (Ha : avail (hnd g x p) L = 1).
          { unfold MeshRounds.hnd. rewrite (lnk_sym n). apply full_avail. auto. }
          assert (Hw : waits x).
          { intros m0 Hm0. rewrite E1, nth_error_app2, <- E5, Nat.sub_diag in Hm0 by lia. cbn in Hm0. injection Hm0 as <-. reflexivity. }
          destruct (Hpeer x p Hw Hfrom Hxp Ha) as [H|(Hrx & Hgx & kx & Hkx & Hkk)]; [exact H|].
          pose proof (fun E => Hdone x kx Hw Hfrom Hrx Hgx Hkx E) as Hd. clear Hrx.
          unfold MeshProgress.at_pos in Hkx. rewrite Hgx in Hkx. destruct (St x Hfrom) as [Etx _].
          rewrite Ht in Hlen. cbn [slen] in Hlen.
          pose proof (r_thr _ _ _ _ _ R x Hfrom) as [_ HRx]. pose proof (i_prog _ _ _ _ _ I x Hfrom) as POx.
          destruct (t_prog (thr x)) as [ssx rx hsx| |ax rx hsx| |] eqn:Epx; try contradiction.
          -- destruct Hkx as (prex & sufx & F1 & F2 & F3 & F4 & F5). fold e in F3, F4.
             destruct HRx as [Ehx _]. rewrite Hgx in Ehx.
             assert (Etyx : l_ty (lk L (lnk g p x)) (x <? p) = sess_of x p sufx e).
             { assert (Esx : nth_error ssx (field_pos x p) = Some (sess_of x p sufx e)).
               { rewrite F3. apply sessions_nth; auto. }
               assert (Ehx' : nth_error hsx (field_pos x p) = Some (hnd g x p)) by (rewrite Ehx; apply mesh_nth; auto).
               destruct (run_field n branch labels hist L thr x ssx rx hsx p _ _ Hfrom I R Epx Hxp Esx Ehx') as (_ & _ & H & _).
               rewrite Hgx, (lnk_sym n) in H. exact H. }
             rewrite Etyx in Hlen.
             (* the position of x is the position of p *)
             assert (Hsplit : exists mid, m :: suf = mid ++ sufx).
             { exists (firstn (length prex - length pre) (m :: suf)).
               assert (F6 : sufx = skipn (length prex) (fst (grnd hist g))) by (rewrite F1, skipn_app, skipn_all, Nat.sub_diag; reflexivity).
               rewrite E1 in F6. rewrite skipn_app in F6. rewrite skipn_all2 in F6 by lia. cbn [app] in F6.
               rewrite F6. symmetry. apply firstn_skipn. }
             destruct Hsplit as [mid Hmid]. destruct mid as [|m' mid].
             ++ cbn in Hmid. subst sufx. apply Hd.
                { rewrite E1 in F1. apply app_inv_tail in F1. congruence. }
                eapply Hsend; [exact Etx|rewrite F3, F4; reflexivity|rewrite Ehx; apply Hlenm; exact Hfrom].
             ++ exfalso. cbn in Hmid. injection Hmid as _ Hmid. pose proof (sess_shorter x p mid sufx e) as Hsh.
                rewrite <- Hmid in Hsh. rewrite (sess_of_dual suf e p x) in Hlen by congruence. rewrite slen_co in Hlen. lia.
          -- exfalso. destruct HRx as [-> _]. cbn in POx. destruct POx as (_ & _ & POx & _). rewrite Forall_forall in POx.
             rewrite Hgx in POx. specialize (POx _ (in_mesh n g x p Hfrom Hxp)). unfold lty, MeshRounds.hnd in POx.
             rewrite (lnk_sym n) in POx. rewrite POx in Hlen. cbn in Hlen. lia.
    - (* closing *)
      rewrite Hg in *. destruct Hk as [-> Ee]. destruct HR as (-> & _ & _).
      pose proof (i_prog _ _ _ _ _ I p Hp) as PO. rewrite Ep in PO. cbn in PO. destruct PO as (_ & _ & PT & PQ).
      assert (Hself : forall i, i = ITau -> do_close link_ops (thr p) a r (mesh g p) L <> None -> can L thr p).
      { intros i -> H. exists ITau. split; [discriminate|]. unfold tstep. rewrite Et, Ep. exact H. }
      unfold do_close in Hself. cbn [op_tell op_hear link_ops] in Hself.
      destruct (nth_error (mesh g p) a) as [h|] eqn:Ea.
      + apply (fun H => or_introl (Hself ITau eq_refl H)). destruct (mesh_field n _ _ _ _ Hp Ea) as (x & Hx & -> & ->).
        assert (Hq : quiet L (hnd g p x)).
        { rewrite (skipn_cons _ _ _ _ Ea) in PQ. inversion PQ; assumption. }
        unfold quiet, MeshRounds.hnd in Hq. unfold MeshRounds.hnd, lk_tell. rewrite Hq.
        destruct (true && is_fin (l_ty (lk L (lnk g p x)) (p <? x))); [|discriminate].
        destruct (l_rx (lk L (lnk g p x)) (negb (p <? x))); discriminate.
      + destruct (nth_error (mesh g p) r) as [h|] eqn:Er; [|apply (fun H => or_introl (Hself ITau eq_refl H)); discriminate].
        destruct (mesh_field n _ _ _ _ Hp Er) as (x & Hx & -> & ->). destruct (peer_sym n p x Hp Hx) as [Hx' Hxp].
        destruct (lk_hear (hnd g p x) L) as [[|] L1| | |] eqn:El; try (apply (fun H => or_introl (Hself ITau eq_refl H)); discriminate).
        clear Hself. unfold MeshRounds.hnd, lk_hear in El.
        destruct (true && is_fin (l_ty (lk L (lnk g p x)) (p <? x))); [|discriminate].
        destruct (l_sig (lk L (lnk g p x)) (negb (p <? x))) eqn:Esig; [discriminate|].
        destruct (l_open (lk L (lnk g p x)) (negb (p <? x))) eqn:Eo; [|discriminate].
        rewrite <- (side_other p x) in Esig, Eo by (destruct Hx; congruence).
        assert (Hl : lnk g p x < lnext L).
        { destruct (live_link n branch labels L thr p (hnd g p x) Hp I) as [H _]; [|exact H].
          unfold all_of. rewrite Ep. apply in_or_app. left. apply in_mesh; assumption. }
        assert (Ha : avail (hnd g x p) L = 1).
        { unfold MeshRounds.hnd. rewrite (lnk_sym n). apply full_avail. auto. }
        assert (Hw : waits x).
        { intros m0 Hm0. exfalso. assert (Datatypes.S (length (fst (grnd hist g))) < length (fst (grnd hist g))) by (apply nth_error_Some; congruence). lia. }
        destruct (Hpeer x p Hw Hx' Hxp Ha) as [H|(Hrx & Hgx & kx & Hkx & Hkk)]; [exact H|].
        pose proof (fun E => Hdone x kx Hw Hx' Hrx Hgx Hkx E) as Hd. clear Hrx.
        unfold MeshProgress.at_pos in Hkx. rewrite Hgx in Hkx. destruct (St x Hx') as [Etx _].
        pose proof (r_thr _ _ _ _ _ R x Hx') as [_ HRx]. pose proof (i_prog _ _ _ _ _ I x Hx') as POx.
        destruct (t_prog (thr x)) as [ssx rx hsx| |ax rx hsx| |] eqn:Epx; try contradiction.
        * exfalso. destruct Hkx as (prex & sufx & F1 & _ & _ & _ & F5). rewrite F1, app_length in Hkk. lia.
        * destruct HRx as [-> _]. rewrite Hgx in *. destruct (le_lt_dec ax (field_pos x p)) as [Hax|Hax].
          -- (* x can tell *)
             apply Hd; [apply Hkx|]. exists ITau. split; [discriminate|]. unfold tstep. rewrite Etx, Epx.
             unfold do_close. cbn [op_tell op_hear link_ops].
             destruct (nth_error (mesh g x) ax) as [h|] eqn:Eax.
             ++ destruct (mesh_field n _ _ _ _ Hx' Eax) as (y & Hy & -> & ->).
                cbn in POx. destruct POx as (_ & _ & _ & PQx). rewrite (skipn_cons _ _ _ _ Eax) in PQx.
                assert (Hq : quiet L (hnd g x y)) by (inversion PQx; assumption).
                unfold quiet, MeshRounds.hnd in Hq. unfold MeshRounds.hnd, lk_tell. rewrite Hq.
                destruct (true && is_fin (l_ty (lk L (lnk g x y)) (x <? y))); [|discriminate].
                destruct (l_rx (lk L (lnk g x y)) (negb (x <? y))); discriminate.
             ++ exfalso. apply nth_error_None in Eax. unfold MeshRounds.mesh in Eax. rewrite meshb_length in Eax.
                pose proof (field_range n x p Hx' Hxp). lia.
          -- exfalso. assert (Hsig : l_sig (lk L (lnk g p x)) (x <? p) = Some Stop).
             { apply (s_kept _ _ _ S g p x Hp Hx).
               - apply (held_kept n branch labels L thr p _ Hp I). rewrite Ep. apply in_mesh; assumption.
               - exact Hgx.
               - unfold told. rewrite Epx. exact Hax.
               - intros [_ H]. unfold heard in H. rewrite Ep in H. lia. }
             congruence.
  Qed.


  (** A role is at one position. *)
  Lemma pos_unique : forall hist thr p k k', 1 <= p <= n -> ginv hist thr -> at_pos hist p (thr p) k -> at_pos hist p (thr p) k' -> k = k'.
  Proof.
    intros hist thr p k k' Hp G. pose proof (g_wf _ _ _ _ _ G (t_round (thr p))) as Wg. revert k k' Wg. unfold MeshProgress.at_pos.
    set (g := t_round (thr p)). destruct (t_prog (thr p)) as [ss r hs| | | |]; try contradiction; [|intros k k' _ [-> _] [-> _]; reflexivity].
    assert (K : forall pre suf pre' suf', wf_round n labels (grnd hist g) ->
              fst (grnd hist g) = pre ++ suf -> norm p suf -> fst (grnd hist g) = pre' ++ suf' ->
              sessions_of n p suf (snd (grnd hist g)) = sessions_of n p suf' (snd (grnd hist g)) -> ~ length pre < length pre').
    { intros pre suf pre' suf' Wg E1 E2 F1 E Hlt. set (e := snd (grnd hist g)) in *.
      assert (Hs : exists mid, suf = mid ++ suf' /\ mid <> []).
      { exists (firstn (length pre' - length pre) suf). assert (F6 : suf' = skipn (length pre') (fst (grnd hist g))).
        { rewrite F1, skipn_app, skipn_all, Nat.sub_diag. reflexivity. }
        rewrite E1, skipn_app, skipn_all2 in F6 by lia. cbn [app] in F6. split; [rewrite F6; symmetry; apply firstn_skipn|].
        intros En. apply (f_equal (@length _)) in En. rewrite firstn_length in En. cbn in En.
        assert (length suf = 0) by lia. destruct suf; [|discriminate]. rewrite app_nil_r in E1.
        apply (f_equal (@length _)) in F1. rewrite app_length, E1 in F1. lia. }
      destruct Hs as (mid & -> & Hne). destruct mid as [|m mid]; [congruence|]. cbn in E2.
      assert (Hm : wf_message n m).
      { destruct Wg as [Wg _]. rewrite E1 in Wg. apply Forall_app in Wg. destruct Wg as [_ Wg]. inversion Wg; assumption. }
      destruct Hm as (Hf & Hi & Hft). unfold involves in E2.
      assert (Hx : exists x, peer_role p x /\ slen (sess_of p x ((m :: mid) ++ suf') e) = 1 + slen (sess_of p x (mid ++ suf') e)).
      { destruct (Nat.eqb_spec (from m) p) as [Ef|Ef].
        - exists (into m). split; [split; [congruence|exact Hi]|]. cbn [app sess_of]. rewrite Ef, !Nat.eqb_refl. reflexivity.
        - cbn in E2. apply Nat.eqb_eq in E2. exists (from m). split; [split; assumption|]. cbn [app sess_of].
          destruct (Nat.eqb_spec (from m) p); [contradiction|]. rewrite E2, !Nat.eqb_refl. reflexivity. }
      destruct Hx as (x & [Hxp Hx] & Hl). pose proof (sess_shorter p x mid suf' e) as Hsh.
      apply (f_equal (fun l => nth_error l (field_pos p x))) in E. rewrite !sessions_nth in E by auto. apply (f_equal (fun o => match o with Some s => s | None => End end)) in E. cbv beta iota in E.
      rewrite E in Hl. lia. }
    intros k k' Wg (pre & suf & E1 & E2 & E3 & E4 & <-) (pre' & suf' & F1 & F2 & F3 & F4 & <-).
    pose proof (K pre suf pre' suf' Wg E1 E2 F1 (eq_trans (eq_sym E3) F3)).
    pose proof (K pre' suf' pre suf Wg F1 F2 E1 (eq_trans (eq_sym F3) E3)). lia.
  Qed.

  (** ** Who is next *)

  (** When role p does what it does next, if it is at position k of round g. *)
  Variable due : nat -> nat -> nat -> Z.
  Variable hist : history.
  Hypothesis due_mono : forall g k k' p, g <= length hist -> k <= k' -> (due g k p <= due g k' p)%Z.
  Hypothesis due_cause : forall g k m, g <= length hist -> nth_error (fst (grnd hist g)) k = Some m -> (due g k (from m) <= due g k (into m))%Z.
  Hypothesis due_end : forall g k k' p q, g <= length hist -> nth_error (fst (grnd hist g)) k' = None -> (due g k p <= due g k' q)%Z.
  Hypothesis due_rounds : forall g g' k k' p q, g < g' -> g' <= length hist -> (due g k p <= due g' k' q)%Z.

  Lemma next_due : forall L thr p0, inv L thr -> rinv hist L thr -> ginv hist thr -> sinv L thr -> settled thr ->
    1 <= p0 <= n -> running (thr p0) ->
    exists p k, 1 <= p <= n /\ running (thr p) /\ at_pos hist p (thr p) k /\ can L thr p /\
      forall q k', 1 <= q <= n -> running (thr q) -> at_pos hist q (thr q) k' ->
        (due (t_round (thr p)) k p <= due (t_round (thr q)) k' q)%Z.
  Proof.
    intros L thr p0 I R G S St Hp0 Hr0.
    destruct (finite_choice (fun p k => running (thr p) -> at_pos hist p (thr p) k) n) as [pos Hpos].
    { intros p Hp. destruct (t_prog (thr p)) eqn:Ep; try (exists 0; unfold running; rewrite Ep; contradiction);
        (destruct (has_pos n labels P hist thr p Hp G) as [k Hk]; [unfold running; rewrite Ep; exact Logic.I|exists k; auto]). }
    set (key := fun p => due (t_round (thr p)) (pos p) p).
    set (Rk := fun p q => (key p < key q)%Z \/ key p = key q /\ (t_round (thr p) < t_round (thr q) \/
                 t_round (thr p) = t_round (thr q) /\ pos p <= pos q)).
    destruct (total_min nat Rk) with (l := filter (fun p => match t_prog (thr p) with PRun _ _ _ | PClose _ _ _ => true | _ => false end) (seq 1 n))
      as (p & Hin & Hmin).
    - intros a b. unfold Rk. lia.
    - intros a b c. unfold Rk. lia.
    - intros E. assert (Hx : In p0 []); [|contradiction]. rewrite <- E. apply filter_In. split; [apply in_seq; lia|].
      unfold running in Hr0. destruct (t_prog (thr p0)); try contradiction; reflexivity.
    - assert (Hrun : forall q, In q (filter (fun p => match t_prog (thr p) with PRun _ _ _ | PClose _ _ _ => true | _ => false end) (seq 1 n)) <->
                1 <= q <= n /\ running (thr q)).
      { intros q. rewrite filter_In, in_seq. unfold running. split.
        - intros [H1 H2]. split; [lia|]. destruct (t_prog (thr q)); try discriminate; exact Logic.I.
        - intros [H1 H2]. split; [lia|]. destruct (t_prog (thr q)); try contradiction; reflexivity. }
      apply Hrun in Hin as [Hp Hr]. pose proof (Hpos p Hp Hr) as Hk.
      assert (Hbest : forall x, 1 <= x <= n -> running (thr x) -> (key x <= key p)%Z -> forall q k', 1 <= q <= n -> running (thr q) ->
                at_pos hist q (thr q) k' -> (due (t_round (thr x)) (pos x) x <= due (t_round (thr q)) k' q)%Z).
      { intros x Hx Hrx Hle q k' Hq Hrq Hkq. pose proof (Hpos q Hq Hrq) as Hkq'.
        rewrite (pos_unique hist thr q k' (pos q) Hq G Hkq Hkq'). specialize (Hmin q (proj2 (Hrun q) (conj Hq Hrq))).
        fold (key x) (key q). unfold Rk in Hmin. lia. }
      destruct (blocked hist L thr I R G S St (t_round (thr p)) (pos p) p Hp eq_refl Hk) as [Hc|(x & kx & Hx & Hrx & Hkx & Hcase & Hwait)].
      + exists p, (pos p). split; [exact Hp|]. split; [exact Hr|]. split; [exact Hk|]. split; [exact Hc|]. apply Hbest; [exact Hp|exact Hr|lia].
      + destruct (r_thr _ _ _ _ _ R p Hp) as [Hle0 _]. pose proof (Hpos x Hx Hrx) as Hkx'. rewrite (pos_unique hist thr x kx (pos x) Hx G Hkx Hkx') in Hcase. clear kx Hkx.
        specialize (Hmin x (proj2 (Hrun x) (conj Hx Hrx))). unfold Rk in Hmin.
        assert (Hsame : t_round (thr x) = t_round (thr p) -> pos x <= pos p -> (key x <= key p)%Z).
        { intros Hg Hle. unfold key. rewrite Hg. destruct (nth_error (fst (grnd hist (t_round (thr p)))) (pos p)) as [m|] eqn:Em.
          - pose proof (Hwait m eq_refl) as Ex. pose proof (due_cause _ _ _ Hle0 Em) as Hc.
            pose proof (due_mono (t_round (thr p)) (pos x) (pos p) x Hle0 Hle) as Hm. rewrite <- Ex in Hc.
            assert (Hinv : involves p m = true).
            { unfold MeshProgress.at_pos in Hk. destruct (t_prog (thr p)) eqn:Ep; try contradiction.
              - destruct Hk as (pre & suf & E1 & E2 & _ & _ & E5). rewrite E1, nth_error_app2, <- E5, Nat.sub_diag in Em by (rewrite E5; apply le_n).
                destruct suf as [|m' suf]; cbn in Em; [discriminate|]. injection Em as ->. exact E2.
              - destruct Hk as [Hk _]. assert (pos p < length (fst (grnd hist (t_round (thr p))))) by (apply nth_error_Some; congruence). lia. }
            unfold involves in Hinv. apply orb_prop in Hinv as [Hi|Hi]; apply Nat.eqb_eq in Hi; [rewrite <- Hi, <- Ex|rewrite Hi in Hc]; lia.
          - apply due_end; [exact Hle0|exact Em]. }
        destruct Hcase as [Hlt|[Hg [Hlt|[Heq Hc]]]].
        * exfalso. pose proof (due_rounds _ _ (pos x) (pos p) x p Hlt Hle0) as Hd. fold (key x) (key p) in Hd. lia.
        * exfalso. specialize (Hsame Hg ltac:(lia)). lia.
        * exists x, (pos x). split; [exact Hx|]. split; [exact Hrx|]. split; [exact Hkx'|]. split; [exact Hc|].
          apply Hbest; [exact Hx|exact Hrx|]. apply Hsame; [exact Hg|lia].
  Qed.
End Due.
