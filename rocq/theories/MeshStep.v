(** The possible steps of a thread on the specification store, and the typing invariant they keep. *)
From Coq Require Import List Arith Bool Lia Permutation.
From Verif Require Import Types Diag DiagProofs Wiring WiringProofs Session Mesh MeshSpec Links LinksProofs Refine Sim
  MeshWire MeshInv.
Import ListNotations.

Lemma nth_error_len : forall A (l : list A) k x, nth_error l k = Some x -> k < length l.
Proof. intros A l k x H. apply nth_error_Some. congruence. Qed.

Lemma skipn_cons : forall A (l : list A) k x, nth_error l k = Some x -> skipn k l = x :: skipn (k + 1) l.
Proof.
  induction l as [|y l IH]; intros [|k] x H; cbn in *; try discriminate.
  - congruence.
  - apply IH, H.
Qed.

Lemma set_nth_length : forall A (l : list A) k x, length (set_nth k x l) = length l.
Proof. induction l as [|y l IH]; intros [|k] x; cbn; auto. Qed.

Lemma nth_set_same : forall A (l : list A) k x, k < length l -> nth_error (set_nth k x l) k = Some x.
Proof.
  induction l as [|y l IH]; intros [|k] x H; cbn in *; try lia; [reflexivity|]. apply IH. lia.
Qed.

Lemma nth_set_other : forall A (l : list A) k j x, j <> k -> nth_error (set_nth k x l) j = nth_error l j.
Proof.
  induction l as [|y l IH]; intros [|k] [|j] x H; cbn; try reflexivity; try congruence. apply IH. congruence.
Qed.

Lemma Forall2_nth : forall A B (R : A -> B -> Prop) l l' k x y, Forall2 R l l' ->
  nth_error l k = Some x -> nth_error l' k = Some y -> R x y.
Proof.
  intros A B R l l' k x y H. revert k. induction H; intros [|k] Hx Hy; cbn in *; try discriminate.
  - injection Hx as ->. injection Hy as ->. assumption.
  - eauto.
Qed.

(** Changing one field. *)
Lemma Forall2_set : forall (R R' : handle -> sty -> Prop) hs ss k x t, Forall2 R hs ss ->
  nth_error hs k = Some x -> cnt x hs <= 1 -> R' x t ->
  (forall y u, In y hs -> y <> x -> R y u -> R' y u) -> Forall2 R' hs (set_nth k t ss).
Proof.
  intros R R' hs ss k x t H. revert k. induction H as [|y u hs ss Hyu H IH]; intros [|k] Hn Hc Hx Hr;
    cbn [nth_error] in Hn; try discriminate; cbn [set_nth].
  - injection Hn as ->. constructor; [exact Hx|]. rewrite cnt_cons, cnt_self in Hc.
    clear IH. assert (Hno : forall z, In z hs -> z <> x).
    { intros z Hz ->. apply cnt_in in Hz. lia. }
    clear Hc. induction H as [|z w hs ss Hzw H IH]; constructor.
    + apply Hr; [right; left; reflexivity|apply Hno; left; reflexivity|exact Hzw].
    + apply IH; [|intros v Hv; apply Hno; right; exact Hv].
      intros v w' [Hv|Hv]; [intros; apply Hr; [left; exact Hv|assumption|assumption]|].
      intros; apply Hr; [right; right; exact Hv|assumption|assumption].
  - rewrite cnt_cons in Hc. constructor.
    + apply Hr; [left; reflexivity| |exact Hyu]. intros ->. rewrite cnt_self in Hc.
      apply nth_error_In in Hn. apply cnt_in in Hn. lia.
    + apply IH; auto; [lia|]. intros z w Hz. apply Hr. right; exact Hz.
Qed.

Lemma bal_same : forall L a b, (forall y, cnt y a = cnt y b) -> bal L L a b.
Proof. intros L a b H y. rewrite H. reflexivity. Qed.

Lemma choice_shape : forall p ss b, choice_of p ss = Some b ->
  forall i, i < length ss -> nth_error ss i = Some (Snd (PChoice b (other p (i + 1))) End).
Proof.
  intros p ss b H. unfold choice_of in H.
  destruct ss as [|[|[t|b' j] [| |]|] rest]; try discriminate.
  destruct (all_send_choice p b' 1 (Snd (PChoice b' j) End :: rest)) eqn:E; [|discriminate]. injection H as ->.
  revert E. generalize (Snd (PChoice b j) End :: rest) as ss. clear.
  assert (G : forall ss k, all_send_choice p b k ss = true ->
              forall i, i < length ss -> nth_error ss i = Some (Snd (PChoice b (other p (i + k))) End)).
  { induction ss as [|s ss IH]; intros k E i Hi; [cbn in Hi; lia|]. cbn in E.
    destruct s as [|q [| |]|]; try discriminate. apply andb_true_iff in E. destruct E as [E1 E2].
    destruct i as [|i].
    - cbn. destruct q as [t|b' j]; [discriminate|]. cbn in E1. apply andb_true_iff in E1.
      destruct E1 as [E1 E3]. apply Nat.eqb_eq in E1, E3. congruence.
    - cbn [nth_error]. rewrite (IH (S k) E2 i) by (cbn in Hi; lia). do 4 f_equal. lia. }
  intros ss E i Hi. apply G; assumption.
Qed.

Section Cases.
  Variable n : nat.
  Variable branch : nat -> nat -> nat -> mty.
  Variable labels : nat -> nat.
  Variable strict : bool.
  Hypothesis branch_dual : forall b l, l < labels b -> dual_mesh n (branch b l).

  Notation lthread := (@thread handle).
  Notation tstep_l := (tstep link_ops n branch labels strict).

  Definition peer_role (p x : nat) : Prop := x <> p /\ 1 <= x <= n.

  Inductive tcase (p : nat) (th : lthread) (L : links) : inp -> lthread -> links -> Prop :=
  | TDrop x rest out L' : t_trash th = x :: rest -> lk_drop x L = (out, L') ->
      tcase p th L ITau (Thread (t_prog th) (out ++ rest) (t_round th) (t_log th)) L'
  | TCrash : t_trash th = [] -> (forall r, t_prog th <> PFin r) ->
      tcase p th L ICrash (fin th RCrash (held (t_prog th))) L
  | TSend v x ss r hs t k h L' : t_trash th = [] -> t_prog th = PRun ss (SRole x r) hs -> peer_role p x ->
      nth_error ss (field_pos p x) = Some (Snd (PVal t) k) -> nth_error hs (field_pos p x) = Some h ->
      lk_send h (VData t v) [] k L = SentOk h L' ->
      tcase p th L (IVal v) (Thread (PRun (set_nth (field_pos p x) k ss) r hs) [] (t_round th)
                               (t_log th ++ [EvSend (t_round th) x (VData t v)])) L'
  | TSendLost v x ss r hs t k h lost L' : t_trash th = [] -> t_prog th = PRun ss (SRole x r) hs -> peer_role p x ->
      nth_error ss (field_pos p x) = Some (Snd (PVal t) k) -> nth_error hs (field_pos p x) = Some h ->
      lk_send h (VData t v) [] k L = SentLost h lost L' -> strict = false ->
      tcase p th L (IVal v) (Thread (PRun (set_nth (field_pos p x) k ss) r hs) lost (t_round th)
                               (t_log th ++ [EvSend (t_round th) x (VData t v)])) L'
  | TSendErr v x ss r hs t k h lost L' : t_trash th = [] -> t_prog th = PRun ss (SRole x r) hs -> peer_role p x ->
      nth_error ss (field_pos p x) = Some (Snd (PVal t) k) -> nth_error hs (field_pos p x) = Some h ->
      lk_send h (VData t v) [] k L = SentLost h lost L' -> strict = true ->
      tcase p th L (IVal v) (fin th RErr (lost ++ hs)) L'
  | TRecv v x ss r hs t k h L' : t_trash th = [] -> t_prog th = PRun ss (SRole x r) hs -> peer_role p x ->
      nth_error ss (field_pos p x) = Some (Rcv (PVal t) k) -> nth_error hs (field_pos p x) = Some h ->
      lk_recv h L = Got (VData t v) [] h L' ->
      tcase p th L ITau (Thread (PRun (set_nth (field_pos p x) k ss) r hs) [] (t_round th)
                               (t_log th ++ [EvRecv (t_round th) x (VData t v)])) L'
  | TOffer b l m x ss r hs h L' : t_trash th = [] -> t_prog th = PRun ss (SRole x r) hs -> peer_role p x ->
      nth_error ss (field_pos p x) = Some (Rcv (PChoice b p) End) -> nth_error hs (field_pos p x) = Some h ->
      lk_recv h L = Got (VLabel b l p) m h L' -> l < labels b ->
      tcase p th L ITau (Thread (PRun (fst (branch b l p)) (snd (branch b l p)) m) hs (S (t_round th))
                               (t_log th ++ [EvRecv (t_round th) x (VLabel b l p)])) L'
  | TRecvErr x ss r hs P k h L' : t_trash th = [] -> t_prog th = PRun ss (SRole x r) hs -> peer_role p x ->
      nth_error ss (field_pos p x) = Some (Rcv P k) -> nth_error hs (field_pos p x) = Some h ->
      lk_recv h L = GotErr L' ->
      tcase p th L ITau (fin th RErr (without (field_pos p x) hs)) L'
  | TChoose b l ss hs pl L' : t_trash th = [] -> t_prog th = PRun ss SBroadcast hs -> choice_of p ss = Some b ->
      l < labels b -> alloc link_ops (pair_types n (choose_vars n) (branch b l)) L = (pl, L') ->
      tcase p th L (ILabel l) (Thread (PChoose b l (pend_of n (lnext L) p hs) (meshb n (lnext L) p)) []
                                 (t_round th) (t_log th)) L'
  | TCSend b l x h m pend own L' : t_trash th = [] -> t_prog th = PChoose b l ((x, h, m) :: pend) own ->
      lk_send h (VLabel b l x) m End L = SentOk h L' ->
      tcase p th L ITau (Thread (PChoose b l pend own) [h] (t_round th)
                           (t_log th ++ [EvSend (t_round th) x (VLabel b l x)])) L'
  | TCSendLost b l x h m pend own lost L' : t_trash th = [] -> t_prog th = PChoose b l ((x, h, m) :: pend) own ->
      lk_send h (VLabel b l x) m End L = SentLost h lost L' -> strict = false ->
      tcase p th L ITau (Thread (PChoose b l pend own) (lost ++ [h]) (t_round th)
                           (t_log th ++ [EvSend (t_round th) x (VLabel b l x)])) L'
  | TCSendErr b l x h m pend own lost L' : t_trash th = [] -> t_prog th = PChoose b l ((x, h, m) :: pend) own ->
      lk_send h (VLabel b l x) m End L = SentLost h lost L' -> strict = true ->
      tcase p th L ITau (fin th RErr (lost ++ [h] ++ held (PChoose b l pend own))) L'
  | TEnter b l own : t_trash th = [] -> t_prog th = PChoose b l [] own ->
      tcase p th L ITau (Thread (PRun (fst (branch b l p)) (snd (branch b l p)) own) [] (S (t_round th)) (t_log th)) L
  | TClose ss hs : t_trash th = [] -> t_prog th = PRun ss SEnd hs -> forallb is_end ss = true ->
      tcase p th L ITau (Thread (PClose 0 0 hs) [] (t_round th) (t_log th ++ [EvClose])) L
  | TTell a r hs h L' : t_trash th = [] -> t_prog th = PClose a r hs -> nth_error hs a = Some h ->
      lk_tell h Stop L = TellOk L' ->
      tcase p th L ITau (Thread (PClose (a + 1) r hs) [] (t_round th) (t_log th)) L'
  | TTellErr a r hs h : t_trash th = [] -> t_prog th = PClose a r hs -> nth_error hs a = Some h ->
      lk_tell h Stop L = TellErr ->
      tcase p th L ITau (fin th RErr hs) L
  | THear a r hs h L' : t_trash th = [] -> t_prog th = PClose a r hs -> nth_error hs a = None ->
      nth_error hs r = Some h -> lk_hear h L = Heard Stop L' ->
      tcase p th L ITau (Thread (PClose a (r + 1) hs) [] (t_round th) (t_log th)) L'
  | THearErr a r hs h : t_trash th = [] -> t_prog th = PClose a r hs -> nth_error hs a = None ->
      nth_error hs r = Some h -> lk_hear h L = HearErr ->
      tcase p th L ITau (fin th RErr hs) L
  | THearCancel a r hs h L' : t_trash th = [] -> t_prog th = PClose a r hs -> nth_error hs a = None ->
      nth_error hs r = Some h -> lk_hear h L = Heard Cancel L' ->
      tcase p th L ITau (fin th RErr hs) L'
  | TDone a r hs : t_trash th = [] -> t_prog th = PClose a r hs -> nth_error hs a = None ->
      nth_error hs r = None ->
      tcase p th L ITau (fin th ROk hs) L.

  Record tinv (L : links) (p : nat) (th : lthread) (xs : list handle) : Prop := TInv {
    ti_wf : wf_links L;
    ti_q : queues_ok n branch labels L;
    ti_prog : prog_ok n branch labels L p (t_prog th);
    ti_own : owns L (all_of th ++ xs)
  }.

  Lemma run_nth : forall L p th xs ss r hs k t h, tinv L p th xs -> t_prog th = PRun ss r hs ->
    nth_error ss k = Some t -> nth_error hs k = Some h -> lty L h = t /\ quiet L h /\ full h = true.
  Proof.
    intros L p th xs ss r hs k t h I E Hs Hh. pose proof (ti_prog _ _ _ _ I) as P. rewrite E in P. cbn in P.
    destruct P as (_ & Hf & H2). destruct (Forall2_nth _ _ _ _ _ _ _ _ H2 Hh Hs) as [H3 H4].
    rewrite Forall_forall in Hf. split; [exact H3|]. split; [exact H4|]. apply Hf. eapply nth_error_In; eauto.
  Qed.

  Lemma owns_first : forall L th xs h, owns L (all_of th ++ xs) -> In h (held (t_prog th)) ->
    owns L (h :: xs) /\ cnt h (held (t_prog th)) <= 1.
  Proof.
    intros L th xs h O Hin. unfold all_of in O. split.
    - eapply owns_perm; [|exact O]. intros y. rewrite cnt_cons, !cnt_app.
      destruct (handle_eq_dec y h) as [->|Hne]; [|rewrite cnt_other by exact Hne; lia].
      rewrite cnt_self. apply cnt_in in Hin. lia.
    - pose proof (owns_once _ _ h O) as H. rewrite !cnt_app in H. lia.
  Qed.

  Lemma callable_role : forall p x, callable n p x = true -> peer_role p x.
  Proof.
    intros p x H. unfold callable in H. rewrite !andb_true_iff, negb_true_iff, Nat.eqb_neq, !Nat.leb_le in H.
    unfold peer_role. lia.
  Qed.

  Lemma tcase_of : forall p i th L th' L' xs, 1 <= p <= n -> tinv L p th xs ->
    tstep_l p i th L = Some (th', L') -> tcase p th L i th' L'.
  Proof.
    intros p i th L th' L' xs Hp I H. pose proof (ti_wf _ _ _ _ I) as W. pose proof (ti_q _ _ _ _ I) as Q.
    pose proof (ti_own _ _ _ _ I) as O. pose proof (ti_prog _ _ _ _ I) as P.
    unfold tstep in H. destruct (t_trash th) as [|x rest] eqn:Et.
    2: { destruct i; try discriminate. cbn [op_drop link_ops] in H.
         destruct (lk_drop x L) as [out L1] eqn:Ed. injection H as <- <-. eapply TDrop; eauto. }
    destruct (t_prog th) as [ss r hs|b l pend own|a r hs|res|hs] eqn:Ep.
    - destruct i as [|v|l|].
      + destruct r as [| |x r| | |]; try discriminate.
        * destruct (forallb is_end ss) eqn:Ee; [|discriminate]. injection H as <- <-. eapply TClose; eauto.
        * destruct (callable n p x) eqn:Ec; [|discriminate]. apply callable_role in Ec.
          rewrite comm_field_pos in H by (destruct Ec; lia).
          destruct (nth_error ss (field_pos p x)) as [[|q k|q k]|] eqn:Es; try discriminate;
            destruct (nth_error hs (field_pos p x)) as [h|] eqn:Eh; try discriminate;
            destruct q as [t|b j]; try discriminate.
          -- destruct (run_nth _ _ _ _ _ _ _ _ _ _ I Ep Es Eh) as (Ht & Hq & Hf).
             destruct (full_split h Hf) as (l & s & ->).
             assert (Hin : In (l, s, true) (held (t_prog th))) by (rewrite Ep; eapply nth_error_In; eauto).
             destruct (owns_first _ _ _ _ O Hin) as [O1 _].
             pose proof (recv_inv n branch labels l s _ _ L _ W Q O1 Ht) as HR.
             unfold do_recv in H. cbn [op_recv link_ops] in H.
             destruct (lk_recv (l, s, true) L) as [v c y L1|L1| |] eqn:Er; try discriminate; try contradiction.
             ++ destruct HR as (-> & _ & _ & _ & _ & _ & _ & _ & Hv & _).
                destruct v as [t' v|b' l' j']; cbn in Hv; [|contradiction]. destruct Hv as [-> ->].
                rewrite Nat.eqb_refl in H. injection H as <- <-.
                rewrite (set_nth_id _ hs _ _ Eh). eapply TRecv; eauto.
             ++ injection H as <- <-. eapply TRecvErr; eauto.
          -- destruct k; try discriminate. destruct (Nat.eqb_spec j p) as [->|]; [|discriminate].
             destruct (run_nth _ _ _ _ _ _ _ _ _ _ I Ep Es Eh) as (Ht & Hq & Hf).
             destruct (full_split h Hf) as (l & s & ->).
             assert (Hin : In (l, s, true) (held (t_prog th))) by (rewrite Ep; eapply nth_error_In; eauto).
             destruct (owns_first _ _ _ _ O Hin) as [O1 _].
             pose proof (recv_inv n branch labels l s _ _ L _ W Q O1 Ht) as HR.
             unfold do_offer in H. cbn [op_recv link_ops] in H.
             destruct (lk_recv (l, s, true) L) as [v c y L1|L1| |] eqn:Er; try discriminate; try contradiction.
             ++ destruct HR as (-> & _ & _ & _ & _ & _ & _ & _ & Hv & _).
                destruct v as [t' v|b' l' j']; cbn in Hv; [contradiction|].
                destruct Hv as (-> & -> & Hl & _).
                rewrite !Nat.eqb_refl in H. cbn [andb] in H.
                destruct (Nat.ltb_spec l' (labels b)); [|lia]. injection H as <- <-.
                rewrite (set_nth_id _ hs _ _ Eh). eapply TOffer; eauto.
             ++ injection H as <- <-. eapply TRecvErr; eauto.
          -- destruct k; discriminate.
      + destruct r as [| |x r| | |]; try discriminate.
        destruct (callable n p x) eqn:Ec; [|discriminate]. apply callable_role in Ec.
        rewrite comm_field_pos in H by (destruct Ec; lia).
        destruct (nth_error ss (field_pos p x)) as [[|q k|q k]|] eqn:Es; try discriminate;
          destruct q as [t|b j]; try discriminate;
          destruct (nth_error hs (field_pos p x)) as [h|] eqn:Eh; try discriminate.
        destruct (run_nth _ _ _ _ _ _ _ _ _ _ I Ep Es Eh) as (Ht & Hq & Hf).
        destruct (full_split h Hf) as (l & s & ->).
        assert (Hin : In (l, s, true) (held (t_prog th))) by (rewrite Ep; eapply nth_error_In; eauto).
        destruct (owns_first _ _ _ _ O Hin) as [O1 _].
        pose proof (send_inv n branch labels l s (VData t v) [] _ _ L xs W Q O1 Ht (conj eq_refl eq_refl)) as HS.
        unfold do_send in H. cbn [op_send link_ops] in H.
        destruct (lk_send (l, s, true) (VData t v) [] k L) as [y L1|y lost L1| |] eqn:Er; try contradiction.
        * destruct HS as (-> & _). injection H as <- <-. rewrite (set_nth_id _ hs _ _ Eh). eapply TSend; eauto.
        * destruct HS as (-> & _). destruct strict eqn:Est; injection H as <- <-;
            rewrite (set_nth_id _ hs _ _ Eh).
          -- eapply TSendErr; eauto.
          -- eapply TSendLost; eauto.
      + destruct r as [| |x r| | |]; try discriminate.
        destruct (choice_of p ss) as [b|] eqn:Ec; [|discriminate].
        destruct (Nat.ltb_spec l (labels b)) as [Hl|]; [|discriminate].
        rewrite make_choice_wire in H.
        destruct (alloc link_ops (pair_types n (choose_vars n) (branch b l)) L) as [pl L1] eqn:Ea.
        destruct (new_mesh n (choose_vars n) (branch b l) L pl L1 (choose_vars_spec n) (branch_dual b l Hl) Ea)
          as (Hpl & _).
        rewrite Hpl in H. cbn in P. rewrite wire_spec in H; [|exact Hp|apply P].
        injection H as <- <-. eapply TChoose; eauto.
      + injection H as <- <-. replace hs with (held (t_prog th)) by (rewrite Ep; reflexivity).
        apply TCrash; [exact Et|]. intros r0. rewrite Ep. discriminate.
    - destruct i; try (destruct pend as [|[[? ?] ?] ?]; discriminate).
      + destruct pend as [|[[x h] m] pend].
        * injection H as <- <-. eapply TEnter; eauto.
        * cbn in P. destruct P as (Hl & Hown & Hpend). inversion Hpend as [|? ? Hx Hrest]; subst.
          destruct Hx as (Hf & Ht & Hq & Hm). destruct (full_split h Hf) as (l0 & s & ->).
          assert (O1 : owns L ((l0, s, true) :: m ++ xs)).
          { eapply owns_perm; [|exact O]. intros y. unfold all_of. rewrite Ep, Et. cbn [held flat_map].
            rewrite (cnt_cons y _ (m ++ xs)), !cnt_app, (cnt_cons y _ m). lia. }
          pose proof (send_inv n branch labels l0 s (VLabel b l x) m _ _ L xs W Q O1 Ht
                        (conj eq_refl (conj eq_refl (conj Hl Hm)))) as HS.
          unfold do_choose_send in H. cbn [op_send link_ops] in H.
          destruct (lk_send (l0, s, true) (VLabel b l x) m End L) as [y L1|y lost L1| |] eqn:Er; try contradiction.
          -- destruct HS as (-> & _). injection H as <- <-. eapply TCSend; eauto.
          -- destruct HS as (-> & _). destruct strict eqn:Est; injection H as <- <-.
             ++ eapply TCSendErr; eauto.
             ++ eapply TCSendLost; eauto.
      + assert (E : Some (fin th RCrash (held (PChoose b l pend own)), L) = Some (th', L'))
          by (destruct pend as [|[[? ?] ?] ?]; exact H).
        rewrite <- Ep in E. injection E as <- <-. apply TCrash; [exact Et|]. intros r0. rewrite Ep. discriminate.
    - destruct i; try discriminate.
      + cbn in P. destruct P as (Hlen & Hf & Ht & Hq). rewrite Forall_forall in Hf, Ht, Hq.
        unfold do_close in H. cbn [op_tell op_hear link_ops] in H.
        destruct (nth_error hs a) as [h|] eqn:Ea.
        * pose proof (nth_error_In _ _ Ea) as Hin.
          destruct (full_split h (Hf h Hin)) as (l & s & ->).
          assert (Hin' : In (l, s, true) (held (t_prog th))) by (rewrite Ep; exact Hin).
          destruct (owns_first _ _ _ _ O Hin') as [O1 _].
          assert (Hqq : quiet L (l, s, true)).
          { apply Hq. rewrite (skipn_cons _ _ _ _ Ea). left; reflexivity. }
          pose proof (tell_inv n branch labels l s Stop L xs W Q O1 (Ht _ Hin) Hqq) as HT.
          destruct (lk_tell (l, s, true) Stop L) as [L1| | |] eqn:El; try contradiction; injection H as <- <-.
          -- eapply TTell; eauto.
          -- eapply TTellErr; eauto.
        * destruct (nth_error hs r) as [h|] eqn:Er.
          -- pose proof (nth_error_In _ _ Er) as Hin.
             destruct (full_split h (Hf h Hin)) as (l & s & ->).
             assert (Hin' : In (l, s, true) (held (t_prog th))) by (rewrite Ep; exact Hin).
             destruct (owns_first _ _ _ _ O Hin') as [O1 _].
             pose proof (hear_inv n branch labels l s L xs W Q O1 (Ht _ Hin)) as HT.
             destruct (lk_hear (l, s, true) L) as [[|] L1| | |] eqn:El; try contradiction; try discriminate;
               injection H as <- <-.
             ++ eapply THear; eauto.
             ++ eapply THearCancel; eauto.
             ++ eapply THearErr; eauto.
          -- injection H as <- <-. eapply TDone; eauto.
      + injection H as <- <-. replace hs with (held (t_prog th)) by (rewrite Ep; reflexivity).
        apply TCrash; [exact Et|]. intros r0. rewrite Ep. discriminate.
    - destruct i; discriminate.
    - destruct i; discriminate.
  Qed.
End Cases.
