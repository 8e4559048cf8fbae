(** The test finds an order whenever there is one. *)
From Coq Require Import List Arith Bool Lia.
From Verif Require Import Types WiringProofs Session Mesh MeshSpec OrderSpec.
Import ListNotations.

Lemma upto_S : forall x i l a, nth_error l i = Some a -> upto x (S i) l = upto x i l + if meets x a then 1 else 0.
Proof.
  intros x i l a H. unfold upto.
  assert (E : firstn (S i) l = firstn i l ++ [a]).
  { revert l H. induction i as [|i IH]; intros [|b l] H; try discriminate; cbn in H |- *; [congruence|]. f_equal. apply IH, H. }
  rewrite E, filter_app, app_length. cbn. destruct (meets x a); reflexivity.
Qed.

Lemma upto_mono : forall x l i j, i <= j -> upto x i l <= upto x j l.
Proof.
  intros x l i j H. induction H as [|j H IH]; [lia|]. destruct (nth_error l j) as [a|] eqn:E.
  - rewrite (upto_S x j l a E). lia.
  - unfold upto in *. apply nth_error_None in E. rewrite (firstn_all2 (n := S j)) by lia.
    rewrite (firstn_all2 (n := j)) in IH by lia. exact IH.
Qed.

(** Communication number k is somewhere. *)
Lemma upto_find : forall x l i k, k < upto x i l -> exists j a, j < i /\ nth_error l j = Some a /\ meets x a = true /\ upto x j l = k.
Proof.
  intros x l i. induction i as [|i IH]; intros k H; [cbn in H; lia|].
  destruct (nth_error l i) as [a|] eqn:E.
  - rewrite (upto_S x i l a E) in H. destruct (lt_dec k (upto x i l)) as [Hk|Hk].
    + destruct (IH k Hk) as (j & b & H1 & H2). exists j, b. split; [lia|exact H2].
    + destruct (meets x a) eqn:Em; [|lia]. exists i, a. repeat split; auto; lia.
  - assert (E' : upto x (S i) l = upto x i l).
    { unfold upto. apply nth_error_None in E. rewrite !firstn_all2 by lia. reflexivity. }
    rewrite E' in H. destruct (IH k H) as (j & b & H1 & H2). exists j, b. split; [lia|exact H2].
Qed.

Section Proofs.
  Variable n : nat.
  Variable labels : nat -> nat.
  Variable T : nat -> mty.
  Notation script := (script n labels).
  Notation script_of := (script_of n labels).
  Notation script_at := (script_at n labels).
  Notation ordered := (ordered n labels).
  Notation free := (free n labels T).
  Notation all_through := (all_through n labels T).

  Lemma script_peer : forall p r ss l i a x, script p ss r = Some l -> nth_error l i = Some a -> waits a = Some x ->
    x <> p /\ 1 <= x <= n.
  Proof.
    intros p r. induction r as [| |x0 r IH|x0 r IH|x0 r1 IH1 r2 IH2|x0 r1 IH1 r2 IH2]; intros ss l i a x H Hn Hw; cbn [OrderSpec.script] in H; cbv zeta in H; try discriminate H.
    - destruct (forallb is_end ss); [|discriminate H]. injection H as <-. destruct i as [|[|i]]; cbn in Hn; try discriminate Hn.
      injection Hn as <-. discriminate Hw.
    - destruct (choice_of p ss); [|discriminate H]. destruct (0 <? labels n0); [|discriminate H]. injection H as <-.
      destruct i as [|[|i]]; cbn in Hn; try discriminate Hn. injection Hn as <-. discriminate Hw.
    - destruct (negb (x0 =? p) && (1 <=? x0) && (x0 <=? n)) eqn:Ec; [|discriminate H].
      rewrite !andb_true_iff, negb_true_iff, Nat.eqb_neq, !Nat.leb_le in Ec.
      destruct (nth_error ss (field_pos p x0)) as [[|[t|b j] k|[t|b j] k]|]; try discriminate H.
      + destruct (script p (set_nth (field_pos p x0) k ss) r) as [l'|] eqn:E; [|discriminate H]. injection H as <-.
        destruct i as [|i]; cbn in Hn; [injection Hn as <-; discriminate Hw|]. eapply IH; eauto.
      + destruct (script p (set_nth (field_pos p x0) k ss) r) as [l'|] eqn:E; [|discriminate H]. injection H as <-.
        destruct i as [|i]; cbn in Hn; [injection Hn as <-; injection Hw as <-; lia|]. eapply IH; eauto.
      + destruct k; try discriminate H. destruct (j =? p); [|discriminate H]. injection H as <-.
        destruct i as [|[|i]]; cbn in Hn; try discriminate Hn. injection Hn as <-. injection Hw as <-. lia.
  Qed.

  (** Positions that can be reached by doing free actions. *)
  Inductive plays : (nat -> nat) -> Prop :=
  | plays_zero : forall pos, (forall p, 1 <= p <= n -> pos p = 0) -> plays pos
  | plays_step : forall pos pos' p, plays pos -> 1 <= p <= n -> free pos p = true ->
      (forall q, 1 <= q <= n -> pos' q = advance pos p q) -> plays pos'.

  Hypothesis has_scripts : forall p, 1 <= p <= n -> script_of T p <> None.
  Lemma at_script : forall p, 1 <= p <= n -> script_of T p = Some (script_at T p).
  Proof. intros p Hp. specialize (has_scripts p Hp). unfold OrderSpec.script_at. destruct (script_of T p); [reflexivity|congruence]. Qed.

  Lemma free_peer : forall p i a x, 1 <= p <= n -> nth_error (script_at T p) i = Some a -> waits a = Some x -> x <> p /\ 1 <= x <= n.
  Proof. intros p i a x Hp. eapply script_peer. exact (at_script p Hp). Qed.

  Lemma plays_ranks : forall pos, plays pos -> exists (rank : nat -> nat -> nat) M,
    (forall p, 1 <= p <= n -> pos p <= length (script_at T p)) /\
    (forall p i, 1 <= p <= n -> i < pos p -> rank p i < M) /\
    (forall p i j, 1 <= p <= n -> i < j < pos p -> rank p i < rank p j) /\
    (forall p i a x, 1 <= p <= n -> i < pos p -> nth_error (script_at T p) i = Some a -> waits a = Some x ->
       exists j a', j < pos x /\ nth_error (script_at T x) j = Some a' /\ meets p a' = true /\
         upto p j (script_at T x) = upto x i (script_at T p) /\ rank x j < rank p i).
  Proof.
    intros pos H. induction H as [pos Hz|pos pos' p H (rank & M & R0 & R1 & R2 & R3) Hp Hf Hpos'].
    - exists (fun _ _ => 0), 0. split; [|split; [|split]].
      + intros p Hp. rewrite Hz by exact Hp. lia.
      + intros p i Hp Hi. rewrite Hz in Hi by exact Hp. lia.
      + intros p i j Hp Hi. rewrite Hz in Hi by exact Hp. lia.
      + intros p i a x Hp Hi. rewrite Hz in Hi by exact Hp. lia.
    - unfold OrderSpec.free in Hf. destruct (nth_error (script_at T p) (pos p)) as [a0|] eqn:Ea; [|discriminate].
      assert (Hlen : pos p < length (script_at T p)) by (apply nth_error_Some; congruence).
      assert (Hp' : pos' p = S (pos p)) by (rewrite Hpos' by exact Hp; unfold advance; rewrite Nat.eqb_refl; reflexivity).
      assert (Ho : forall q, 1 <= q <= n -> q <> p -> pos' q = pos q).
      { intros q Hq Hne. rewrite Hpos' by exact Hq. unfold advance. destruct (Nat.eqb_spec q p); [contradiction|reflexivity]. }
      assert (Hge : forall q, 1 <= q <= n -> pos q <= pos' q).
      { intros q Hq. destruct (Nat.eq_dec q p) as [->|]; [lia|rewrite Ho by auto; lia]. }
      set (rank' := fun q i => if (q =? p) && (i =? pos p) then M else rank q i).
      assert (Hold : forall q i, 1 <= q <= n -> i < pos q -> rank' q i = rank q i).
      { intros q i Hq Hi. unfold rank'. destruct (Nat.eqb_spec q p) as [->|]; [|reflexivity].
        destruct (Nat.eqb_spec i (pos p)); [lia|reflexivity]. }
      assert (Hnew : rank' p (pos p) = M) by (unfold rank'; rewrite !Nat.eqb_refl; reflexivity).
      assert (Hcase : forall q i, 1 <= q <= n -> i < pos' q -> i < pos q \/ q = p /\ i = pos p).
      { intros q i Hq Hi. destruct (Nat.eq_dec q p) as [->|]; [lia|]. rewrite Ho in Hi by auto. auto. }
      exists rank', (S M). split; [|split; [|split]].
      + intros q Hq. destruct (Nat.eq_dec q p) as [->|]; [lia|]. rewrite Ho by auto. auto.
      + intros q i Hq Hi. destruct (Hcase q i Hq Hi) as [Hi'|[-> ->]]; [rewrite Hold by auto|lia]. specialize (R1 q i Hq Hi'). lia.
      + intros q i j Hq [Hij Hj]. destruct (Hcase q j Hq Hj) as [Hj'|[-> ->]].
        * rewrite !Hold by (auto; lia). apply R2; [exact Hq|lia].
        * rewrite Hnew, Hold by (auto; lia). apply R1; [exact Hq|lia].
      + intros q i a x Hq Hi Hn Hw. destruct (free_peer q i a x Hq Hn Hw) as [Hxq Hx].
        destruct (Hcase q i Hq Hi) as [Hi'|[-> ->]].
        * destruct (R3 q i a x Hq Hi' Hn Hw) as (j & a' & Hj & H1 & H2 & H3 & H4). exists j, a'.
          split; [specialize (Hge x Hx); lia|]. rewrite !Hold by auto. auto.
        * rewrite Hn in Ea. injection Ea as <-. rewrite Hw in Hf. apply Nat.ltb_lt in Hf.
          destruct (upto_find _ _ _ _ Hf) as (j & a' & Hj & H1 & H2 & H3). exists j, a'.
          split; [specialize (Hge x Hx); lia|]. rewrite Hnew, Hold by auto. repeat split; auto.
  Qed.

  Lemma plays_ordered : forall pos, plays pos -> (forall p, 1 <= p <= n -> length (script_at T p) <= pos p) -> ordered T.
  Proof.
    intros pos H Hall. destruct (plays_ranks pos H) as (rank & M & _ & _ & R2 & R3). exists rank.
    split; [exact has_scripts|]. split.
    - intros p l i j Hp E Hij. rewrite at_script in E by exact Hp. injection E as <-. apply R2; [exact Hp|]. specialize (Hall p Hp). lia.
    - intros p l i a x lx Hp E Hn Hw Ex. rewrite at_script in E by exact Hp. injection E as <-.
      destruct (free_peer p i a x Hp Hn Hw) as [_ Hx]. rewrite at_script in Ex by exact Hx. injection Ex as <-.
      assert (Hi : i < pos p). { specialize (Hall p Hp). assert (i < length (script_at T p)) by (apply nth_error_Some; congruence). lia. }
      destruct (R3 p i a x Hp Hi Hn Hw) as (j & a' & _ & H'). eauto.
  Qed.

  Lemma try_plays : forall fuel pos, plays pos -> try_order n labels T fuel pos = true ->
    exists pos', plays pos' /\ all_through pos' = true.
  Proof.
    induction fuel as [|fuel IH]; intros pos H E; cbn [try_order] in E; destruct (all_through pos) eqn:Ea; eauto; try discriminate E.
    cbn [orb] in E. destruct (find (free pos) (seq 1 n)) as [p|] eqn:Ef; [|discriminate].
    apply find_some in Ef. destruct Ef as [Hin Hf]. apply in_seq in Hin. eapply IH; [|exact E].
    eapply plays_step; [exact H| |exact Hf|reflexivity]. lia.
  Qed.

  (** Somebody is free until everything is done. *)
  Lemma somebody_free : forall pos, ordered T -> forall k p, 1 <= p <= n -> pos p < length (script_at T p) ->
    (exists rank : nat -> nat -> nat,
      (forall p l i j, 1 <= p <= n -> script_of T p = Some l -> i < j < length l -> rank p i < rank p j) /\
      (forall p l i a x lx, 1 <= p <= n -> script_of T p = Some l -> nth_error l i = Some a -> waits a = Some x ->
         script_of T x = Some lx ->
         exists j a', nth_error lx j = Some a' /\ meets p a' = true /\ upto p j lx = upto x i l /\ rank x j < rank p i) /\
      rank p (pos p) = k) ->
    exists q, 1 <= q <= n /\ free pos q = true.
  Proof.
    intros pos _ k. induction k as [k IH] using lt_wf_ind. intros p Hp Hlen (rank & R1 & R2 & Hk).
    destruct (free pos p) eqn:Ef; [eauto|]. unfold OrderSpec.free in Ef.
    destruct (nth_error (script_at T p) (pos p)) as [a|] eqn:Ea; [|apply nth_error_None in Ea; lia].
    destruct (waits a) as [x|] eqn:Ew; [|discriminate]. apply Nat.ltb_ge in Ef.
    destruct (free_peer p _ a x Hp Ea Ew) as [Hxp Hx].
    destruct (R2 p _ _ a x _ Hp (at_script p Hp) Ea Ew (at_script x Hx)) as (j & a' & H1 & H2 & H3 & H4).
    assert (Hj : pos x <= j).
    { destruct (le_lt_dec (pos x) j) as [|Hlt]; [assumption|]. exfalso.
      pose proof (upto_mono p (script_at T x) (S j) (pos x) Hlt) as Hm. rewrite (upto_S p j _ a' H1), H2 in Hm. lia. }
    assert (Hjl : j < length (script_at T x)) by (apply nth_error_Some; congruence).
    assert (Hr : rank x (pos x) <= rank x j).
    { destruct (Nat.eq_dec (pos x) j) as [->|]; [lia|]. specialize (R1 x _ (pos x) j Hx (at_script x Hx)). lia. }
    apply (IH (rank x (pos x)) ltac:(lia) x Hx ltac:(lia)). exists rank. auto.
  Qed.

  Definition left_over (pos : nat -> nat) : nat := list_sum (map (fun p => length (script_at T p) - pos p) (seq 1 n)).

  Lemma left_step : forall pos p, 1 <= p <= n -> pos p < length (script_at T p) -> left_over pos = S (left_over (advance pos p)).
  Proof.
    intros pos p Hp Hlen. unfold left_over.
    assert (K : forall m a, a <= p -> (p < a + m -> list_sum (map (fun p => length (script_at T p) - pos p) (seq a m)) =
                S (list_sum (map (fun q => length (script_at T q) - advance pos p q) (seq a m))))).
    { assert (K0 : forall m a, p < a -> list_sum (map (fun p => length (script_at T p) - pos p) (seq a m)) =
                list_sum (map (fun q => length (script_at T q) - advance pos p q) (seq a m))).
      { induction m as [|m IH]; intros a Ha; [reflexivity|]. cbn [seq map list_sum fold_right]. unfold list_sum in *. cbn. rewrite IH by lia.
        unfold advance. destruct (Nat.eqb_spec a p); [lia|reflexivity]. }
      induction m as [|m IH]; intros a Ha Hm; [lia|]. unfold list_sum in *. cbn.
      destruct (Nat.eq_dec a p) as [->|Hne].
      - rewrite K0 by lia. unfold advance at 2. rewrite Nat.eqb_refl. lia.
      - rewrite IH by lia. unfold advance at 2. destruct (Nat.eqb_spec a p); [contradiction|lia]. }
    apply K; lia.
  Qed.

  Lemma left_zero : forall pos, left_over pos = 0 -> all_through pos = true.
  Proof.
    intros pos H. unfold OrderSpec.all_through. apply forallb_forall. intros p Hin. apply Nat.leb_le. unfold left_over in H.
    revert Hin H. generalize (seq 1 n) as l. induction l as [|q l IH]; intros Hin H; [contradiction|].
    unfold list_sum in *. cbn in H. destruct Hin as [->|Hin]; [lia|apply IH; [exact Hin|lia]].
  Qed.

  Lemma not_through : forall pos, all_through pos = false -> exists p, 1 <= p <= n /\ pos p < length (script_at T p).
  Proof.
    intros pos H. unfold OrderSpec.all_through in H.
    assert (K : forall l, forallb (fun p => length (script_at T p) <=? pos p) l = false -> exists p, In p l /\ pos p < length (script_at T p)).
    { induction l as [|q l IH]; intros E; [discriminate|]. cbn in E. destruct (Nat.leb_spec (length (script_at T q)) (pos q)).
      - destruct (IH E) as (p & Hp & Hl). exists p. split; [right; exact Hp|exact Hl].
      - exists q. split; [left; reflexivity|exact H0]. }
    destruct (K _ H) as (p & Hin & Hl). apply in_seq in Hin. exists p. split; [lia|exact Hl].
  Qed.

  Lemma try_finds : ordered T -> forall fuel pos, left_over pos <= fuel -> try_order n labels T fuel pos = true.
  Proof.
    intros O. pose proof O as (rank & _ & R1 & R2).
    induction fuel as [|fuel IH]; intros pos Hf; cbn [try_order]; destruct (all_through pos) eqn:Ea; try reflexivity; cbn [orb].
    - rewrite left_zero in Ea by lia. discriminate.
    - destruct (not_through pos Ea) as (p & Hp & Hl).
      destruct (somebody_free pos O _ p Hp Hl (ex_intro _ rank (conj R1 (conj R2 eq_refl)))) as (q & Hq & Hfr).
      destruct (find (free pos) (seq 1 n)) as [q'|] eqn:E.
      + apply find_some in E. destruct E as [Hin Hfr']. apply in_seq in Hin. apply IH.
        assert (Hl' : pos q' < length (script_at T q')).
        { unfold OrderSpec.free in Hfr'. destruct (nth_error (script_at T q') (pos q')) eqn:En; [|discriminate]. apply nth_error_Some. congruence. }
        rewrite (left_step pos q') in Hf by (auto; lia). lia.
      + exfalso. pose proof (find_none _ _ E q) as Hn. rewrite Hn in Hfr; [discriminate|]. apply in_seq. lia.
  Qed.
End Proofs.

Lemma check_ordered : forall n labels T, check n labels T = true <-> ordered n labels T.
Proof.
  intros n labels T. unfold check. rewrite andb_true_iff, forallb_forall. split.
  - intros [H1 H2]. assert (Hs : forall p, 1 <= p <= n -> script_of n labels T p <> None).
    { intros p Hp E. specialize (H1 p). rewrite E in H1. discriminate H1. apply in_seq. lia. }
    destruct (try_plays n labels T _ _ (plays_zero n labels T (fun _ => 0) (fun _ _ => eq_refl)) H2) as (pos & Hpl & Ha).
    apply (plays_ordered n labels T Hs pos Hpl). intros p Hp. unfold all_through in Ha. rewrite forallb_forall in Ha.
    apply Nat.leb_le, Ha, in_seq. lia.
  - intros O. pose proof O as (rank & Hs & _). split.
    + intros p Hin. apply in_seq in Hin. specialize (Hs p ltac:(lia)). destruct (script_of n labels T p); [reflexivity|congruence].
    + apply (try_finds n labels T Hs O). unfold left_over. apply Nat.eq_le_incl. f_equal. apply map_ext. intros p. lia.
Qed.
