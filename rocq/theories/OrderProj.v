(** The projections of a global round can be followed in the order of its messages. *)
From Coq Require Import List Arith Bool Lia.
From Verif Require Import Types WiringProofs Session Mesh MeshSpec MeshStep MeshSignal Global MeshGlobal MeshProgress OrderSpec OrderProofs.
Import ListNotations.

(** What role p does in the messages of a round, and at its end. *)
Fixpoint macts (p : nat) (ms : list message) : list act :=
  match ms with
  | [] => []
  | m :: ms' => (if from m =? p then [ASend (into m)] else if into m =? p then [ARecv (from m)] else []) ++ macts p ms'
  end.
Definition fact (p : nat) (e : finale) : act :=
  match e with GEnd => AClose | GChoose c b => if p =? c then AChoose b else AOffer c b end.

Lemma macts_app : forall p a b, macts p (a ++ b) = macts p a ++ macts p b.
Proof. intros p a b. induction a as [|m a IH]; [reflexivity|]. cbn. rewrite IH, app_assoc. reflexivity. Qed.

(** p and q have the same number of messages with each other. *)
Lemma macts_sym : forall p q ms, p <> q -> length (filter (meets q) (macts p ms)) = length (filter (meets p) (macts q ms)).
Proof.
  intros p q ms Hne. induction ms as [|m ms IH]; [reflexivity|]. cbn [macts]. rewrite !filter_app, !app_length, IH. f_equal.
  destruct (Nat.eqb_spec (from m) p), (Nat.eqb_spec (into m) p), (Nat.eqb_spec (from m) q), (Nat.eqb_spec (into m) q); subst; try congruence; cbn;
    repeat match goal with |- context [?a =? ?b] => destruct (Nat.eqb_spec a b) end; subst; try congruence; reflexivity.
Qed.

Lemma plays_ext : forall n labels T pos pos', plays n labels T pos -> (forall p, 1 <= p <= n -> pos' p = pos p) -> plays n labels T pos'.
Proof.
  intros n labels T pos pos' H E. destruct H as [pos H|pos0 pos p H1 H2 H3 H4].
  - apply plays_zero. intros p Hp. rewrite E by exact Hp. auto.
  - eapply plays_step; eauto. intros q Hq. rewrite E by exact Hq. auto.
Qed.

Section Proj.
  Variable n : nat.
  Variable labels : nat -> nat.
  Hypothesis n2 : 2 <= n.

  Lemma proj_script : forall e p ms, wf_round n labels (ms, e) -> 1 <= p <= n ->
    script n labels p (sessions_of n p ms e) (stack_of p ms e) = Some (macts p ms ++ [fact p e]).
  Proof.
    intros e p ms. induction ms as [|m ms IH]; intros [W1 W2] Hp.
    - cbn [stack_of macts app]. cbn in W2. destruct e as [|c b].
      + cbn [last_stack OrderSpec.script fact]. rewrite ends_last. reflexivity.
      + destruct W2 as [Hc Hl]. cbn [last_stack fact]. destruct (Nat.eqb_spec p c) as [->|Hne].
        * cbn [OrderSpec.script]. assert (E : choice_of c (sessions_of n c [] (GChoose c b)) = Some b).
          { pose proof (all_send_choice_last c b 1 (n - 1)) as H. unfold sessions_of, choice_of in *.
            destruct (n - 1) as [|m] eqn:En; [lia|]. cbn [seq map sess_of last_sess] in *. rewrite Nat.eqb_refl in *. rewrite H. reflexivity. }
          rewrite E. destruct (Nat.ltb_spec 0 (labels b)); [reflexivity|lia].
        * cbn [OrderSpec.script]. cbv zeta.
          assert (E : negb (c =? p) && (1 <=? c) && (c <=? n) = true).
          { rewrite !andb_true_iff, negb_true_iff, Nat.eqb_neq, !Nat.leb_le. lia. }
          rewrite E, sessions_nth by (auto; lia). cbn [sess_of last_sess]. destruct (Nat.eqb_spec p c); [contradiction|]. rewrite !Nat.eqb_refl. reflexivity.
    - inversion W1 as [|m' ms' Hm Hms]; subst. specialize (IH (conj Hms W2) Hp). destruct Hm as (M1 & M2 & M3).
      cbn [stack_of macts].
      assert (K : forall x, 1 <= x <= n -> x <> p -> negb (x =? p) && (1 <=? x) && (x <=? n) = true).
      { intros x H1 H2. rewrite !andb_true_iff, negb_true_iff, Nat.eqb_neq, !Nat.leb_le. lia. }
      destruct (Nat.eqb_spec (from m) p) as [Ef|Ef]; [|destruct (Nat.eqb_spec (into m) p) as [Ei|Ei]].
      + cbn [OrderSpec.script]. cbv zeta. rewrite K, sessions_nth by (auto; lia).
        assert (Es : sess_of p (into m) (m :: ms) e = Snd (PVal (what m)) (sess_of p (into m) ms e)).
        { cbn [sess_of]. rewrite Ef, !Nat.eqb_refl. reflexivity. }
        rewrite Es, sessions_step; [rewrite IH; reflexivity|exact Hp|assumption|lia|].
        intros q Hq Hqx. cbn [sess_of]. destruct (Nat.eqb_spec (from m) p), (Nat.eqb_spec (into m) p), (Nat.eqb_spec (from m) q), (Nat.eqb_spec (into m) q);
          cbn; try reflexivity; congruence.
      + cbn [OrderSpec.script]. cbv zeta. rewrite K, sessions_nth by (auto; lia).
        assert (Es : sess_of p (from m) (m :: ms) e = Rcv (PVal (what m)) (sess_of p (from m) ms e)).
        { cbn [sess_of]. destruct (Nat.eqb_spec (from m) p); [contradiction|]. rewrite Ei, !Nat.eqb_refl. reflexivity. }
        rewrite Es, sessions_step; [rewrite IH; reflexivity|exact Hp|assumption|lia|].
        intros q Hq Hqx. cbn [sess_of]. destruct (Nat.eqb_spec (from m) p), (Nat.eqb_spec (into m) p), (Nat.eqb_spec (from m) q), (Nat.eqb_spec (into m) q);
          cbn; try reflexivity; congruence.
      + cbn [app]. rewrite <- IH. f_equal. apply map_ext. intros i. cbn [sess_of].
        destruct (Nat.eqb_spec (from m) p); [contradiction|]. destruct (Nat.eqb_spec (into m) p); [contradiction|].
        rewrite andb_false_r. reflexivity.
  Qed.

  Variable G : round.
  Hypothesis W : wf_round n labels G.
  Let ms := fst G.
  Let e := snd G.
  Let T := proj n G.

  Lemma proj_has : forall p, 1 <= p <= n -> script_of n labels T p = Some (macts p ms ++ [fact p e]).
  Proof. intros p Hp. unfold script_of, T, proj. cbn [fst snd]. apply proj_script; [|exact Hp]. destruct G; exact W. Qed.
  Lemma proj_at : forall p, 1 <= p <= n -> script_at n labels T p = macts p ms ++ [fact p e].
  Proof. intros p Hp. unfold script_at. rewrite proj_has by exact Hp. reflexivity. Qed.

  Lemma upto_pre : forall x (a b : list act), upto x (length a) (a ++ b) = length (filter (meets x) a).
  Proof. intros x a b. unfold upto. rewrite firstn_app, Nat.sub_diag, firstn_all, app_nil_r. reflexivity. Qed.

  Lemma proj_plays : forall pre suf, ms = pre ++ suf -> plays n labels T (fun p => length (macts p pre)).
  Proof.
    intros pre. induction pre as [|m pre IH] using rev_ind; intros suf E; [apply plays_zero; reflexivity|].
    rewrite <- app_assoc in E. specialize (IH _ E). cbn in E.
    assert (Hm : wf_message n m).
    { destruct W as [W1 _]. fold ms in W1. rewrite E in W1. apply Forall_app in W1. destruct W1 as [_ W1]. inversion W1; assumption. }
    destruct Hm as (M1 & M2 & M3).
    assert (Hat : forall p, 1 <= p <= n -> script_at n labels T p = macts p pre ++ macts p [m] ++ macts p suf ++ [fact p e]).
    { intros p Hp. rewrite proj_at, E, macts_app by exact Hp. change (m :: suf) with ([m] ++ suf). rewrite macts_app, <- !app_assoc. reflexivity. }
    set (pos := fun p => length (macts p pre)) in *.
    assert (P1 : plays n labels T (advance pos (from m))).
    { eapply plays_step; [exact IH|exact M1| |reflexivity]. unfold free. rewrite Hat by exact M1.
      unfold pos. rewrite nth_error_app2, Nat.sub_diag by lia. cbn [macts]. rewrite Nat.eqb_refl. reflexivity. }
    eapply plays_step; [exact P1|exact M2| |].
    - unfold free. rewrite !Hat by assumption.
      assert (Ea : advance pos (from m) (into m) = length (macts (into m) pre)).
      { unfold advance. destruct (Nat.eqb_spec (into m) (from m)); [congruence|reflexivity]. }
      rewrite Ea, nth_error_app2, Nat.sub_diag by lia. cbn [macts].
      destruct (Nat.eqb_spec (from m) (into m)); [contradiction|]. rewrite Nat.eqb_refl. cbn [app nth_error waits].
      rewrite Hat by exact M1.
      unfold advance. rewrite Nat.eqb_refl. unfold pos. apply Nat.ltb_lt. rewrite upto_pre.
      cbn [macts]. rewrite Nat.eqb_refl. cbn [app]. rewrite (upto_S (into m) _ _ (ASend (into m))) by (rewrite nth_error_app2, Nat.sub_diag by lia; reflexivity).
      cbn [meets]. rewrite Nat.eqb_refl, upto_pre, (macts_sym (from m) (into m)) by exact M3. lia.
    - intros q Hq. unfold advance. rewrite macts_app, app_length. cbn [macts]. unfold pos.
      destruct (Nat.eqb_spec q (into m)) as [->|Hi].
      + destruct (Nat.eqb_spec (from m) (into m)); [contradiction|]. destruct (Nat.eqb_spec (into m) (from m)); [congruence|].
        rewrite Nat.eqb_refl. cbn. lia.
      + destruct (Nat.eqb_spec q (from m)) as [->|Hf]; [rewrite Nat.eqb_refl; cbn; lia|].
        destruct (Nat.eqb_spec (from m) q); [congruence|]. destruct (Nat.eqb_spec (into m) q); [congruence|]. cbn. lia.
  Qed.

  Definition ends (c k p : nat) : nat := length (macts p ms) + if (p =? c) || (p <=? k) then 1 else 0.

  Lemma proj_finale : forall c, (forall p, 1 <= p <= n -> p <> c -> waits (fact p e) = None \/ waits (fact p e) = Some c /\ 1 <= c <= n /\ meets p (fact c e) = true) ->
    plays n labels T (ends c 0) -> forall k, k <= n -> plays n labels T (ends c k).
  Proof.
    intros c Hw P0 k. induction k as [|k IH]; intros Hk; [exact P0|]. specialize (IH ltac:(lia)).
    destruct (Nat.eq_dec (S k) c) as [Ec|Ec].
    - assert (Eq : forall q, ends c (S k) q = ends c k q).
      { intros q. unfold ends. destruct (Nat.eqb_spec q c); [reflexivity|]. cbn. destruct (Nat.leb_spec q (S k)), (Nat.leb_spec q k); try reflexivity; lia. }
      eapply plays_ext; [exact IH|]. intros; apply Eq.
    - eapply plays_step with (p := S k); [exact IH|lia| |].
      + unfold free. rewrite proj_at by lia.
        assert (Ee : ends c k (S k) = length (macts (S k) ms)).
        { unfold ends. destruct (Nat.eqb_spec (S k) c); [contradiction|]. destruct (Nat.leb_spec (S k) k); [lia|]. cbn. lia. }
        rewrite Ee, nth_error_app2, Nat.sub_diag by lia. cbn [nth_error].
        destruct (Hw (S k) ltac:(lia) Ec) as [-> |(-> & Hc & Hm)]; [reflexivity|]. apply Nat.ltb_lt.
        rewrite upto_pre. rewrite proj_at by exact Hc.
        assert (Ee' : ends c k c = S (length (macts c ms))) by (unfold ends; rewrite Nat.eqb_refl; cbn; lia).
        rewrite Ee', (upto_S _ _ _ (fact c e)) by (rewrite nth_error_app2, Nat.sub_diag by lia; reflexivity).
        rewrite Hm, upto_pre, (macts_sym c (S k)) by congruence. lia.
      + intros q Hq. unfold advance, ends. destruct (Nat.eqb_spec q (S k)) as [->|Hne].
        * destruct (Nat.eqb_spec (S k) c); [contradiction|]. rewrite Nat.leb_refl. destruct (Nat.leb_spec (S k) k); [lia|]. cbn. lia.
        * destruct (Nat.eqb_spec q c); [reflexivity|]. cbn. destruct (Nat.leb_spec q (S k)), (Nat.leb_spec q k); try reflexivity; lia.
  Qed.

  Theorem proj_ordered : ordered n labels T.
  Proof.
    pose proof (proj_plays ms [] (eq_sym (app_nil_r ms))) as P.
    assert (H : exists c, plays n labels T (ends c n)).
    { pose proof W as [_ We]. fold e in We. destruct e as [|c b] eqn:Ee.
      - exists 0. apply proj_finale; [|  |lia].
        + intros p Hp _. left. rewrite Ee. reflexivity.
        + eapply plays_ext; [exact P|]. intros q Hq. unfold ends. destruct (Nat.eqb_spec q 0), (Nat.leb_spec q 0); cbn; lia.
      - destruct We as [Hc _]. exists c. apply proj_finale; [| |lia].
        + intros p Hp Hne. right. rewrite Ee. cbn [fact]. destruct (Nat.eqb_spec p c); [contradiction|]. rewrite Nat.eqb_refl. auto.
        + eapply plays_step with (p := c); [exact P|exact Hc| |].
          * unfold free. rewrite proj_at by exact Hc. rewrite nth_error_app2, Nat.sub_diag by lia. cbn [nth_error]. rewrite Ee. cbn [fact].
            rewrite Nat.eqb_refl. reflexivity.
          * intros q Hq. unfold advance, ends. destruct (Nat.eqb_spec q c); [cbn; lia|]. cbn. destruct (Nat.leb_spec q 0); lia. }
    destruct H as [c H]. eapply plays_ordered; [|exact H|].
    - intros p Hp. rewrite proj_has by exact Hp. discriminate.
    - intros p Hp. rewrite proj_at, app_length by exact Hp. unfold ends. destruct (Nat.leb_spec p n); [|lia]. rewrite orb_true_r. cbn. lia.
  Qed.
End Proj.
