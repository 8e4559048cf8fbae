(** The search for a global protocol finds one exactly if there is one. *)
From Coq Require Import List Arith Bool Lia Permutation.
From Verif Require Import Types WiringProofs Session Mesh MeshSpec MeshWire MeshStep MeshSignal Global MeshGlobal MeshProgress Proto ProtoProofs Synth.
Import ListNotations.

(** ** Equality tests *)
Lemma stack_eqb_true : forall r s, stack_eqb r s = true -> r = s.
Proof.
  induction r; intros [] H; cbn in H; try discriminate; try reflexivity.
  apply andb_true_iff in H. destruct H as [H1 H2]. apply Nat.eqb_eq in H1. subst. f_equal. auto.
Qed.
Lemma stys_eqb_true : forall a b, stys_eqb a b = true -> a = b.
Proof.
  induction a as [|s a IH]; intros [|t b] H; cbn in H; try discriminate; [reflexivity|].
  apply andb_true_iff in H. destruct H as [H1 H2]. apply sty_eqb_true in H1. subst. f_equal. auto.
Qed.
Lemma stys_eqb_refl : forall a, stys_eqb a a = true.
Proof. induction a; [reflexivity|]. cbn. rewrite IHa, (proj2 (sty_eqb_true _ _) eq_refl). reflexivity. Qed.
Lemma mty_eqb_true : forall a b, mty_eqb a b = true -> a = b.
Proof.
  intros [a r] [b s] H. unfold mty_eqb in H. apply andb_true_iff in H. destruct H as [H1 H2]. cbn in *.
  f_equal; [apply stys_eqb_true, H1|apply stack_eqb_true, H2].
Qed.

(** ** Lists *)
Lemma nth_set : forall A (d : A) l k x j, k < length l -> nth j (set_nth k x l) d = if j =? k then x else nth j l d.
Proof.
  induction l as [|y l IH]; intros k x j Hk; [cbn in Hk; lia|]. destruct k as [|k]; destruct j as [|j]; cbn; try reflexivity.
  apply IH. cbn in Hk. lia.
Qed.
Lemma type_set : forall Ts p x q, 1 <= p <= length Ts -> 1 <= q -> type_of (set_nth (p - 1) x Ts) q = if q =? p then x else type_of Ts q.
Proof.
  intros Ts p x q Hp Hq. unfold type_of, of_list. rewrite nth_set by lia.
  destruct (Nat.eqb_spec (q - 1) (p - 1)), (Nat.eqb_spec q p); try lia; reflexivity.
Qed.
Lemma sum_less : forall (f g : nat -> nat) l x, (forall p, f p <= g p) -> In x l -> f x < g x -> list_sum (map f l) < list_sum (map g l).
Proof.
  intros f g l x H. unfold list_sum. induction l as [|y l IH]; intros [] Hx; cbn.
  - subst. assert (fold_right Nat.add 0 (map f l) <= fold_right Nat.add 0 (map g l)); [|lia].
    clear - H. induction l as [|z l IH]; [reflexivity|]. cbn. specialize (H z). lia.
  - specialize (H y). specialize (IH H0 Hx). lia.
Qed.

(** ** Projections *)
Section Synth.
  Variable n : nat.
  Variable labels : nat -> nat.
  Hypothesis n2 : 2 <= n.

  Definition agrees (Ts : list mty) (G : round) : Prop := length Ts = n /\ forall p, 1 <= p <= n -> type_of Ts p = proj n G p.

  Definition apart (a b : message) : Prop := from a <> from b /\ from a <> into b /\ into a <> from b /\ into a <> into b.

  Lemma sess_congr : forall p q m ms ms' e, sess_of p q ms e = sess_of p q ms' e -> sess_of p q (m :: ms) e = sess_of p q (m :: ms') e.
  Proof. intros p q m ms ms' e H. cbn. rewrite H. reflexivity. Qed.
  Lemma stack_congr : forall p m ms ms' e, stack_of p ms e = stack_of p ms' e -> stack_of p (m :: ms) e = stack_of p (m :: ms') e.
  Proof. intros p m ms ms' e H. cbn. rewrite H. reflexivity. Qed.

  Lemma sess_swap : forall p q a b ms e, apart a b -> sess_of p q (a :: b :: ms) e = sess_of p q (b :: a :: ms) e.
  Proof.
    intros p q a b ms e (H1 & H2 & H3 & H4). cbn.
    destruct (Nat.eqb_spec (from a) p), (Nat.eqb_spec (into a) q), (Nat.eqb_spec (from a) q), (Nat.eqb_spec (into a) p),
      (Nat.eqb_spec (from b) p), (Nat.eqb_spec (into b) q), (Nat.eqb_spec (from b) q), (Nat.eqb_spec (into b) p); subst; cbn; congruence.
  Qed.
  Lemma stack_swap : forall p a b ms e, apart a b -> stack_of p (a :: b :: ms) e = stack_of p (b :: a :: ms) e.
  Proof.
    intros p a b ms e (H1 & H2 & H3 & H4). cbn.
    destruct (Nat.eqb_spec (from a) p), (Nat.eqb_spec (into a) p), (Nat.eqb_spec (from b) p), (Nat.eqb_spec (into b) p); subst; congruence.
  Qed.

  Definition silent (p : nat) (ms : list message) : Prop := forall m, In m ms -> involves p m = false.

  Lemma proj_front : forall m pre suf e p, silent (from m) pre -> silent (into m) pre ->
    proj n (pre ++ m :: suf, e) p = proj n (m :: pre ++ suf, e) p.
  Proof.
    intros m pre suf e p. unfold proj, sessions_of. cbn [fst snd].
    assert (K : silent (from m) pre -> silent (into m) pre ->
      (forall q, sess_of p q (pre ++ m :: suf) e = sess_of p q (m :: pre ++ suf) e) /\ stack_of p (pre ++ m :: suf) e = stack_of p (m :: pre ++ suf) e).
    { induction pre as [|a pre IH]; intros H1 H2; [split; reflexivity|].
      assert (A : apart a m).
      { pose proof (H1 a (or_introl eq_refl)) as E1. pose proof (H2 a (or_introl eq_refl)) as E2.
        apply orb_false_iff in E1, E2. rewrite !Nat.eqb_neq in *. unfold apart. intuition congruence. }
      destruct IH as [I1 I2]; [intros x Hx; apply H1; right; exact Hx|intros x Hx; apply H2; right; exact Hx|]. split.
      - intros q. cbn [app]. rewrite <- sess_swap by exact A. apply sess_congr, I1.
      - cbn [app]. rewrite <- stack_swap by exact A. apply stack_congr, I2. }
    intros H1 H2. destruct (K H1 H2) as [K1 K2]. f_equal; [|exact K2]. apply map_ext. intros i. apply K1.
  Qed.

  Lemma proj_congr : forall m ms ms' e p, proj n (ms, e) p = proj n (ms', e) p -> proj n (m :: ms, e) p = proj n (m :: ms', e) p.
  Proof.
    intros m ms ms' e p H. unfold proj in *. cbn [fst snd] in *. injection H as H1 H2. f_equal; [|apply stack_congr, H2].
    unfold sessions_of in *. apply map_ext_in. intros i Hi. apply sess_congr.
    clear - H1 Hi. induction (seq 1 (n - 1)) as [|j l IH]; [contradiction|]. cbn in H1. injection H1 as E1 E2. destruct Hi as [->|Hi]; auto.
  Qed.

  (** The first message of a role. *)
  Lemma first_of : forall p ms, silent p ms \/ exists pre m suf, ms = pre ++ m :: suf /\ silent p pre /\ involves p m = true.
  Proof.
    intros p. induction ms as [|m ms IH]; [left; intros m []|].
    destruct (involves p m) eqn:E; [right; exists [], m, ms; split; [reflexivity|]; split; [intros x []|exact E]|].
    destruct IH as [IH|(pre & m' & suf & -> & H1 & H2)]; [left; intros x [<-|Hx]; auto|].
    right. exists (m :: pre), m', suf. split; [reflexivity|]. split; [intros x [<-|Hx]; auto|exact H2].
  Qed.
  Lemma sess_silent : forall p q pre suf e, silent p pre -> sess_of p q (pre ++ suf) e = sess_of p q suf e.
  Proof.
    intros p q pre suf e. induction pre as [|a pre IH]; intros H; [reflexivity|]. cbn [app].
    rewrite sess_skip by (apply H; left; reflexivity). apply IH. intros x Hx. apply H. right. exact Hx.
  Qed.
  Lemma stack_silent : forall p pre suf e, silent p pre -> stack_of p (pre ++ suf) e = stack_of p suf e.
  Proof.
    intros p pre suf e. induction pre as [|a pre IH]; intros H; [reflexivity|]. cbn [app].
    rewrite stack_skip by (apply H; left; reflexivity). apply IH. intros x Hx. apply H. right. exact Hx.
  Qed.

  Lemma last_not_val : forall p x e t k, last_sess p x e <> Snd (PVal t) k /\ last_sess p x e <> Rcv (PVal t) k.
  Proof. exact last_send. Qed.

  (** A role that is to exchange a value with x has its first message with x. *)
  Lemma first_with : forall ms e p x r, Forall (wf_message n) ms -> stack_of p ms e = SRole x r ->
    (exists t k, sess_of p x ms e = Snd (PVal t) k \/ sess_of p x ms e = Rcv (PVal t) k) ->
    exists pre m suf, ms = pre ++ m :: suf /\ silent p pre /\
      ((m = Msg3 p x (what m) /\ exists k, sess_of p x ms e = Snd (PVal (what m)) k) \/
       (m = Msg3 x p (what m) /\ exists k, sess_of p x ms e = Rcv (PVal (what m)) k)).
  Proof.
    intros ms e p x r W Hs (t & k & Hk). destruct (first_of p ms) as [H|(pre & m & suf & -> & H1 & H2)].
    - exfalso. assert (E : sess_of p x ms e = last_sess p x e).
      { rewrite <- (app_nil_r ms) at 1. rewrite sess_silent by exact H. reflexivity. }
      rewrite E in Hk. destruct (last_not_val p x e t k). destruct Hk; contradiction.
    - exists pre, m, suf. split; [reflexivity|]. split; [exact H1|].
      apply Forall_app in W. destruct W as [_ W]. inversion W as [|m0 l0 Hm _]; subst. destruct Hm as (_ & _ & Hne).
      rewrite stack_silent in Hs by exact H1. rewrite sess_silent in Hk |- * by exact H1. destruct m as [a b v]. cbn [from into what] in *.
      cbn [stack_of sess_of from into what] in *. unfold involves in H2. cbn [from into] in H2. apply orb_true_iff in H2.
      destruct (Nat.eqb_spec a p) as [->|Ha].
      + injection Hs as -> _. rewrite Nat.eqb_refl in *. cbn. left. split; [reflexivity|]. eexists. reflexivity.
      + destruct (Nat.eqb_spec b p) as [->|Hb]; [|destruct H2; discriminate]. injection Hs as -> _.
        rewrite Nat.eqb_refl. cbn. right. split; [reflexivity|]. eexists. reflexivity.
  Qed.

  Lemma meeting_first : forall Ts ms e p m, Forall (wf_message n) ms -> agrees Ts (ms, e) -> 1 <= p <= n -> meeting n Ts p = Some m ->
    exists pre suf, ms = pre ++ m :: suf /\ silent (from m) pre /\ silent (into m) pre.
  Proof.
    intros Ts ms e p m W [_ A] Hp H. unfold meeting in H.
    rewrite (A p Hp) in H. cbn [proj fst snd] in H.
    destruct (stack_of p ms e) as [| |x r| | |] eqn:Es; try discriminate.
    destruct (negb (x =? p) && (1 <=? x) && (x <=? n)) eqn:Hc; [|discriminate].
    rewrite !andb_true_iff, negb_true_iff, Nat.eqb_neq, !Nat.leb_le in Hc. destruct Hc as [[Hxp Hx1] Hxn].
    rewrite (A x ltac:(lia)) in H. cbn [proj fst snd] in H. rewrite !sessions_nth in H by (auto; lia).
    destruct (sess_of p x ms e) as [|[t|b j] k|] eqn:E1; try discriminate.
    destruct (stack_of x ms e) as [| |y r'| | |] eqn:Es'; try discriminate.
    destruct (sess_of x p ms e) as [| |[t'|b j] k'] eqn:E2; try discriminate.
    destruct ((y =? p) && (t' =? t)) eqn:Hy; [|discriminate]. apply andb_true_iff in Hy. rewrite !Nat.eqb_eq in Hy. destruct Hy as [-> ->].
    injection H as <-. cbn [from into].
    destruct (first_with ms e p x r W Es) as (pre & m & suf & -> & S1 & Hm); [rewrite E1; eauto|].
    rewrite E1 in Hm. destruct Hm as [[Em (k0 & Ek)]|[_ (k0 & Ek)]]; [|discriminate]. injection Ek as Et _.
    destruct (first_with (pre ++ m :: suf) e x p r' W Es') as (pre' & m' & suf' & Ems & S2 & Hm'); [rewrite E2; eauto|].
    rewrite E2 in Hm'. destruct Hm' as [[_ (k1 & Ek)]|[Em' (k1 & Ek)]]; [discriminate|].
    exists pre, suf. rewrite Em, <- Et. split; [reflexivity|]. split; [exact S1|].
    intros a Ha. destruct (involves x a) eqn:Ea; [|reflexivity]. exfalso.
    (** the first message of x would be in pre, but it is with p *)
    assert (Hin : In m' pre).
    { clear - Ems S2 Ha Ea. revert pre' Ems S2. induction pre as [|c pre IH]; intros pre' Ems S2; [contradiction|].
      destruct pre' as [|c' pre']; cbn in Ems; injection Ems as E1 E2.
      - left. congruence.
      - subst c'. destruct Ha as [->|Ha]; [rewrite (S2 a (or_introl eq_refl)) in Ea; discriminate|].
        right. eapply IH; eauto. intros z Hz. apply S2. right. exact Hz. }
    pose proof (S1 m' Hin) as Hf. rewrite Em' in Hf. unfold involves in Hf. cbn [from into] in Hf. rewrite Nat.eqb_refl in Hf. discriminate.
  Qed.

  (** The front message is always possible. *)
  Lemma meeting_head : forall Ts m ms e, wf_message n m -> agrees Ts (m :: ms, e) -> meeting n Ts (from m) = Some m.
  Proof.
    intros Ts [p x t] ms e (H1 & H2 & H3) [_ A]. cbn [from into] in *. unfold meeting. rewrite (A p H1). cbn [proj fst snd stack_of from into]. rewrite Nat.eqb_refl.
    rewrite (A x H2). cbn [proj fst snd]. rewrite !sessions_nth by auto. cbn [stack_of sess_of from into what]. rewrite !Nat.eqb_refl.
    destruct (Nat.eqb_spec p x) as [|_]; [contradiction|].
    assert (E : negb (x =? p) && (1 <=? x) && (x <=? n) = true).
    { rewrite !andb_true_iff, negb_true_iff, Nat.eqb_neq, !Nat.leb_le. lia. }
    rewrite E. cbn. rewrite !Nat.eqb_refl. reflexivity.
  Qed.

  Lemma past_proj : forall m ms e p x, wf_message n m -> (from m = p /\ into m = x \/ from m = x /\ into m = p) ->
    past p x (proj n (m :: ms, e) p) = proj n (ms, e) p.
  Proof.
    intros [a b t] ms e p x (H1 & H2 & H3) Hm. cbn [from into] in *.
    assert (Hpx : 1 <= p <= n /\ 1 <= x <= n /\ x <> p) by (destruct Hm as [[-> ->]|[-> ->]]; auto).
    destruct Hpx as (Hp & Hx & Hne). unfold past, proj. cbn [fst snd]. rewrite sessions_nth by auto.
    assert (Es : exists q, sess_of p x (Msg3 a b t :: ms) e = Snd q (sess_of p x ms e) \/ sess_of p x (Msg3 a b t :: ms) e = Rcv q (sess_of p x ms e)).
    { cbn [sess_of from into what]. destruct Hm as [[-> ->]|[-> ->]]; rewrite !Nat.eqb_refl; cbn; [eauto|].
      destruct (Nat.eqb_spec x p); [contradiction|]. cbn. eauto. }
    assert (Ek : stack_of p (Msg3 a b t :: ms) e = SRole x (stack_of p ms e)).
    { cbn [stack_of from into]. destruct Hm as [[-> ->]|[-> ->]]; rewrite !Nat.eqb_refl; [reflexivity|].
      destruct (Nat.eqb_spec x p); [contradiction|reflexivity]. }
    rewrite Ek.
    assert (Hst : set_nth (field_pos p x) (sess_of p x ms e) (sessions_of n p (Msg3 a b t :: ms) e) = sessions_of n p ms e).
    { apply sessions_step; auto. intros q Hq1 Hq2. cbn [sess_of from into].
      destruct Hm as [[-> ->]|[-> ->]]; destruct (Nat.eqb_spec p q), (Nat.eqb_spec x q), (Nat.eqb_spec x p), (Nat.eqb_spec p x); subst; try congruence; cbn; rewrite ?andb_false_r; reflexivity. }
    destruct Es as [q [-> | ->]]; rewrite Hst; reflexivity.
  Qed.
  Lemma proj_other : forall m ms e p, involves p m = false -> proj n (m :: ms, e) p = proj n (ms, e) p.
  Proof.
    intros m ms e p H. unfold proj. cbn [fst snd]. rewrite stack_skip by exact H. f_equal. unfold sessions_of.
    apply map_ext. intros i. apply sess_skip, H.
  Qed.

  Lemma play_agrees : forall Ts m ms e, wf_message n m -> agrees Ts (m :: ms, e) -> agrees (play m Ts) (ms, e).
  Proof.
    intros Ts m ms e W [Hl A]. pose proof W as (H1 & H2 & H3). unfold play. split; [rewrite !set_nth_length; exact Hl|].
    intros p Hp. rewrite type_set by (rewrite ?set_nth_length; lia). destruct (Nat.eqb_spec p (into m)) as [->|Hi].
    - rewrite (A _ H2). apply past_proj; auto.
    - rewrite type_set by lia. destruct (Nat.eqb_spec p (from m)) as [->|Hf]; [rewrite (A _ H1); apply past_proj; auto|].
      rewrite (A _ Hp). apply proj_other. unfold involves. destruct (Nat.eqb_spec (from m) p), (Nat.eqb_spec (into m) p); congruence || reflexivity.
  Qed.

  (** Nobody meets at the end of the round. *)
  Lemma meeting_none : forall Ts e p, agrees Ts ([], e) -> 1 <= p <= n -> meeting n Ts p = None.
  Proof.
    intros Ts e p A Hp. destruct (meeting n Ts p) as [m|] eqn:E; [|reflexivity].
    destruct (meeting_first Ts [] e p m (Forall_nil _) A Hp E) as (pre & suf & H & _). destruct pre; discriminate.
  Qed.
  Lemma first_meeting_some : forall Ts ps m, first_meeting n Ts ps = Some m -> exists p, In p ps /\ meeting n Ts p = Some m.
  Proof.
    intros Ts ps m. induction ps as [|p ps IH]; cbn; [discriminate|]. destruct (meeting n Ts p) as [m'|] eqn:E.
    - intros [= ->]. eauto.
    - intros H. destruct (IH H) as (q & Hq & Hm). eauto.
  Qed.
  Lemma first_meeting_none : forall Ts ps, first_meeting n Ts ps = None <-> forall p, In p ps -> meeting n Ts p = None.
  Proof.
    intros Ts ps. induction ps as [|p ps IH]; cbn; [split; auto; intros _ p []|]. destruct (meeting n Ts p) as [m'|] eqn:E.
    - split; [discriminate|]. intros H. rewrite <- E. apply H. auto.
    - rewrite IH. split; intros H; [intros q [<-|Hq]; auto|intros q Hq; apply H; auto].
  Qed.
  Lemma last_agrees : forall Ts e, agrees Ts ([], e) -> match e with GEnd => True | GChoose c b => 1 <= c <= n end -> last_of Ts (seq 1 n) = e.
  Proof.
    intros Ts e [_ A] We. destruct e as [|c b].
    - assert (K : forall ps, (forall p, In p ps -> 1 <= p <= n) -> last_of Ts ps = GEnd).
      { induction ps as [|p ps IH]; intros H; [reflexivity|]. cbn. rewrite (A p (H p (or_introl eq_refl))). cbn. apply IH. intros q Hq. apply H. right. exact Hq. }
      apply K. intros p Hp. apply in_seq in Hp. lia.
    - assert (K : forall ps, (forall p, In p ps -> 1 <= p <= n) -> In c ps -> last_of Ts ps = GChoose c b).
      { induction ps as [|p ps IH]; intros H Hin; [contradiction|]. cbn. rewrite (A p (H p (or_introl eq_refl))).
        cbn [proj fst snd stack_of last_stack]. destruct (Nat.eqb_spec p c) as [->|Hne].
        - assert (E : choice_of c (sessions_of n c [] (GChoose c b)) = Some b).
          { pose proof (all_send_choice_last c b 1 (n - 1)) as H0. unfold sessions_of, choice_of in *.
            destruct (n - 1) as [|m] eqn:En; [lia|]. cbn [seq map sess_of last_sess] in *. rewrite Nat.eqb_refl in *. rewrite H0. reflexivity. }
          rewrite E. reflexivity.
        - destruct (choice_of p (sessions_of n p [] (GChoose c b))); (apply IH; [intros q Hq; apply H; right; exact Hq|destruct Hin; [congruence|assumption]]). }
      apply K; [intros p Hp; apply in_seq in Hp; lia|apply in_seq; lia].
  Qed.

  (** The search puts the messages in a possible order. *)
  Lemma gather_agrees : forall e, match e with GEnd => True | GChoose c b => 1 <= c <= n end ->
    forall fuel ms Ts, Forall (wf_message n) ms -> agrees Ts (ms, e) -> length ms <= fuel ->
    exists ms', gather n fuel Ts = (ms', e) /\ Permutation ms ms' /\ forall p, 1 <= p <= n -> proj n (ms', e) p = proj n (ms, e) p.
  Proof.
    intros e We. induction fuel as [|k IH]; intros ms Ts W A Hl.
    - destruct ms; [|cbn in Hl; lia]. exists []. cbn. rewrite (last_agrees Ts e A We). auto.
    - cbn [gather]. destruct (first_meeting n Ts (seq 1 n)) as [m|] eqn:E.
      + apply first_meeting_some in E. destruct E as (p & Hp & E). apply in_seq in Hp.
        destruct (meeting_first Ts ms e p m W A ltac:(lia) E) as (pre & suf & -> & S1 & S2).
        assert (W' : wf_message n m /\ Forall (wf_message n) (pre ++ suf)).
        { apply Forall_app in W. destruct W as [W1 W2]. inversion W2; subst. split; [assumption|]. apply Forall_app. auto. }
        assert (A' : agrees Ts (m :: pre ++ suf, e)).
        { destruct A as [A1 A2]. split; [exact A1|]. intros q Hq. rewrite A2 by exact Hq. apply proj_front; assumption. }
        destruct (IH (pre ++ suf) (play m Ts) (proj2 W') (play_agrees Ts m _ e (proj1 W') A')) as (ms' & Eg & Pm & Hpr).
        { rewrite app_length in *. cbn in Hl. lia. }
        exists (m :: ms'). rewrite Eg. cbn [fst snd]. split; [reflexivity|]. split.
        * rewrite <- Pm. symmetry. apply Permutation_middle.
        * intros q Hq. rewrite proj_front by assumption. apply proj_congr, Hpr, Hq.
      + destruct ms as [|m ms]; [exists []; rewrite (last_agrees Ts e A We); auto|]. exfalso.
        inversion W as [|? ? Wm _]; subst. pose proof (meeting_head Ts m ms e Wm A) as Hm. pose proof Wm as ((H1 & H2) & _).
        rewrite (proj1 (first_meeting_none Ts (seq 1 n)) E (from m)) in Hm by (apply in_seq; lia). discriminate.
  Qed.

  Lemma effort_enough : forall Ts ms e, Forall (wf_message n) ms -> agrees Ts (ms, e) -> length ms <= effort Ts.
  Proof.
    intros Ts ms e W [Hl A].
    assert (E : effort Ts = list_sum (map (fun p => depth (stack_of p ms e)) (seq 1 n))).
    { unfold effort. f_equal. apply list_ext. intros k. rewrite !nth_error_map.
      destruct (nth_error Ts k) as [T|] eqn:Ek.
      - assert (Hk : k < n) by (rewrite <- Hl; apply nth_error_Some; congruence). rewrite nth_error_seq' by exact Hk. cbn [option_map]. f_equal.
        specialize (A (1 + k) ltac:(lia)). unfold type_of, of_list in A. replace (1 + k - 1) with k in A by lia.
        rewrite (nth_error_nth _ _ _ Ek) in A. cbn [proj fst snd] in A. subst T. setoid_rewrite Ek. reflexivity.
      - pose proof Ek as Ek'. apply nth_error_None in Ek'. setoid_rewrite Ek. rewrite (proj2 (nth_error_None (seq 1 n) k)); [reflexivity|]. rewrite seq_length. lia. }
    rewrite E. clear - W. induction ms as [|m ms IH]; [cbn; lia|]. inversion W as [|? ? Wm Wms]; subst. specialize (IH Wms).
    destruct Wm as (H1 & H2 & H3). cbn [length].
    assert (list_sum (map (fun p => depth (stack_of p ms e)) (seq 1 n)) < list_sum (map (fun p => depth (stack_of p (m :: ms) e)) (seq 1 n))); [|lia].
    apply sum_less with (x := from m).
    - intros p. cbn [stack_of]. destruct (from m =? p); [cbn; lia|]. destruct (into m =? p); cbn; lia.
    - apply in_seq. lia.
    - cbn [stack_of]. rewrite Nat.eqb_refl. cbn. lia.
  Qed.

  (** ** The two directions *)
  Lemma recover_sound : forall Ts G, recover n labels Ts = Some G -> wf_round n labels G /\ forall p, 1 <= p <= n -> type_of Ts p = proj n G p.
  Proof.
    intros Ts G. unfold recover. cbv zeta. destruct (fits n labels Ts (gather n (effort Ts) Ts)) eqn:F; [|discriminate]. intros [= <-].
    unfold fits in F. rewrite !andb_true_iff in F. destruct F as [[F1 F2] F3]. rewrite forallb_forall in F1, F2. split; [split|].
    - apply Forall_forall. intros m Hm. specialize (F2 m Hm). rewrite !andb_true_iff, negb_true_iff, Nat.eqb_neq, !Nat.leb_le in F2. unfold wf_message. intuition lia.
    - destruct (snd (gather n (effort Ts) Ts)) as [|c b]; [exact I|]. rewrite !andb_true_iff, !Nat.leb_le, Nat.ltb_lt in F3. intuition lia.
    - intros p Hp. apply mty_eqb_true, F1, in_seq. lia.
  Qed.
  Lemma recover_complete : forall Ts G, length Ts = n -> wf_round n labels G -> (forall p, 1 <= p <= n -> type_of Ts p = proj n G p) ->
    exists G', recover n labels Ts = Some G' /\ snd G' = snd G /\ Permutation (fst G) (fst G').
  Proof.
    intros Ts [ms e] Hl [W1 W2] A. cbn [fst snd] in *.
    assert (We : match e with GEnd => True | GChoose c b => 1 <= c <= n end) by (destruct e; [exact I|apply W2]).
    destruct (gather_agrees e We (effort Ts) ms Ts W1 (conj Hl A) (effort_enough Ts ms e W1 (conj Hl A))) as (ms' & Eg & Pm & Hpr).
    exists (ms', e). unfold recover. cbv zeta. rewrite Eg. split; [|split; [reflexivity|exact Pm]].
    assert (F : fits n labels Ts (ms', e) = true); [|rewrite F; reflexivity].
    unfold fits. cbn [fst snd]. rewrite !andb_true_iff. split; [split|].
    - apply forallb_forall. intros p Hp. apply in_seq in Hp. rewrite A, Hpr by lia. unfold mty_eqb. rewrite stys_eqb_refl. cbn [snd proj fst].
      clear. induction ms as [|m ms IH]; cbn [stack_of].
      + destruct e as [|c b]; [reflexivity|]. cbn. destruct (p =? c); cbn; [reflexivity|]. rewrite Nat.eqb_refl. reflexivity.
      + destruct (from m =? p); [cbn; rewrite Nat.eqb_refl; exact IH|]. destruct (into m =? p); [cbn; rewrite Nat.eqb_refl; exact IH|exact IH].
    - apply forallb_forall. intros m Hm. rewrite Forall_forall in W1. destruct (W1 m) as (H1 & H2 & H3); [apply (Permutation_in _ (Permutation_sym Pm)), Hm|].
      rewrite !andb_true_iff, negb_true_iff, Nat.eqb_neq, !Nat.leb_le. lia.
    - destruct e as [|c b]; [reflexivity|]. destruct W2 as [Hc Hb]. rewrite !andb_true_iff, !Nat.leb_le, Nat.ltb_lt. lia.
  Qed.
End Synth.
