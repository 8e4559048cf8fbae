(** * Windows and clocks *)

From Coq Require Import Ascii String ZArith QArith Bool Lia Lqa List.
From Verif Require Import Checker CheckerText Nuscr NuscrSpec NuscrMaps NuscrTree NuscrRun.
Import ListNotations.

(** ** The order of texts on numbers with as many digits *)

Lemma digit_spec c d : digit c = Some d -> (d = Z.of_nat (nat_of_ascii c) - 48 /\ 0 <= d <= 9)%Z.
Proof.
  unfold digit. destruct ((48 <=? Z.of_nat (nat_of_ascii c)) && (Z.of_nat (nat_of_ascii c) <=? 57))%Z eqn:E;
    [|discriminate]. intros [= <-]. apply andb_prop in E as [E1 E2]. lia.
Qed.

Lemma digits_bounds s acc n :
  digits acc s = Some n ->
  (acc * 10 ^ Z.of_nat (length s) <= n < (acc + 1) * 10 ^ Z.of_nat (length s))%Z.
Proof.
  revert acc. induction s as [|c s IH]; intros acc; cbn [digits].
  - intros [= <-]. cbn. lia.
  - destruct (digit c) as [d|] eqn:E; [|discriminate]. intros H. apply IH in H. apply digit_spec in E as [_ E].
    cbn [length]. rewrite Nat2Z.inj_succ, Z.pow_succ_r by lia.
    assert (0 < 10 ^ Z.of_nat (length s))%Z by (apply Z.pow_pos_nonneg; lia). nia.
Qed.

Lemma digits_order a : forall b accA accB x y,
  length a = length b -> digits accA a = Some x -> digits accB b = Some y ->
  ((accA < accB -> x < y) /\ (accA = accB -> (str_le a b = true <-> x <= y)))%Z.
Proof.
  induction a as [|c a IH]; intros [|d b] accA accB x y L Hx Hy; try discriminate.
  - cbn in *. injection Hx as <-. injection Hy as <-. split; [easy|]. intros ->. split; [lia|easy].
  - cbn [digits] in Hx, Hy. destruct (digit c) as [c'|] eqn:Ec; [|discriminate].
    destruct (digit d) as [d'|] eqn:Ed; [|discriminate].
    apply digit_spec in Ec as [Ec Ec']. apply digit_spec in Ed as [Ed Ed'].
    injection L as L. destruct (IH _ _ _ _ _ L Hx Hy) as [H1 H2]. split.
    + intros H. apply H1. lia.
    + intros ->. cbn [str_le].
      destruct (nat_of_ascii c <? nat_of_ascii d)%nat eqn:E1.
      * apply Nat.ltb_lt in E1. split; [|easy]. intros _. assert (x < y)%Z by (apply H1; lia). lia.
      * apply Nat.ltb_ge in E1. destruct (nat_of_ascii d <? nat_of_ascii c)%nat eqn:E2.
        -- apply Nat.ltb_lt in E2. split; [discriminate|]. intros H. exfalso.
           symmetry in L. destruct (IH b (10 * accB + c') (10 * accB + d') x y (eq_sym L) Hx Hy)%Z as [_ _].
           apply digits_bounds in Hx. apply digits_bounds in Hy. rewrite <- L in Hx.
           assert (0 < 10 ^ Z.of_nat (length b))%Z by (apply Z.pow_pos_nonneg; lia). nia.
        -- apply Nat.ltb_ge in E2. apply H2. lia.
Qed.

Lemma number_order a b x y :
  length a = length b -> number a = Some x -> number b = Some y ->
  (str_le a b = true <-> (x <= y)%Z).
Proof.
  unfold number. destruct a as [|c a]; [discriminate|]. destruct b as [|d b]; [discriminate|].
  intros L Hx Hy. now destruct (digits_order _ _ _ _ _ _ L Hx Hy) as [_ H]; apply H.
Qed.

Lemma number_nonneg s n : number s = Some n -> (0 <= n)%Z.
Proof.
  unfold number. destruct s as [|c s]; [discriminate|]. intros H. apply digits_bounds in H. lia.
Qed.

(** ** Accepted messages have their bounds in the order of texts *)

Lemma clock_tests_le ms : forall prev prev' m,
  clock_tests prev ms = Fine prev' -> In m ms -> str_le (lb m) (rb m) = true.
Proof.
  induction ms as [|x ms IH]; intros prev prev' m H Hm; [easy|]. cbn [clock_tests] in H.
  apply gbind_fine in H as (p & E & H). destruct Hm as [->|Hm]; [|eauto].
  unfold previous_message_wrt_clocks in E. now destruct (str_le (lb m) (rb m)).
Qed.

(** ** Accepted messages are feasible when all the windows are closed, or all open, on the right *)

Definition bound_at (prev : hmap (hmap (str * bool))) (r c : str) : option (str * bool) :=
  match hget prev r with Some b => hget b c | None => None end.

Lemma hget_hdel_same {A} k (m : hmap A) : hget (hdel k m) k = None.
Proof.
  induction m as [|[x a] m IH]; [reflexivity|]. cbn. destruct (seqb x k) eqn:E; cbn; [easy|].
  now rewrite E.
Qed.
Lemma hget_hdel_other {A} k k' (m : hmap A) : k' <> k -> hget (hdel k m) k' = hget m k'.
Proof.
  intros H. induction m as [|[x a] m IH]; [reflexivity|]. cbn. destruct (seqb x k) eqn:E; cbn.
  - apply seqb_true in E. subst. destruct (seqb k k') eqn:E'; [apply seqb_true in E'; congruence|easy].
  - destruct (seqb x k'); auto.
Qed.

(** What one half of the test does to the bounds. *)
Lemma previous_of_bounds prev role m prev' :
  previous_of prev role m = Fine prev' ->
  (forall r c, r <> role \/ c <> clock m -> bound_at prev' r c = bound_at prev r c) /\
  match bound_at prev role (clock m) with
  | None => bound_at prev' role (clock m) = Some (rb m, ri m)
  | Some (s, b) =>
      bound_at prev' role (clock m) =
        (if seqb (match reset m with Some c => c | None => lit " " end) (clock m) then None
         else Some (rb m, ri m)) /\
      exists lo hi p, number (lb m) = Some lo /\ number s = Some p /\
        ((lo + (if li m then 1 else 0) < p + (if b then 1 else 0))%Z ->
         number (rb m) = Some hi /\ (p + (if b then 1 else 0) <= hi + (if ri m then 1 else 0))%Z)
  end.
Proof.
  intros H. unfold previous_of in H. unfold bound_at.
  destruct (hget prev role) as [bounds|] eqn:Er.
  - destruct (hget bounds (clock m)) as [[s b]|] eqn:Ec.
    + assert (forall x z, parse_i32 x = Fine z -> number x = Some z) as P.
      { intros x z. unfold parse_i32. destruct (number x) as [n|]; [|discriminate].
        destruct (n <=? 2147483647)%Z; [|discriminate]. now intros [= ->]. }
      assert (forall n f z, add_flag n f = Fine z -> z = (n + (if f then 1 else 0))%Z) as P2.
      { intros n f z. unfold add_flag. destruct (n + (if f then 1 else 0) <=? 2147483647)%Z; [|discriminate].
        now intros [= <-]. }
      apply gbind_fine in H as (l0 & E1 & H). apply P in E1.
      apply gbind_fine in H as (l & E2 & H). apply P2 in E2.
      apply gbind_fine in H as (p0 & E3 & H). apply P in E3. cbn [fst] in E3.
      apply gbind_fine in H as (p & E4 & H). apply P2 in E4. cbn [snd] in E4.
      apply gbind_fine in H as (bad & E5 & H).
      destruct bad; [discriminate|]. injection H as <-.
      split.
      * intros r c Hne. destruct (seqb r role) eqn:E.
        -- apply seqb_true in E. subst r. destruct Hne as [|Hne]; [easy|].
           rewrite hget_hset_same, Er.
           destruct (seqb _ (clock m)); [now rewrite hget_hdel_other|].
           now rewrite hget_hset_other, hget_hdel_other.
        -- apply seqb_false in E. now rewrite hget_hset_other.
      * split.
        -- rewrite hget_hset_same. destruct (seqb _ (clock m)); [apply hget_hdel_same|apply hget_hset_same].
        -- destruct (l <? p)%Z eqn:E6.
           ++ apply gbind_fine in E5 as (r0 & E7 & E5). apply P in E7.
              apply gbind_fine in E5 as (r & E8 & E5). apply P2 in E8. injection E5 as E5.
              apply Z.ltb_ge in E5. exists l0, r0, p0. repeat split; auto. lia.
           ++ apply Z.ltb_ge in E6. exists l0, 0%Z, p0. repeat split; auto; lia.
    + injection H as <-. split.
      * intros r c Hne. destruct (seqb r role) eqn:E.
        -- apply seqb_true in E. subst r. destruct Hne as [|Hne]; [easy|].
           now rewrite hget_hset_same, Er, hget_hset_other.
        -- apply seqb_false in E. now rewrite hget_hset_other.
      * now rewrite hget_hset_same, hget_hset_same.
  - injection H as <-. split.
    + intros r c Hne. destruct (seqb r role) eqn:E.
      * apply seqb_true in E. subst r. destruct Hne as [|Hne]; [easy|].
        rewrite hget_hset_same, Er. cbn. destruct (seqb (clock m) c) eqn:E; [apply seqb_true in E; congruence|easy].
      * apply seqb_false in E. now rewrite hget_hset_other.
    + rewrite hget_hset_same. cbn. now rewrite seqb_refl.
Qed.

(** The bounds of a role that is not concerned do not change. *)
Lemma previous_step prev m prev' r c :
  previous_message_wrt_clocks prev m = Fine prev' -> sender m <> receiver m ->
  (involves r m = false \/ clock m <> c -> bound_at prev' r c = bound_at prev r c) /\
  (involves r m = true -> clock m = c ->
    match bound_at prev r c with
    | None => bound_at prev' r c = Some (rb m, ri m)
    | Some (s, b) =>
        bound_at prev' r c =
          (if seqb (match reset m with Some c => c | None => lit " " end) (clock m) then None
           else Some (rb m, ri m)) /\
        exists lo hi p, number (lb m) = Some lo /\ number s = Some p /\
          ((lo + (if li m then 1 else 0) < p + (if b then 1 else 0))%Z ->
           number (rb m) = Some hi /\ (p + (if b then 1 else 0) <= hi + (if ri m then 1 else 0))%Z)
    end).
Proof.
  intros H Hne. unfold previous_message_wrt_clocks in H.
  destruct (negb (str_le (lb m) (rb m))); [discriminate|].
  apply gbind_fine in H as (p & E1 & E2).
  apply previous_of_bounds in E1 as [A1 A2]. apply previous_of_bounds in E2 as [B1 B2].
  unfold involves. split.
  - intros H. assert ((r <> sender m \/ c <> clock m) /\ (r <> receiver m \/ c <> clock m)) as [Q1 Q2].
    { destruct H as [H|H]; [|auto]. apply orb_false_iff in H as [H1 H2].
      apply seqb_false in H1, H2. auto. }
    rewrite B1, A1; auto.
  - intros H <-. apply orb_prop in H as [H|H]; apply seqb_true in H; subst r.
    + rewrite (B1 (sender m)) by auto. exact A2.
    + rewrite A1 in B2 by auto. exact B2.
Qed.

Definition slack (closed : bool) : Q := if closed then 0 else 1 # 2.

Lemma window_choice m closed :
  sound_window m -> ri m = closed ->
  exists lo hi, number (lb m) = Some lo /\ number (rb m) = Some hi /\
    in_window (inject_Z hi - slack closed) m /\ 0 <= inject_Z hi - slack closed /\
    (lo <= hi)%Z /\ (closed = false -> lo < hi)%Z.
Proof.
  intros [v Hv] <-. unfold in_window in *.
  destruct (number (lb m)) as [lo|] eqn:El; [|easy]. destruct (number (rb m)) as [hi|] eqn:Eh; [|easy].
  exists lo, hi. apply number_nonneg in El. apply number_nonneg in Eh.
  assert (lo <= hi)%Z as L.
  { rewrite Zle_Qle. destruct (li m), (ri m); destruct Hv; lra. }
  assert (ri m = false \/ li m = false -> (lo < hi)%Z) as L2.
  { intros H. rewrite Zlt_Qlt. destruct (li m), (ri m); destruct Hv, H; try discriminate; lra. }
  assert (ri m = false \/ li m = false -> inject_Z lo + 1 <= inject_Z hi) as L3.
  { intros H. apply L2 in H. change 1 with (inject_Z 1). rewrite <- inject_Z_plus, <- Zle_Qle. lia. }
  assert (0 <= inject_Z lo) by (change 0 with (inject_Z 0); rewrite <- Zle_Qle; lia).
  rewrite Zle_Qle in L. unfold slack.
  refine (conj eq_refl (conj eq_refl (conj _ (conj _ _)))).
  - destruct (li m), (ri m); try (specialize (L3 (or_introl eq_refl))); try (specialize (L3 (or_intror eq_refl))); split; lra.
  - destruct (li m), (ri m); try (specialize (L3 (or_introl eq_refl))); try (specialize (L3 (or_intror eq_refl))); lra.
  - rewrite Zle_Qle. split; [exact L|]. intros E. apply L2. now left.
Qed.

Lemma tests_feasible r c closed ms : forall prev prev' least,
  c <> lit " " ->
  clock_tests prev ms = Fine prev' ->
  Forall (fun m => sender m <> receiver m) ms ->
  Forall (fun m => involves r m = true -> clock m = c -> sound_window m /\ ri m = closed) ms ->
  0 <= least ->
  match bound_at prev r c with
  | None => least <= 0
  | Some (s, b) => b = closed /\ exists p, number s = Some p /\ least <= inject_Z p - slack closed
  end ->
  feasible r c least ms.
Proof.
  induction ms as [|m ms IH]; intros prev prev' least Hc H Hne Hw Hpos Hp; [exact Logic.I|].
  cbn [clock_tests] in H. apply gbind_fine in H as (prev1 & E & H).
  inversion Hne as [|? ? Hne1 Hne2]; subst. inversion Hw as [|? ? Hw1 Hw2]; subst.
  destruct (previous_step _ _ _ r c E Hne1) as [P1 P2]. cbn [feasible].
  destruct (involves r m) eqn:Ei.
  2: { eapply IH; eauto. rewrite P1 by auto. exact Hp. }
  destruct (seqb (clock m) c) eqn:Ec.
  2: { apply seqb_false in Ec. eapply IH; eauto.
       - destruct (resets c m); [apply Qle_refl|exact Hpos].
       - rewrite P1 by auto. destruct (bound_at prev r c) as [[s b]|].
         + destruct Hp as [-> (p & Hs & Hp)]. split; [reflexivity|]. exists p. split; [exact Hs|].
           destruct (resets c m); lra.
         + destruct (resets c m); lra. }
  apply seqb_true in Ec. destruct (Hw1 eq_refl Ec) as [W1 W2].
  destruct (window_choice m closed W1 W2) as (lo & hi & Hlo & Hhi & In & Pos & L1 & L2).
  specialize (P2 eq_refl Ec).
  assert (resets c m = seqb (match reset m with Some c => c | None => lit " " end) (clock m)) as Rs.
  { unfold resets. rewrite Ec. destruct (reset m); [reflexivity|]. symmetry. apply seqb_false. congruence. }
  exists (inject_Z hi - slack closed). split; [|split; [exact In|]].
  - destruct (bound_at prev r c) as [[s b]|].
    + destruct Hp as [-> (p & Hs & Hp)]. destruct P2 as [_ (lo' & hi' & p' & Q1 & Q2 & Q3)].
      rewrite Hlo in Q1. injection Q1 as <-. rewrite Hs in Q2. injection Q2 as <-.
      assert (p <= hi)%Z as L.
      { destruct (Z_lt_ge_dec (lo + (if li m then 1 else 0)) (p + (if closed then 1 else 0))) as [G|G].
        - destruct (Q3 G) as [Q4 Q5]. rewrite Hhi in Q4. injection Q4 as <-. rewrite W2 in Q5. lia.
        - destruct closed, (li m); try specialize (L2 eq_refl); lia. }
      rewrite Zle_Qle in L. lra.
    + lra.
  - eapply IH; eauto.
    + destruct (resets c m); [apply Qle_refl|exact Pos].
    + destruct (bound_at prev r c) as [[s b]|].
      * destruct P2 as [-> _]. rewrite <- Rs. destruct (resets c m); [apply Qle_refl|].
        split; [exact W2|]. exists hi. split; [exact Hhi|]. apply Qle_refl.
      * rewrite P2. split; [exact W2|]. exists hi. split; [exact Hhi|]. destruct (resets c m); [exact Pos|apply Qle_refl].
Qed.

(** ** Clocks used once: only the order of the bounds counts *)

Lemma previous_of_first prev role m :
  bound_at prev role (clock m) = None -> exists prev', previous_of prev role m = Fine prev'.
Proof.
  unfold bound_at, previous_of. destruct (hget prev role) as [b|]; [|eauto]. intros ->. eauto.
Qed.

Lemma once_accepted ms : forall prev,
  clocks_once ms -> Forall (fun m => sender m <> receiver m) ms ->
  (forall r m, In m ms -> involves r m = true -> bound_at prev r (clock m) = None) ->
  Forall (fun m => str_le (lb m) (rb m) = true) ms ->
  exists q, clock_tests prev ms = Fine q.
Proof.
  induction ms as [|m ms IH]; intros prev Ho Hne Hp Hle; cbn [clock_tests]; [eauto|].
  inversion Hne as [|? ? Hne1 Hne2]; subst. inversion Hle as [|? ? Hle1 Hle2]; subst.
  assert (involves (sender m) m = true) as Is by (unfold involves; now rewrite seqb_refl).
  assert (involves (receiver m) m = true) as Ir by (unfold involves; now rewrite seqb_refl, orb_true_r).
  assert (exists prev', previous_message_wrt_clocks prev m = Fine prev') as [prev' E].
  { unfold previous_message_wrt_clocks. rewrite Hle1. cbn [negb].
    destruct (previous_of_first prev (sender m) m) as [p1 E1]; [apply Hp; [now left|exact Is]|].
    rewrite E1. cbn [gbind]. apply previous_of_first.
    destruct (previous_of_bounds _ _ _ _ E1) as [B _]. rewrite B by auto.
    apply Hp; [now left|exact Ir]. }
  rewrite E. cbn [gbind]. apply IH; try assumption.
  - intros r. specialize (Ho r). cbn [filter] in Ho. destruct (involves r m); [|exact Ho].
    cbn [map] in Ho. now inversion Ho.
  - intros r m' Hm' Hi. destruct (previous_step _ _ _ r (clock m') E Hne1) as [P _].
    rewrite P; [apply Hp; [now right|exact Hi]|].
    destruct (involves r m) eqn:Er; [right|now left]. intros Ec.
    specialize (Ho r). cbn [filter] in Ho. rewrite Er in Ho. cbn [map] in Ho. inversion Ho as [|? ? Hn _]; subst.
    apply Hn. rewrite Ec. apply in_map. now apply filter_In.
Qed.
