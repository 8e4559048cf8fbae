(** C27, C28: the broadcaster. *)
From Coq Require Import List Arith Bool Lia.
From Verif Require Import Broadcast.
Import ListNotations.

(** ** Specification: what the log says, oldest first *)

Definition told (k : nat) (lg : list event) : list bsig :=
  flat_map (fun e => match e with Told k' _ g _ => if k' =? k then [g] else [] | _ => [] end) (rev lg).
Definition heard (k : nat) (lg : list event) : list bsig :=
  flat_map (fun e => match e with Heard k' g => if k' =? k then [g] else [] | _ => [] end) (rev lg).
Definition delivered (c : nat) (lg : list event) : list bsig :=
  flat_map (fun e => match e with Told _ c' g true => if c' =? c then [g] else [] | _ => [] end) (rev lg).
Definition got (c : nat) (lg : list event) : list bsig :=
  flat_map (fun e => match e with Got c' g => if c' =? c then [g] else [] | _ => [] end) (rev lg).
Definition is_stop (g : bsig) : bool := match g with Stop => true | _ => false end.
Definition stops (k : nat) (lg : list event) : nat := length (filter is_stop (heard k lg)).
Definition opt {A} (o : option A) : list A := match o with Some a => [a] | None => [] end.
Definition running (s : state) : bool := match at_ s with Over | Cancelled | Twice => false | _ => true end.

(** ** Lists *)

Lemma set_nth_length : forall A k x (l : list A), length (set_nth k x l) = length l.
Proof.
  unfold set_nth. intros A k x l. rewrite <- (firstn_skipn k l) at 3. rewrite !app_length.
  destruct (skipn k l); reflexivity.
Qed.
Lemma nth_error_set_nth : forall A k x (l : list A) j,
  nth_error (set_nth k x l) j = if (j =? k) && (k <? length l) then Some x else nth_error l j.
Proof.
  intros A k x l. unfold set_nth. revert l. induction k as [|k IH]; intros [|a l] j; cbn; try (destruct j; reflexivity).
  - rewrite andb_false_r. destruct j; reflexivity.
  - destruct j as [|j]; cbn; [reflexivity|]. rewrite IH. reflexivity.
Qed.
Lemma nth_of : forall A (l : list A) j d, nth j l d = match nth_error l j with Some a => a | None => d end.
Proof. induction l as [|a l IH]; intros [|j] d; cbn; auto. Qed.
Lemma nth_set_nth : forall A k x (l : list A) j d, k < length l -> nth j (set_nth k x l) d = if j =? k then x else nth j l d.
Proof.
  intros A k x l j d H. rewrite !nth_of, nth_error_set_nth. apply Nat.ltb_lt in H. rewrite H, andb_true_r.
  destruct (j =? k); reflexivity.
Qed.

Lemma told_cons : forall k e lg, told k (e :: lg) = told k lg ++ match e with Told k' _ g _ => if k' =? k then [g] else [] | _ => [] end.
Proof. intros. unfold told. cbn [rev]. rewrite flat_map_app. cbn. rewrite app_nil_r. reflexivity. Qed.
Lemma heard_cons : forall k e lg, heard k (e :: lg) = heard k lg ++ match e with Heard k' g => if k' =? k then [g] else [] | _ => [] end.
Proof. intros. unfold heard. cbn [rev]. rewrite flat_map_app. cbn. rewrite app_nil_r. reflexivity. Qed.
Lemma delivered_cons : forall c e lg, delivered c (e :: lg) = delivered c lg ++ match e with Told _ c' g true => if c' =? c then [g] else [] | _ => [] end.
Proof. intros. unfold delivered. cbn [rev]. rewrite flat_map_app. cbn. rewrite app_nil_r. reflexivity. Qed.
Lemma got_cons : forall c e lg, got c (e :: lg) = got c lg ++ match e with Got c' g => if c' =? c then [g] else [] | _ => [] end.
Proof. intros. unfold got. cbn [rev]. rewrite flat_map_app. cbn. rewrite app_nil_r. reflexivity. Qed.
Lemma stops_cons : forall k e lg, stops k (e :: lg) = stops k lg + match e with Heard k' Stop => if k' =? k then 1 else 0 | _ => 0 end.
Proof.
  intros. unfold stops. rewrite heard_cons, filter_app, app_length. f_equal.
  destruct e as [k' g|? ? ? ?|? ?]; try reflexivity. destruct g; destruct (k' =? k); reflexivity.
Qed.

(** ** Invariant *)

Record binv (n : nat) (s : state) : Prop := {
  b_fs : length (fields s) = n - 1;
  b_os : length (open s) = n - 1;
  b_told : forall k, k < n - 1 -> told k (log s) =
    (if nth k (open s) false then [] else [Stop]) ++
    match at_ s with Spread j => if k <? j then [Cancel] else [] | Cancelled => [Cancel] | _ => [] end;
  b_stops : forall k, k < n - 1 -> at_ s <> Twice -> stops k (log s) =
    (if nth k (open s) false then 0 else 1) + match at_ s with Answer j => if j =? k then 1 else 0 | _ => 0 end;
  b_answer : forall k, at_ s = Answer k -> k < n - 1 /\ nth k (open s) false = true;
  b_spread : forall j, at_ s = Spread j -> j <= n - 1;
  b_cancel : (exists k, k < n - 1 /\ In Cancel (heard k (log s))) <-> (at_ s = Cancelled \/ exists j, at_ s = Spread j);
  b_none : forall k, n - 1 <= k -> heard k (log s) = [] /\ told k (log s) = [];
  b_over : at_ s = Over -> forall k, nth k (open s) false = false;
  b_twice : at_ s = Twice -> exists k, k < n - 1 /\ stops k (log s) = 2;
  b_sent : forall k, k < n - 1 -> (at_ s = Cancelled \/ exists j, at_ s = Spread j /\ k < j) ->
    exists ok, In (Told k (nth k (fields s) 0) Cancel ok) (log s);
  b_line : forall c, down_rx (lines s c) = true -> delivered c (log s) = got c (log s) ++ opt (down (lines s c));
  b_lost : forall k c g, In (Told k c g false) (log s) -> down_rx (lines s c) = false
}.

Lemma binv_start : forall n, binv n (start n).
Proof.
  intros n. split; cbn.
  - apply seq_length.
  - apply repeat_length.
  - intros k Hk. rewrite nth_repeat_lt; [reflexivity|lia] || (rewrite nth_of, nth_error_repeat by lia; reflexivity).
  - intros k Hk _. rewrite nth_of, nth_error_repeat by lia; reflexivity.
  - discriminate.
  - discriminate.
  - split; [intros (k & _ & [])|intros [H|[j H]]; discriminate].
  - intros; split; reflexivity.
  - discriminate.
  - discriminate.
  - intros k _ [H|(j & H & _)]; discriminate.
  - reflexivity.
  - intros ? ? ? [].
Qed.

(** Steps of the participants change only lines and [Got] events. *)
Lemma env_shape : forall s s', env s s' ->
  fields s' = fields s /\ open s' = open s /\ at_ s' = at_ s /\
  (forall k, told k (log s') = told k (log s)) /\ (forall k, heard k (log s') = heard k (log s)) /\
  (forall k c g ok, In (Told k c g ok) (log s') <-> In (Told k c g ok) (log s)) /\
  (forall c, down_rx (lines s c) = false -> down_rx (lines s' c) = false).
Proof.
  intros s s' H. destruct H as [s s' H|ls fs os p lg c g H1 H2 H3 H4|ls fs os p lg c H1]; [destruct H|..]; cbn [fields open at_ lines log];
    (repeat (split; [intros; reflexivity|]));
    (repeat (split; [intros; rewrite ?told_cons, ?heard_cons, ?app_nil_r; reflexivity|]));
    (try (split; [intros; split; [intros [HH|HH]; [discriminate|exact HH]|intros HH; right; exact HH]|]));
    intros d; unfold set_line; destruct (Nat.eqb_spec d c) as [->|]; cbn; congruence.
Qed.
Lemma env_lines : forall s s', env s s' ->
  (forall c, down_rx (lines s c) = true -> delivered c (log s) = got c (log s) ++ opt (down (lines s c))) ->
  (forall c, down_rx (lines s' c) = true -> delivered c (log s') = got c (log s') ++ opt (down (lines s' c))).
Proof.
  intros s s' H I d. destruct H as [s s' H|ls fs os p lg c g H1 H2 H3 H4|ls fs os p lg c H1]; [destruct H as [ls fs os p lg c g H1 H2|ls fs os p lg c|ls fs os p lg c]|..];
    cbn [lines log] in *; unfold set_line; destruct (Nat.eqb_spec d c) as [->|Hd]; cbn [down_rx down drop_held]; try (intros; auto; fail).
  - intros _. rewrite delivered_cons, got_cons, Nat.eqb_refl, (I c H2), H1. cbn. rewrite !app_nil_r. reflexivity.
  - intros Hr. rewrite delivered_cons, got_cons, (I d Hr). apply not_eq_sym, Nat.eqb_neq in Hd. rewrite Hd. cbn. rewrite !app_nil_r. reflexivity.
  - discriminate.
Qed.
Lemma binv_env : forall n s s', binv n s -> env s s' -> binv n s'.
Proof.
  intros n s s' I H. pose proof (env_shape s s' H) as (E1 & E2 & E3 & E4 & E5 & E6 & E7). pose proof (env_lines s s' H (b_line n s I)) as E8.
  assert (E9 : forall k, stops k (log s') = stops k (log s)) by (intros; unfold stops; rewrite E5; reflexivity).
  destruct I. split; rewrite ?E1, ?E2, ?E3; try assumption.
  - intros. rewrite E4. auto.
  - intros. rewrite E9. auto.
  - setoid_rewrite E5. assumption.
  - intros. rewrite E5, E4. auto.
  - setoid_rewrite E9. assumption.
  - intros k Hk Hs. destruct (b_sent0 k Hk Hs) as [ok Hok]. exists ok. apply E6. exact Hok.
  - intros k c g Hi. apply E6 in Hi. eauto.
Qed.

Lemma existsb_false_nth : forall os, existsb id os = false -> forall k, nth k os false = false.
Proof.
  induction os as [|o os IH]; intros H k; [destruct k; reflexivity|]. cbn in H. apply orb_false_iff in H.
  destruct H as [H1 H2]. destruct k; [exact H1|apply IH; exact H2].
Qed.

Lemma drop_all_down : forall fs ls c, down (drop_all fs ls c) = down (ls c) /\ down_rx (drop_all fs ls c) = down_rx (ls c).
Proof. intros. unfold drop_all. destruct (existsb (Nat.eqb c) fs); auto. Qed.

Ltac logs := rewrite ?told_cons, ?heard_cons, ?delivered_cons, ?got_cons, ?stops_cons, ?app_nil_r, ?Nat.add_0_r.

Lemma binv_own : forall n s s', binv n s -> bstep s = Some s' -> binv n s'.
Proof.
  intros n [ls fs os p lg] s' I H. destruct I as [I1 I2 I3 I4 I5 I6 I7 I8 I9 I10 I11 I12 I13]. cbn [lines fields open at_ log] in *.
  assert (Hlen : forall k c, nth_error fs k = Some c -> k < n - 1).
  { intros k c Hk. rewrite <- I1. apply nth_error_Some. congruence. }
  destruct p as [|k|k|k| | |]; cbn in H; try discriminate.
  - (* Test *)
    destruct (existsb id os) eqn:Eo; injection H as <-.
    + split; cbn [lines fields open at_ log]; try assumption; try discriminate.
      * intros. apply I4; [assumption|discriminate].
      * rewrite I7. split; intros [H|[j H]]; discriminate.
      * intros k Hk [H|(j & H & _)]; discriminate.
    + split; cbn [lines fields open at_ log]; try assumption; try discriminate.
      * intros. apply I4; [assumption|discriminate].
      * rewrite I7. split; intros [H|[j H]]; discriminate.
      * intros _. apply existsb_false_nth. exact Eo.
      * intros k Hk [H|(j & H & _)]; discriminate.
      * intros c. destruct (drop_all_down fs ls c) as [-> ->]. apply I12.
      * intros k c g Hi. destruct (drop_all_down fs ls c) as [_ ->]. eauto.
  - (* Poll *)
    assert (N7 : ~ exists k, k < n - 1 /\ In Cancel (heard k lg)) by (rewrite I7; intros [Hx|[j Hx]]; discriminate).
    destruct (nth_error fs k) as [c|] eqn:Ek.
    2: { injection H as <-. split; cbn [lines fields open at_ log]; try assumption; try discriminate.
      * intros. apply I4; [assumption|discriminate].
      * rewrite I7. split; intros [H|[j H]]; discriminate.
      * intros i Hi [H|(j & H & _)]; discriminate. }
    pose proof (Hlen _ _ Ek) as Hk.
    assert (L12 : forall l, (down l = down (ls c) /\ down_rx l = down_rx (ls c)) -> forall g d, down_rx (set_line ls c l d) = true ->
      delivered d (Heard k g :: lg) = got d (Heard k g :: lg) ++ opt (down (set_line ls c l d))).
    { intros l [Hl1 Hl2] g d. logs. unfold set_line. destruct (Nat.eqb_spec d c) as [->|]; [rewrite Hl1, Hl2|]; apply I12. }
    assert (L13 : forall l, down_rx l = down_rx (ls c) -> forall g k' c' g', In (Told k' c' g' false) (Heard k g :: lg) -> down_rx (set_line ls c l c') = false).
    { intros l Hl g k' c' g' [Hx|Hx]; [discriminate|]. apply I13 in Hx. unfold set_line. destruct (Nat.eqb_spec c' c) as [->|]; [rewrite Hl|]; exact Hx. }
    assert (L8 : forall g i, n - 1 <= i -> heard i (Heard k g :: lg) = [] /\ told i (Heard k g :: lg) = []).
    { intros g i Hi. logs. destruct (I8 i Hi) as [-> ->]. destruct (Nat.eqb_spec k i); [lia|]. auto. }
    destruct (up (ls c)) as [[| |d]|] eqn:Eu.
    + (* Stop *)
      destruct (nth k os false) eqn:Eo; injection H as <-.
      * split; cbn [lines fields open at_ log]; try assumption; try discriminate.
        -- intros i Hi. logs. rewrite (I3 i Hi), app_nil_r. reflexivity.
        -- intros i Hi _. logs. rewrite (I4 i Hi) by discriminate. rewrite Nat.add_0_r. reflexivity.
        -- intros i E. injection E as <-. auto.
        -- split; [|intros [Hx|[j Hx]]; discriminate]. intros (i & Hi & Hx). exfalso. apply N7. exists i. split; [exact Hi|].
           rewrite heard_cons in Hx. apply in_app_or in Hx as [Hx|Hx]; [exact Hx|]. destruct (k =? i); cbn in Hx; intuition discriminate.
        -- apply L8.
        -- intros i Hi [Hx|(j & Hx & _)]; discriminate.
        -- apply L12. cbn; auto.
        -- apply L13. reflexivity.
      * split; cbn [lines fields open at_ log]; try assumption; try discriminate.
        -- intros i Hi. logs. rewrite (I3 i Hi), app_nil_r. reflexivity.
        -- congruence.
        -- split; [|intros [Hx|[j Hx]]; discriminate]. intros (i & Hi & Hx). exfalso. apply N7. exists i. split; [exact Hi|].
           rewrite heard_cons in Hx. apply in_app_or in Hx as [Hx|Hx]; [exact Hx|]. destruct (k =? i); cbn in Hx; intuition discriminate.
        -- apply L8.
        -- intros _. exists k. split; [exact Hk|]. logs. rewrite (I4 k Hk) by discriminate. rewrite Eo, Nat.eqb_refl. reflexivity.
        -- intros i Hi [Hx|(j & Hx & _)]; discriminate.
        -- intros d. destruct (drop_all_down fs (set_line ls c (take_up (ls c))) d) as [-> ->]. apply L12. cbn; auto.
        -- intros k' c' g' Hi. destruct (drop_all_down fs (set_line ls c (take_up (ls c))) c') as [_ ->]. revert Hi. apply L13. reflexivity.
    + (* Cancel *)
      injection H as <-. split; cbn [lines fields open at_ log]; try assumption; try discriminate.
      * intros i Hi. logs. rewrite (I3 i Hi), app_nil_r. destruct i; rewrite ?app_nil_r; reflexivity.
      * intros i Hi _. logs. rewrite (I4 i Hi) by discriminate. rewrite Nat.add_0_r. reflexivity.
      * intros j E. injection E as <-. lia.
      * split; [intros _; right; exists 0; reflexivity|]. intros _. exists k. split; [exact Hk|]. logs. rewrite Nat.eqb_refl. apply in_or_app. right; left; reflexivity.
      * apply L8.
      * intros i Hi [Hx|(j & Hx & Hl)]; [discriminate|]. injection Hx as <-. lia.
      * apply L12. cbn; auto.
      * apply L13. reflexivity.
    + (* Offer *)
      injection H as <-. split; cbn [lines fields open at_ log]; try assumption; try discriminate.
      * rewrite set_nth_length. exact I1.
      * intros i Hi. logs. rewrite (I3 i Hi), app_nil_r. reflexivity.
      * intros i Hi _. logs. rewrite (I4 i Hi) by discriminate. rewrite Nat.add_0_r. reflexivity.
      * split; [|intros [Hx|[j Hx]]; discriminate]. intros (i & Hi & Hx). exfalso. apply N7. exists i. split; [exact Hi|].
        rewrite heard_cons in Hx. apply in_app_or in Hx as [Hx|Hx]; [exact Hx|]. destruct (k =? i); cbn in Hx; intuition discriminate.
      * apply L8.
      * intros i Hi [Hx|(j & Hx & _)]; discriminate.
      * apply L12. cbn; auto.
      * apply L13. reflexivity.
    + injection H as <-. split; cbn [lines fields open at_ log]; try assumption; try discriminate.
      * intros. apply I4; [assumption|discriminate].
      * rewrite I7. split; intros [H|[j H]]; discriminate.
      * intros i Hi [H|(j & H & _)]; discriminate.
  - (* Answer *)
    destruct (I5 k eq_refl) as [Hk Ho].
    destruct (nth_error fs k) as [c|] eqn:Ek; [|discriminate].
    unfold send_down in H.
    assert (Hs : exists l ok, s' = State (set_line ls c l) fs (set_nth k false os) (Poll (S k)) (Told k c Stop ok :: lg) /\
       (down_rx l = down_rx (ls c)) /\ (if ok then down l = Some Stop /\ down (ls c) = None /\ down_rx l = true else down_rx l = false)).
    { destruct (down_rx (ls c)) eqn:Er.
      - destruct (down (ls c)); [discriminate|]. injection H as <-. eexists _, true. repeat split. 
      - injection H as <-. exists (ls c), false. repeat split; exact Er. }
    clear H. destruct Hs as (l & ok & -> & Hl1 & Hl2).
    split; cbn [lines fields open at_ log]; try assumption; try discriminate.
    + rewrite set_nth_length. exact I2.
    + intros i Hi. logs. rewrite (I3 i Hi), nth_set_nth by lia. rewrite (Nat.eqb_sym k i). destruct (Nat.eqb_spec i k) as [->|]; [rewrite Ho; reflexivity|rewrite !app_nil_r; reflexivity].
    + intros i Hi _. logs. rewrite (I4 i Hi) by discriminate. rewrite nth_set_nth by lia. rewrite (Nat.eqb_sym k i). destruct (Nat.eqb_spec i k) as [->|]; [rewrite Ho; reflexivity|rewrite Nat.add_0_r; reflexivity].
    + split; [|intros [Hx|[j Hx]]; discriminate]. intros (i & Hi & Hx). rewrite heard_cons, app_nil_r in Hx.
      assert (Hc : Answer k = Cancelled \/ exists j, Answer k = Spread j) by (apply I7; eauto). destruct Hc as [Hc|[j Hc]]; discriminate.
    + intros i Hi. logs. destruct (I8 i Hi) as [-> ->]. destruct (Nat.eqb_spec k i); [lia|]. auto.
    + intros i Hi [Hx|(j & Hx & _)]; discriminate.
    + intros d. logs. unfold set_line. destruct (Nat.eqb_spec d c) as [->|Hd].
      * intros Hr. destruct ok; [|congruence]. destruct Hl2 as (Hl2 & Hl3 & _). rewrite Nat.eqb_refl, Hl2, (I12 c) by congruence. rewrite Hl3. cbn. rewrite app_nil_r. reflexivity.
      * intros Hr. rewrite (I12 d Hr). apply not_eq_sym, Nat.eqb_neq in Hd. destruct ok; [rewrite Hd|]; rewrite app_nil_r; reflexivity.
    + intros k' c' g' [Hx|Hx].
      * assert (c' = c) as -> by congruence. assert (ok = false) as -> by congruence. unfold set_line. rewrite Nat.eqb_refl. exact Hl2.
      * apply I13 in Hx. unfold set_line. destruct (Nat.eqb_spec c' c) as [->|]; congruence.
  - (* Spread *)
    pose proof (I6 k eq_refl) as Hk.
    destruct (nth_error fs k) as [c|] eqn:Ek.
    2: { injection H as <-. apply nth_error_None in Ek. split; cbn [lines fields open at_ log]; try assumption; try discriminate.
      - intros i Hi. rewrite (I3 i Hi). replace (i <? k) with true by (symmetry; apply Nat.ltb_lt; lia). reflexivity.
      - intros i Hi _. rewrite (I4 i Hi) by discriminate. reflexivity.
      - rewrite I7. split; intros _; [left; reflexivity|right; exists k; reflexivity].
      - intros i Hi _. apply I11; [exact Hi|]. right. exists k. split; [reflexivity|lia].
      - intros d. destruct (drop_all_down fs ls d) as [-> ->]. apply I12.
      - intros i d g Hi. destruct (drop_all_down fs ls d) as [_ ->]. eauto. }
    pose proof (Hlen _ _ Ek) as Hk'.
    unfold send_down in H.
    assert (Hs : exists l ok, s' = State (set_line ls c l) fs os (Spread (S k)) (Told k c Cancel ok :: lg) /\
       (down_rx l = down_rx (ls c)) /\ (if ok then down l = Some Cancel /\ down (ls c) = None /\ down_rx l = true else down_rx l = false)).
    { destruct (down_rx (ls c)) eqn:Er.
      - destruct (down (ls c)); [discriminate|]. injection H as <-. eexists _, true. repeat split. 
      - injection H as <-. exists (ls c), false. repeat split; exact Er. }
    clear H. destruct Hs as (l & ok & -> & Hl1 & Hl2).
    split; cbn [lines fields open at_ log]; try assumption; try discriminate.
    + intros i Hi. logs. rewrite (I3 i Hi), <- app_assoc. f_equal. destruct (Nat.eqb_spec k i) as [->|Hne].
      * rewrite Nat.ltb_irrefl. replace (i <? S i) with true by (symmetry; apply Nat.ltb_lt; lia). reflexivity.
      * rewrite app_nil_r. destruct (Nat.ltb_spec i k), (Nat.ltb_spec i (S k)); try lia; reflexivity.
    + intros i Hi _. logs. rewrite (I4 i Hi) by discriminate. rewrite Nat.add_0_r. reflexivity.
    + intros j E. injection E as <-. lia.
    + split; [intros _; right; eauto|]. intros _. destruct I7 as [_ I7]. destruct I7 as (i & Hi & Hx); [eauto|]. exists i. split; [exact Hi|]. logs. exact Hx.
    + intros i Hi. logs. destruct (I8 i Hi) as [-> ->]. destruct (Nat.eqb_spec k i); [lia|]. auto.
    + intros i Hi [Hx|(j & Hx & Hl)]; [discriminate|]. injection Hx as <-. destruct (Nat.eq_dec i k) as [->|Hne].
      * exists ok. left. rewrite nth_of, Ek. reflexivity.
      * destruct (I11 i Hi) as [ok' Hok]; [right; exists k; split; [reflexivity|lia]|]. exists ok'. right. exact Hok.
    + intros d. logs. unfold set_line. destruct (Nat.eqb_spec d c) as [->|Hd].
      * intros Hr. destruct ok; [|congruence]. destruct Hl2 as (Hl2 & Hl3 & _). rewrite Nat.eqb_refl, Hl2, (I12 c) by congruence. rewrite Hl3. cbn. rewrite app_nil_r. reflexivity.
      * intros Hr. rewrite (I12 d Hr). apply not_eq_sym, Nat.eqb_neq in Hd. destruct ok; [rewrite Hd|]; rewrite app_nil_r; reflexivity.
    + intros k' c' g' [Hx|Hx].
      * assert (c' = c) as -> by congruence. assert (ok = false) as -> by congruence. unfold set_line. rewrite Nat.eqb_refl. exact Hl2.
      * apply I13 in Hx. unfold set_line. destruct (Nat.eqb_spec c' c) as [->|]; congruence.
Qed.

Lemma binv_run : forall n m s, run env (start n) m s -> binv n s.
Proof.
  intros n m s H. induction H; [apply binv_start|eapply binv_env; eauto|eapply binv_own; eauto].
Qed.

(** ** Safety

    For every number n of roles, every behaviour of the participants and every point of every execution.
    Ended normally: every field has heard exactly one Stop, no Cancel, and was answered Stop exactly once.
    Ended by the panic "Error": some field heard Cancel, every field was sent Cancel on its present line, once,
    and before it Stop exactly when it had sent Stop. Ended by the other panic: a field sent Stop twice, nobody was sent
    Cancel. A signal counts as lost only when the participant had dropped its receiver; otherwise the
    participant gets what was sent on its line, in order. *)
Theorem broadcast_outcome : forall n m s, run env (start n) m s ->
  (at_ s = Over -> forall k, k < n - 1 ->
     told k (log s) = [Stop] /\ stops k (log s) = 1 /\ ~ In Cancel (heard k (log s))) /\
  (at_ s = Cancelled ->
     (exists k, k < n - 1 /\ In Cancel (heard k (log s))) /\
     forall k, k < n - 1 ->
       (told k (log s) = [Cancel] /\ stops k (log s) = 0 \/ told k (log s) = [Stop; Cancel] /\ stops k (log s) = 1) /\
       exists c ok, nth_error (fields s) k = Some c /\ In (Told k c Cancel ok) (log s)) /\
  (at_ s = Twice -> (exists k, k < n - 1 /\ stops k (log s) = 2) /\ forall k, ~ In Cancel (told k (log s)) /\ ~ In Cancel (heard k (log s))) /\
  (forall k, length (filter is_stop (told k (log s))) <= stops k (log s)) /\
  (forall k c g, In (Told k c g false) (log s) -> down_rx (lines s c) = false) /\
  (forall c, down_rx (lines s c) = true -> delivered c (log s) = got c (log s) ++ opt (down (lines s c))).
Proof.
  intros n m s H. pose proof (binv_run n m s H) as I. destruct I as [I1 I2 I3 I4 I5 I6 I7 I8 I9 I10 I11 I12 I13].
  assert (Nc : at_ s <> Cancelled -> (forall j, at_ s <> Spread j) -> forall k, ~ In Cancel (told k (log s)) /\ ~ In Cancel (heard k (log s))).
  { intros H1 H2 k. destruct (Nat.lt_ge_cases k (n - 1)) as [Hk|Hk]; [|destruct (I8 k Hk) as [-> ->]; auto]. split.
    - rewrite (I3 k Hk). destruct (at_ s) eqn:Ea; try congruence; destruct (nth k (open s) false); cbn; intuition discriminate.
    - intros Hc. destruct I7 as [I7 _]. destruct I7 as [I7|[j I7]]; [eauto|congruence|]. exact (H2 j I7). }
  split; [|split; [|split; [|split; [|split]]]]; try assumption.
  - intros Ha k Hk. rewrite (I3 k Hk), (I4 k Hk) by congruence. rewrite Ha, (I9 Ha k). split; [reflexivity|]. split; [reflexivity|].
    apply Nc; [congruence|intros j; congruence].
  - intros Ha. split; [apply I7; auto|]. intros k Hk. split.
    + rewrite (I3 k Hk), (I4 k Hk) by congruence. rewrite Ha. destruct (nth k (open s) false); [left|right]; auto.
    + destruct (I11 k Hk) as [ok Hok]; [auto|]. assert (Hn : k < length (fields s)) by lia.
      destruct (nth_error (fields s) k) as [c|] eqn:Ec; [|apply nth_error_None in Ec; lia].
      exists c, ok. split; [reflexivity|]. rewrite nth_of, Ec in Hok. exact Hok.
  - intros Ha. split; [auto|]. apply Nc; [congruence|intros j; congruence].
  - intros k. destruct (Nat.lt_ge_cases k (n - 1)) as [Hk|Hk]; [|destruct (I8 k Hk) as [_ ->]; cbn; lia].
    assert (Hn : match at_ s with Twice => True | _ => length (filter is_stop (told k (log s))) <= stops k (log s) end).
    { rewrite (I3 k Hk). destruct (at_ s) eqn:Ea; try exact Logic.I; rewrite (I4 k Hk) by discriminate;
        destruct (nth k (open s) false); cbn [filter is_stop app length]; try lia;
        try (destruct (k <? _); cbn; lia). }
    destruct (at_ s) eqn:Ea; try exact Hn. clear Hn.
    rewrite (I3 k Hk).
    destruct (nth k (open s) false) eqn:Eo; cbn; [lia|].
    (* twice: the flag is down, so Stop was heard before *)
    clear - H Ea Eo Hk. revert Ea Eo. induction H as [|m s1 s2 H IH E|m s1 s2 H IH E]; intros Ea Eo.
    + discriminate.
    + destruct (env_shape _ _ E) as (_ & E2 & E3 & _ & E5 & _). unfold stops. rewrite E5. apply IH; congruence.
    + pose proof (binv_run _ _ _ H) as J. destruct s1 as [ls fs os p lg]. destruct p as [|j|j|j| | |]; cbn in E.
      * destruct (existsb id os); injection E as <-; discriminate.
      * destruct (nth_error fs j) as [c|]; [|injection E as <-; discriminate].
        destruct (up (ls c)) as [[| |d]|]; try (injection E as <-; discriminate).
        destruct (nth j os false); injection E as <-; [discriminate|]. cbn [open log] in *.
        rewrite stops_cons. pose proof (b_stops _ _ J k Hk) as Js. cbn [at_ log open] in Js. rewrite Js, Eo by discriminate. lia.
      * destruct (nth_error fs j) as [c|]; [|discriminate]. destruct (send_down Stop (ls c)) as [[l ok]|]; [injection E as <-|]; discriminate.
      * destruct (nth_error fs j) as [c|]; [|injection E as <-; discriminate]. destruct (send_down Cancel (ls c)) as [[l ok]|]; [injection E as <-|]; discriminate.
      * discriminate.
      * discriminate.
      * discriminate.
Qed.
Print Assumptions broadcast_outcome.

(** ** The broadcaster waits only for a live participant that has not yet read what it was sent *)
Definition waits_for_reader (s : state) : Prop :=
  exists k c g, (at_ s = Answer k \/ at_ s = Spread k) /\ nth_error (fields s) k = Some c /\
    down (lines s c) = Some g /\ down_rx (lines s c) = true.

Theorem broadcast_blocks_only_for_reader : forall n m s, run env (start n) m s -> bstep s = None ->
  running s = false \/ waits_for_reader s.
Proof.
  intros n m s H Hb. pose proof (binv_run _ _ _ H) as I. destruct s as [ls fs os p lg]. destruct p as [|k|k|k| | |]; cbn in *; auto.
  - destruct (existsb id os); discriminate.
  - destruct (nth_error fs k) as [c|]; [|discriminate]. destruct (up (ls c)) as [[| |d]|]; try discriminate. destruct (nth k os false); discriminate.
  - right. destruct (nth_error fs k) as [c|] eqn:Ec.
    + destruct (send_down Stop (ls c)) as [[l ok]|] eqn:Es; [discriminate|]. unfold send_down in Es.
      destruct (down_rx (ls c)) eqn:Er; [|discriminate]. destruct (down (ls c)) as [g|] eqn:Ed; [|discriminate].
      exists k, c, g. cbn. auto.
    + apply nth_error_None in Ec. destruct (b_answer _ _ I k eq_refl) as [Hk _]. pose proof (b_fs _ _ I). cbn in *. lia.
  - right. destruct (nth_error fs k) as [c|] eqn:Ec; [|discriminate].
    destruct (send_down Cancel (ls c)) as [[l ok]|] eqn:Es; [discriminate|]. unfold send_down in Es.
    destruct (down_rx (ls c)) eqn:Er; [|discriminate]. destruct (down (ls c)) as [g|] eqn:Ed; [|discriminate].
    exists k, c, g. cbn. auto.
Qed.
Print Assumptions broadcast_blocks_only_for_reader.

Lemma run_trans : forall (E : state -> state -> Prop) s m s1 m' s2, run E s m s1 -> run E s1 m' s2 -> run E s (m + m') s2.
Proof.
  intros E s m s1 m' s2 H H'. induction H'; [rewrite Nat.add_0_r; exact H|eapply REnv; eauto|rewrite Nat.add_succ_r; eapply ROwn; eauto].
Qed.
Lemma run_weaken : forall (E E' : state -> state -> Prop), (forall a b, E a b -> E' a b) -> forall s m s', run E s m s' -> run E' s m s'.
Proof. intros E E' H s m s' R. induction R; [apply RStart|eapply REnv; eauto|eapply ROwn; eauto]. Qed.

(** ** A Cancel sent by a participant that has not closed is spread *)

Definition pend (L k : nat) (s : state) : Prop :=
  length (fields s) = L /\
  match at_ s with
  | Spread _ | Cancelled | Twice => True
  | Over => False
  | p => p <> Answer k /\ nth k (open s) false = true /\
         exists c, nth_error (fields s) k = Some c /\ up (lines s c) = Some Cancel
  end.
Definition left (L k : nat) (p : place) : nat :=
  let test := 2 * k + 2 + (L + 1) in
  let poll j := if j <=? k then 2 * (k - j) + 1 + (L + 1) else 2 * (L - j) + 1 + test in
  match p with
  | Test => test | Poll j => poll j | Answer j => S (poll (S j)) | Spread j => (L - j) + 1
  | Over | Cancelled | Twice => 0
  end.

Lemma existsb_nth_true : forall os k, nth k os false = true -> existsb id os = true.
Proof.
  intros os k H. apply existsb_exists. exists true. split; [|reflexivity].
  rewrite <- H. apply nth_In. destruct (Nat.lt_ge_cases k (length os)); [assumption|]. rewrite nth_overflow in H by assumption. discriminate.
Qed.

Lemma env_up : forall s s', env s s' -> forall c g, In c (fields s) -> up (lines s c) = Some g -> up (lines s' c) = Some g.
Proof.
  intros s s' E c g Hc Hu. destruct E as [s s' E|ls fs os p lg d e G1 G2 G3 G4|ls fs os p lg d G1];
    [destruct E as [ls fs os p lg d e G1 G2|ls fs os p lg d|ls fs os p lg d]|..]; cbn in *;
    unfold set_line; destruct (Nat.eqb_spec c d) as [->|]; cbn; congruence || contradiction.
Qed.
Lemma pend_env : forall L k s s', pend L k s -> env s s' -> pend L k s' /\ at_ s' = at_ s.
Proof.
  intros L k s s' [H1 H2] E. destruct (env_shape _ _ E) as (E1 & E2 & E3 & _). split; [|exact E3].
  unfold pend. rewrite E1, E2, E3. split; [exact H1|].
  assert (Hup : forall c, nth_error (fields s) k = Some c -> up (lines s c) = Some Cancel -> up (lines s' c) = Some Cancel).
  { intros c Hc. apply (env_up _ _ E). eapply nth_error_In; eauto. }
  destruct (at_ s); auto; destruct H2 as (H2 & H3 & c & H4 & H5); split; auto; split; auto; exists c; auto.
Qed.
Lemma pend_own : forall L k s s', pend L k s -> bstep s = Some s' -> pend L k s' /\ left L k (at_ s') < left L k (at_ s).
Proof.
  intros L k [ls fs os p lg] s' [H1 H2] E. cbn [lines fields open at_ log] in *.
  destruct p as [|j|j|j| | |]; cbn in E; try discriminate.
  - destruct H2 as (H2 & H3 & c & H4 & H5). rewrite (existsb_nth_true _ _ H3) in E. injection E as <-. split.
    + split; [exact H1|]. cbn. split; [discriminate|]. eauto.
    + cbn. lia.
  - destruct H2 as (H2 & H3 & c & H4 & H5). assert (Hk : k < L) by (rewrite <- H1; apply nth_error_Some; congruence).
    assert (Lp : j < L -> left L k (Poll (S j)) < left L k (Poll j) \/ j = k).
    { intros. cbn [left]. destruct (Nat.leb_spec (S j) k), (Nat.leb_spec j k); lia. }
    assert (Lp2 : j < L -> S (left L k (Poll (S j))) < left L k (Poll j) \/ j = k).
    { intros. cbn [left]. destruct (Nat.leb_spec (S j) k), (Nat.leb_spec j k); lia. }
    destruct (nth_error fs j) as [d|] eqn:Ej.
    + assert (Hj : j < L) by (rewrite <- H1; apply nth_error_Some; congruence).
      destruct (up (ls d)) as [[| |e]|] eqn:Eu.
      * assert (Hne : j <> k) by (intros ->; congruence). assert (Hcd : c <> d) by congruence. destruct (nth j os false) eqn:Eo; injection E as <-.
        -- split; [|cbn [at_ left] in *; destruct (Lp2 Hj); [lia|contradiction]]. split; [exact H1|]. cbn. split; [congruence|]. split; [exact H3|].
           exists c. split; [exact H4|]. unfold set_line. destruct (Nat.eqb_spec c d); [contradiction|exact H5].
        -- split; [split; [exact H1|exact Logic.I]|]. cbn. destruct (j <=? k); lia.
      * injection E as <-. split; [split; [exact H1|exact Logic.I]|]. cbn. destruct (j <=? k); lia.
      * assert (Hne : j <> k) by (intros ->; congruence). assert (Hcd : c <> d) by congruence. injection E as <-. split.
        -- split; [cbn; rewrite set_nth_length; exact H1|]. cbn. split; [discriminate|]. split; [exact H3|]. exists c. split.
           ++ rewrite nth_error_set_nth. apply not_eq_sym, Nat.eqb_neq in Hne. rewrite Hne. exact H4.
           ++ unfold set_line. destruct (Nat.eqb_spec c d); [contradiction|exact H5].
        -- cbn [at_]. destruct (Lp Hj); [assumption|contradiction].
      * assert (Hne : j <> k) by (intros ->; congruence). injection E as <-. split.
        -- split; [exact H1|]. cbn. split; [discriminate|]. eauto.
        -- cbn [at_]. destruct (Lp Hj); [assumption|contradiction].
    + apply nth_error_None in Ej. injection E as <-. split.
      * split; [exact H1|]. cbn. split; [discriminate|]. eauto.
      * cbn. destruct (Nat.leb_spec j k); lia.
  - destruct H2 as (H2 & H3 & c & H4 & H5). assert (Hne : j <> k) by congruence.
    destruct (nth_error fs j) as [d|] eqn:Ej; [|discriminate].
    destruct (send_down Stop (ls d)) as [[l ok]|] eqn:Es; [|discriminate]. injection E as <-.
    assert (Hl : up l = up (ls d)).
    { unfold send_down in Es. destruct (down_rx (ls d)); [destruct (down (ls d)); [discriminate|]|]; injection Es as <- <-; reflexivity. }
    split; [|cbn; lia]. split; [exact H1|]. cbn. split; [discriminate|]. split.
    + assert (Hn : nth k (set_nth j false os) false = nth k os false); [|congruence].
      rewrite !nth_of, nth_error_set_nth. apply not_eq_sym, Nat.eqb_neq in Hne. rewrite Hne. reflexivity.
    + exists c. split; [exact H4|]. unfold set_line. destruct (Nat.eqb_spec c d) as [->|]; congruence.
  - destruct (nth_error fs j) as [d|] eqn:Ej.
    + assert (Hj : j < L) by (rewrite <- H1; apply nth_error_Some; congruence).
      destruct (send_down Cancel (ls d)) as [[l ok]|] eqn:Es; [|discriminate]. injection E as <-.
      split; [split; [exact H1|exact Logic.I]|]. cbn. lia.
    + injection E as <-. split; [split; [exact H1|exact Logic.I]|]. cbn. lia.
Qed.

Lemma pend_run : forall L k s m s', pend L k s -> run env s m s' -> pend L k s' /\ m + left L k (at_ s') <= left L k (at_ s).
Proof.
  intros L k s m s' H R. induction R as [|m s1 s2 R [IH1 IH2] E|m s1 s2 R [IH1 IH2] E].
  - split; [exact H|lia].
  - destruct (pend_env _ _ _ _ IH1 E) as [P1 P2]. rewrite P2. auto.
  - destruct (pend_own _ _ _ _ IH1 E) as [P1 P2]. split; [exact P1|lia].
Qed.

(** From any reachable state in which a participant that has not closed has put Cancel on its line: whatever
    everybody else does, the broadcaster does fewer than 5n more steps, and if it cannot step any more, it has
    panicked - with every participant told, see [broadcast_outcome], or because somebody sent Stop twice - or
    a live participant has yet to read the answer to its Stop. *)
Theorem cancel_is_spread : forall n m0 s k c m s',
  run env (start n) m0 s -> running s = true ->
  nth_error (fields s) k = Some c -> up (lines s c) = Some Cancel -> nth k (open s) false = true -> at_ s <> Answer k ->
  run env s m s' ->
  m < 5 * n /\
  (bstep s' = None -> at_ s' = Cancelled \/ at_ s' = Twice \/ waits_for_reader s').
Proof.
  intros n m0 s k c m s' R Hr Hf Hu Ho Ha R'. pose proof (binv_run _ _ _ R) as I.
  assert (HL : length (fields s) = n - 1) by apply (b_fs _ _ I).
  assert (Hk : k < n - 1) by (rewrite <- HL; apply nth_error_Some; congruence).
  assert (P : pend (n - 1) k s).
  { split; [exact HL|]. unfold running in Hr. destruct (at_ s); try discriminate; try exact Logic.I; (split; [congruence|]); split; eauto. }
  destruct (pend_run _ _ _ _ _ P R') as [P1 P2]. split.
  - assert (left (n - 1) k (at_ s) < 5 * n); [|lia]. destruct (at_ s) as [|j|j|j| | |]; cbn [left]; try lia.
    + destruct (j <=? k); lia.
    + destruct (S j <=? k); lia.
  - intros Hb. destruct (broadcast_blocks_only_for_reader n _ _ (run_trans _ _ _ _ _ _ R R') Hb) as [Hx|Hx]; [|auto].
    unfold running in Hx. destruct P1 as [_ P1]. destruct (at_ s'); auto; try discriminate. contradiction.
Qed.
Print Assumptions cancel_is_spread.

(** ** Everybody sends Stop, perhaps after replacement lines: the broadcaster ends normally *)

(** On line c waits Stop, or the offer of a line on which, after further offers, Stop waits; the list gives
    the lines on the way. *)
Inductive leads (ls : nat -> line) : nat -> list nat -> Prop :=
| LStop c : up (ls c) = Some Stop -> leads ls c [c]
| LOffer c d l : up (ls c) = Some (Offer d) -> leads ls d l -> leads ls c (c :: l).

(** Every participant has either been answered (and its line is silent), or is being answered, or its line
    leads to Stop. The lines on the ways are different ones. *)
Record stopping (s : state) (ps : list (list nat)) : Prop := {
  s_len : length ps = length (fields s) /\ length (open s) = length (fields s);
  s_way : forall k c, nth_error (fields s) k = Some c ->
    match nth k ps [] with
    | [] => up (lines s c) = None /\ (nth k (open s) false = false \/ at_ s = Answer k)
    | w => leads (lines s) c w /\ nth k (open s) false = true /\ at_ s <> Answer k
    end;
  s_diff : NoDup (concat ps);
  s_at : match at_ s with Test | Poll _ | Over => True | Answer k => k < length (fields s) /\ nth k (open s) false = true | _ => False end;
  s_over : at_ s = Over -> forall k, nth k (open s) false = false
}.

Lemma leads_ext : forall ls ls' c w, (forall d, In d w -> up (ls' d) = up (ls d)) -> leads ls c w -> leads ls' c w.
Proof.
  intros ls ls' c w H L. induction L as [c Hu|c d l Hu L IH].
  - apply LStop. rewrite H; [exact Hu|left; reflexivity].
  - apply (LOffer _ _ d). { rewrite H; [exact Hu|left; reflexivity]. } apply IH. intros e He. apply H. right; exact He.
Qed.
Lemma leads_head : forall ls c w, leads ls c w -> exists w', w = c :: w'.
Proof. intros ls c w L. destruct L; eauto. Qed.

Lemma in_way : forall (ps : list (list nat)) k d, In d (nth k ps []) -> In d (concat ps).
Proof.
  intros ps k d H. apply in_concat. exists (nth k ps []). split; [|exact H]. apply nth_In.
  destruct (Nat.lt_ge_cases k (length ps)); [assumption|]. rewrite nth_overflow in H by assumption. destruct H.
Qed.
Lemma NoDup_parts : forall A (a b : list A), NoDup (a ++ b) -> NoDup b /\ forall x, In x a -> ~ In x b.
Proof.
  induction a as [|y a IH]; intros b H; cbn in H; [split; [exact H|intros x []]|]. inversion H as [|? ? H1 H2]; subst.
  destruct (IH b H2) as [H3 H4]. split; [exact H3|]. intros x [<-|Hx] Hb; [apply H1, in_or_app; auto|exact (H4 x Hx Hb)].
Qed.
Lemma ways_apart : forall (ps : list (list nat)) i j d, NoDup (concat ps) -> i <> j -> In d (nth i ps []) -> ~ In d (nth j ps []).
Proof.
  induction ps as [|p ps IH]; intros i j d N Hij Hi Hj; [destruct i; destruct Hi|]. cbn in N.
  destruct (NoDup_parts _ _ _ N) as [N1 N2].
  destruct i as [|i], j as [|j]; cbn in Hi, Hj; [congruence|exact (N2 d Hi (in_way _ _ _ Hj))|exact (N2 d Hj (in_way _ _ _ Hi))|refine (IH i j d N1 _ Hi Hj); congruence].
Qed.
(** The way of field k loses its first line. *)
Lemma step_way : forall (ps : list (list nat)) k c w, nth k ps [] = c :: w ->
  length (set_nth k w ps) = length ps /\ S (length (concat (set_nth k w ps))) = length (concat ps) /\
  (NoDup (concat ps) -> NoDup (concat (set_nth k w ps)) /\ ~ In c w) /\
  concat (skipn (S k) (set_nth k w ps)) = concat (skipn (S k) ps).
Proof.
  intros ps k c w H. split; [apply set_nth_length|]. revert k H. induction ps as [|p ps IH]; intros k H; [destruct k; discriminate|].
  destruct k as [|k]; cbn in H.
  - subst p. cbn. split; [reflexivity|]. split; [|reflexivity]. intros N. inversion N as [|? ? N1 N2]. split; [exact N2|].
    intros Hc. apply N1, in_or_app. auto.
  - destruct (IH k H) as (I1 & I2 & I3).
    change (set_nth (S k) w (p :: ps)) with (p :: set_nth k w ps). cbn [concat]. split; [|split].
    + rewrite !app_length. lia.
    + intros N. destruct (NoDup_parts _ _ _ N) as [N1 N2]. destruct (I2 N1) as [J1 J2]. split; [|exact J2].
      assert (Hp : NoDup p) by (clear - N; induction p as [|x p IHp]; [constructor|]; cbn in N; inversion N as [|? ? K1 K2]; constructor; [intros Hx; apply K1, in_or_app; auto|auto]).
      assert (Hsub : forall x, In x (concat (set_nth k w ps)) -> In x (concat ps)).
      { clear - H. revert k H. induction ps as [|q ps IHp]; intros k H x; [destruct k; discriminate|]. destruct k as [|k]; cbn in H.
        - subst q. change (set_nth 0 w ((c :: w) :: ps)) with (w :: ps). cbn. auto.
        - change (set_nth (S k) w (q :: ps)) with (q :: set_nth k w ps). cbn. rewrite !in_app_iff. intros [Hx|Hx]; [auto|right; eapply IHp; eauto]. }
      clear - Hp J1 N2 Hsub. induction p as [|x p IHp]; [exact J1|]. cbn. inversion Hp; subst. constructor.
      * rewrite in_app_iff. intros [Hx|Hx]; [contradiction|]. apply (N2 x); [left; reflexivity|auto].
      * apply IHp; try assumption. intros y Hy. apply N2. right; exact Hy.
    + exact I3.
Qed.

Definition budget (L W : nat) (ahead : bool) (p : place) : nat :=
  let poll j := if ahead then (2 * L + 3) * (W - 1) + 2 * (L - j) + 3 else (2 * L + 3) * W + 2 * (L - j) + 2 in
  match p with
  | Test => (2 * L + 3) * W + 1
  | Poll j => poll j
  | Answer j => S (poll (S j))
  | _ => 0
  end.
Definition ahead (ps : list (list nat)) (p : place) : bool :=
  match p with
  | Poll j => negb (length (concat (skipn j ps)) =? 0)
  | Answer j => negb (length (concat (skipn (S j) ps)) =? 0)
  | _ => false
  end.
Definition todo (s : state) (ps : list (list nat)) : nat :=
  budget (length (fields s)) (length (concat ps)) (ahead ps (at_ s)) (at_ s).

Lemma quiet_shape : forall s s', quiet s s' ->
  fields s' = fields s /\ open s' = open s /\ at_ s' = at_ s /\ forall c, up (lines s' c) = up (lines s c).
Proof.
  intros s s' H. destruct H; cbn; repeat (split; [reflexivity|]); intros d; unfold set_line; destruct (Nat.eqb_spec d c) as [->|]; reflexivity.
Qed.
Lemma stopping_quiet : forall s s' ps, stopping s ps -> quiet s s' -> stopping s' ps /\ todo s' ps = todo s ps.
Proof.
  intros s s' ps S E. destruct (quiet_shape _ _ E) as (E1 & E2 & E3 & E4). split; [|unfold todo; rewrite E1, E3; reflexivity].
  destruct S as [S1 S2 S3 S4 S5]. split; rewrite ?E1, ?E2, ?E3; try assumption.
  intros k c Hc. specialize (S2 k c Hc). destruct (nth k ps []); [rewrite E4; exact S2|]. destruct S2 as [S2 S6]. split; [|exact S6].
  eapply leads_ext; [|exact S2]. auto.
Qed.

Lemma skipn_le : forall (ps : list (list nat)) j, length (concat (skipn j ps)) <= length (concat ps).
Proof. intros ps j. rewrite <- (firstn_skipn j ps) at 2. rewrite concat_app, app_length. lia. Qed.
Lemma skipn_nth : forall (ps : list (list nat)) j, concat (skipn j ps) = nth j ps [] ++ concat (skipn (S j) ps).
Proof. induction ps as [|p ps IH]; intros [|j]; try reflexivity. cbn [skipn nth]. rewrite (IH j). destruct ps; reflexivity. Qed.
Lemma way_length : forall (ps : list (list nat)) k, length (nth k ps []) <= length (concat ps).
Proof. intros ps k. pose proof (skipn_le ps k) as H. rewrite (skipn_nth ps k), app_length in H. lia. Qed.

Lemma stopping_own : forall s s' ps, stopping s ps -> bstep s = Some s' ->
  exists ps', stopping s' ps' /\ todo s' ps' < todo s ps.
Proof.
  intros [ls fs os p lg] s' ps I E. destruct I as [[I1 I1'] I2 I3 I4 I5]. unfold todo. cbn [lines fields open at_ log] in *.
  destruct p as [|j|j|j| | |]; cbn in E; try discriminate; try contradiction.
  - (* Test *)
    destruct (existsb id os) eqn:Eo; injection E as <-; exists ps.
    + split.
      * split; cbn; auto; try discriminate. intros k c Hc. specialize (I2 k c Hc). destruct (nth k ps []); [destruct I2 as [I2 [I6|I6]]; [auto|discriminate]|].
        destruct I2 as (I2 & I6 & _). repeat split; auto; discriminate.
      * cbn [lines fields open at_ log ahead skipn]. apply existsb_exists in Eo as (b & Hb & Hid). cbv [id] in Hid. subst b.
        destruct (In_nth_error _ _ Hb) as [k Hk]. assert (Hl : k < length os) by (apply nth_error_Some; congruence).
        destruct (nth_error fs k) as [c|] eqn:Ec; [|apply nth_error_None in Ec; lia]. specialize (I2 k c Ec).
        pose proof (way_length ps k) as Hw. destruct (nth k ps []) as [|w0 w].
        { destruct I2 as [_ [I2|I2]]; [|discriminate]. rewrite nth_of, Hk in I2. discriminate. }
        cbn [length] in Hw. destruct (Nat.eqb_spec (length (concat ps)) 0) as [Hz|Hz]; [lia|]. cbn [negb budget].
        destruct (length (concat ps)) as [|W]; [lia|]. replace (S W - 1) with W by lia. rewrite Nat.sub_0_r. lia.
    + split.
      * split; cbn; auto; try discriminate; [|intros _; apply existsb_false_nth; exact Eo].
        intros k c Hc. specialize (I2 k c Hc). pose proof (existsb_false_nth _ Eo k) as Hf.
        destruct (nth k ps []) as [|w0 w]; [|destruct I2 as (_ & I2 & _); congruence].
        split; [|auto]. unfold drop_all. destruct (existsb (Nat.eqb c) fs); [reflexivity|tauto].
      * cbn [at_ budget fields]. lia.
  - (* Poll *)
    destruct (nth_error fs j) as [c|] eqn:Ej.
    2: { injection E as <-. exists ps. apply nth_error_None in Ej. split.
      - split; cbn; auto; try discriminate. intros k c Hc. specialize (I2 k c Hc). destruct (nth k ps []); [destruct I2 as [I2 [I6|I6]]; [auto|discriminate]|].
        destruct I2 as (I2 & I6 & _). repeat split; auto; discriminate.
      - cbn [lines fields open at_ log ahead]. rewrite skipn_all2 by lia. cbn [concat length Nat.eqb negb budget]. lia. }
    assert (Hj : j < length fs) by (apply nth_error_Some; congruence).
    pose proof (I2 j c Ej) as Ij. destruct (nth j ps []) as [|w0 w] eqn:Ew.
    + (* silent *)
      destruct Ij as [Iu Io]. rewrite Iu in E. injection E as <-. exists ps. split.
      * split; cbn; auto; try discriminate. intros k d Hd. specialize (I2 k d Hd). destruct (nth k ps []); [destruct I2 as [I2 [I6|I6]]; [auto|discriminate]|].
        destruct I2 as (I2 & I6 & _). repeat split; auto; discriminate.
      * cbn [lines fields open at_ log ahead]. rewrite (skipn_nth ps j), Ew. cbn [app]. 
        destruct (length (concat (skipn (S j) ps)) =? 0); cbn [negb budget]; lia.
    + destruct Ij as (Il & Io & _).
      destruct (step_way ps j w0 w Ew) as (W1 & W2 & W3 & W4). destruct (W3 I3) as [W5 W6].
      assert (Hw : nth j (set_nth j w ps) [] = w) by (rewrite nth_set_nth by lia; rewrite Nat.eqb_refl; reflexivity).
      assert (Ho : forall k, k <> j -> nth k (set_nth j w ps) [] = nth k ps []).
      { intros k Hk. rewrite nth_set_nth by lia. apply Nat.eqb_neq in Hk. rewrite Hk. reflexivity. }
      assert (Hc0 : w0 = c) by (destruct (leads_head _ _ _ Il) as [? Hx]; congruence). subst w0.
      assert (Hother : forall l k d, k <> j -> nth_error fs k = Some d -> up l = None ->
         match nth k ps [] with
         | [] => up (set_line ls c l d) = None /\ nth k os false = false
         | w' => leads (set_line ls c l) d w' /\ nth k os false = true
         end).
      { intros l k d Hk Hd Hu. specialize (I2 k d Hd). destruct (nth k ps []) as [|v0 v] eqn:Ev.
        - destruct I2 as [I2 [I6|I6]]; [|discriminate]. split; [|exact I6]. unfold set_line. destruct (d =? c); assumption.
        - destruct I2 as (I2 & I6 & _). split; [|exact I6]. eapply leads_ext; [|exact I2].
          intros e He. unfold set_line. destruct (Nat.eqb_spec e c) as [->|]; [|reflexivity]. exfalso.
          rewrite <- Ev in He. apply (ways_apart ps j k c I3); [auto|rewrite Ew; left; reflexivity|exact He]. }
      destruct (up (ls c)) as [[| |d]|] eqn:Eu.
      * (* Stop *)
        rewrite Io in E. injection E as <-. assert (w = []) as -> by (inversion Il; congruence).
        exists (set_nth j [] ps). split.
        -- split; cbn [lines fields open at_ log]; try discriminate; [lia| |exact W5|auto].
           intros k d Hd. destruct (Nat.eq_dec k j) as [->|Hk].
           ++ rewrite Hw. assert (d = c) as -> by congruence. split; [|auto]. unfold set_line. rewrite Nat.eqb_refl. reflexivity.
           ++ rewrite (Ho k Hk). specialize (Hother (take_up (ls c)) k d Hk Hd eq_refl). destruct (nth k ps []); [tauto|]. destruct Hother. repeat split; auto; congruence.
        -- cbn [lines fields open at_ log ahead]. rewrite W4, (skipn_nth ps j), Ew.
           replace (length ([c] ++ concat (skipn (S j) ps)) =? 0) with false by reflexivity. cbn [negb].
           rewrite <- W2. set (V := length (concat (set_nth j [] ps))). 
           destruct (Nat.eqb_spec (length (concat (skipn (S j) ps))) 0) as [Hz|Hz]; cbn [negb budget].
           ++ replace (S V - 1) with V by lia. lia.
           ++ assert (HV : 0 < V) by (unfold V; pose proof (skipn_le (set_nth j [] ps) (S j)); rewrite W4 in *; lia).
              destruct V as [|V]; [lia|]. replace (S V - 1) with V by lia. replace (S (S V) - 1) with (S V) by lia. lia.
      * exfalso. inversion Il; congruence.
      * (* Offer *)
        injection E as <-. exists (set_nth j w ps).
        assert (Ld : leads ls d w) by (inversion Il; subst; congruence).
        split.
        -- split; cbn [lines fields open at_ log]; try discriminate; [rewrite !set_nth_length; lia| |exact W5|exact Logic.I].
           intros k e He. rewrite nth_error_set_nth in He. destruct (Nat.eq_dec k j) as [->|Hk].
           ++ rewrite Nat.eqb_refl in He. replace (j <? length fs) with true in He by (symmetry; apply Nat.ltb_lt; exact Hj). cbn in He. injection He as <-.
              rewrite Hw. assert (Ld' : leads (set_line ls c (drop_held (ls c))) d w).
              { eapply leads_ext; [|exact Ld]. intros e He. unfold set_line. destruct (Nat.eqb_spec e c) as [->|]; [contradiction|reflexivity]. }
              destruct w; [inversion Ld'|]. split; [exact Ld'|]. split; [exact Io|discriminate].
           ++ assert (Hk' := Hk). apply Nat.eqb_neq in Hk'. rewrite Hk' in He. cbn in He.
              rewrite (Ho k Hk). specialize (Hother (drop_held (ls c)) k e Hk He eq_refl). destruct (nth k ps []); [tauto|]. destruct Hother. repeat split; auto; congruence.
        -- cbn [lines fields open at_ log ahead]. rewrite set_nth_length, W4, (skipn_nth ps j), Ew.
           replace (length ((c :: w) ++ concat (skipn (S j) ps)) =? 0) with false by reflexivity. cbn [negb].
           rewrite <- W2. set (V := length (concat (set_nth j w ps))). 
           destruct (Nat.eqb_spec (length (concat (skipn (S j) ps))) 0) as [Hz|Hz]; cbn [negb budget].
           ++ replace (S V - 1) with V by lia. lia.
           ++ assert (HV : 0 < V) by (unfold V; pose proof (skipn_le (set_nth j w ps) (S j)); rewrite W4 in *; lia).
              destruct V as [|V]; [lia|]. replace (S V - 1) with V by lia. replace (S (S V) - 1) with (S V) by lia. lia.
      * exfalso. inversion Il; congruence.
  - (* Answer *)
    destruct I4 as [Hj Ho].
    destruct (nth_error fs j) as [c|] eqn:Ej; [|discriminate].
    destruct (send_down Stop (ls c)) as [[l ok]|] eqn:Es; [|discriminate]. injection E as <-.
    assert (Hl : forall d, up (set_line ls c l d) = up (ls d)).
    { intros d. unfold set_line. destruct (Nat.eqb_spec d c) as [->|]; [|reflexivity].
      unfold send_down in Es. destruct (down_rx (ls c)); [destruct (down (ls c)); [discriminate|]|]; injection Es as <- <-; reflexivity. }
    exists ps. split.
    + split; cbn [lines fields open at_ log]; try discriminate; [rewrite set_nth_length; lia| |exact I3|exact Logic.I].
      intros k d Hd. specialize (I2 k d Hd). rewrite nth_set_nth by lia. destruct (nth k ps []).
      * destruct I2 as [I2 I6]. rewrite Hl. split; [exact I2|]. left. destruct (Nat.eqb_spec k j) as [->|Hk]; [reflexivity|].
        destruct I6 as [I6|I6]; [exact I6|congruence].
      * destruct I2 as (I2 & I6 & I7). assert (Hk : k <> j) by congruence. apply Nat.eqb_neq in Hk. rewrite Hk. split; [|split; [exact I6|discriminate]].
        eapply leads_ext; [|exact I2]. auto.
    + cbn [lines fields open at_ log ahead budget]. lia.
Qed.

Lemma stopping_run : forall s ps m s', stopping s ps -> run quiet s m s' ->
  exists ps', stopping s' ps' /\ m + todo s' ps' <= todo s ps.
Proof.
  intros s ps m s' H R. induction R as [|m s1 s2 R (ps' & IH1 & IH2) E|m s1 s2 R (ps' & IH1 & IH2) E].
  - exists ps. split; [exact H|lia].
  - destruct (stopping_quiet _ _ _ IH1 E) as [P1 P2]. exists ps'. split; [exact P1|lia].
  - destruct (stopping_own _ _ _ IH1 E) as (ps2 & P1 & P2). exists ps2. split; [exact P1|lia].
Qed.

(** From any reachable state in which everybody who has not been answered has sent Stop, perhaps after replacing its line any
    number of times, and participants only read or leave from now on: the broadcaster does a bounded number of steps, and when it
    cannot step any more it has ended normally - so every participant was answered Stop exactly once, see
    [broadcast_outcome] - or a live participant has yet to read the answer. *)
Theorem all_stop_ends_normally : forall n m0 s ps m s',
  run env (start n) m0 s -> stopping s ps -> run quiet s m s' ->
  m <= (2 * n + 1) * (length (concat ps) + 1) /\
  (bstep s' = None -> at_ s' = Over \/ waits_for_reader s').
Proof.
  intros n m0 s ps m s' R H R'. pose proof (b_fs _ _ (binv_run _ _ _ R)) as HL.
  destruct (stopping_run _ _ _ _ H R') as (ps' & P1 & P2). split.
  - assert (Ht : todo s ps <= (2 * (n - 1) + 3) * length (concat ps) + 2 * (n - 1) + 3).
    { unfold todo. rewrite HL. assert (Hm : (2 * (n - 1) + 3) * (length (concat ps) - 1) <= (2 * (n - 1) + 3) * length (concat ps)) by (apply Nat.mul_le_mono_l; lia).
      pose proof (s_at _ _ H) as Ha. rewrite HL in Ha. destruct (at_ s) as [|j|j|j| | |]; cbn [budget]; try lia; destruct (ahead _ _); lia. }
    destruct n as [|n]; [|replace (2 * (S n - 1) + 3) with (2 * S n + 1) in Ht by lia; lia].
    (* no role at all: no field *)
    cbn in HL. destruct ps as [|? ?]; [cbn in *|destruct (s_len _ _ H) as [Hps _]; rewrite HL in Hps; discriminate].
    assert (Hn : fields s = []) by (destruct (fields s); [reflexivity|discriminate]).
    unfold todo in P2. rewrite Hn in P2. clear - R R' P2 Hn H. 
    assert (Hnp : forall m s', run env (start 0) m s' -> m <= 1).
    { intros m1 s1 Hr. assert (Hx : fields s1 = [] /\ open s1 = [] /\ (at_ s1 = Test /\ m1 = 0 \/ at_ s1 = Over /\ m1 = 1)).
      { induction Hr as [|? ? ? Hr IH E|? ? ? Hr IH E]; [cbn; auto| |].
        - destruct (env_shape _ _ E) as (E1 & E2 & E3 & _). rewrite E1, E2, E3. exact IH.
        - destruct s1 as [? ? ? ? ?]; cbn in *. destruct IH as (-> & -> & [[-> ->]|[-> ->]]); cbn in E; [injection E as <-|discriminate]. cbn; auto. }
      destruct Hx as (_ & _ & [[_ ->]|[_ ->]]); lia. }
    pose proof (Hnp _ _ (run_trans _ _ _ _ _ _ R (run_weaken _ _ EQuiet _ _ _ R'))). lia.
  - intros Hb. pose proof (run_trans _ _ _ _ _ _ R (run_weaken _ _ EQuiet _ _ _ R')) as RR.
    destruct (broadcast_blocks_only_for_reader n _ _ RR Hb) as [Hx|Hx]; [|auto].
    unfold running in Hx. pose proof (s_at _ _ P1) as Ha. destruct (at_ s'); auto; try discriminate; contradiction.
Qed.
Print Assumptions all_stop_ends_normally.

(** ** A participant that dies silently *)

Definition vanished (k : nat) (s : state) : Prop :=
  exists c, nth_error (fields s) k = Some c /\ up (lines s c) = None /\ up_tx (lines s c) = false /\
    nth k (open s) false = true /\ at_ s <> Answer k /\ at_ s <> Over.

Lemma env_vanished : forall s s' c, env s s' -> up (lines s c) = None -> up_tx (lines s c) = false ->
  up (lines s' c) = None /\ up_tx (lines s' c) = false.
Proof.
  intros s s' c E H1 H2. destruct E as [s s' E|ls fs os p lg d e G1 G2 G3 G4|ls fs os p lg d G1];
    [destruct E as [ls fs os p lg d e G1 G2|ls fs os p lg d|ls fs os p lg d]|..]; cbn in *;
    unfold set_line; destruct (Nat.eqb_spec c d) as [->|]; cbn; auto; congruence.
Qed.
Lemma take_up_vanished : forall ls c d, up (ls d) = None -> up_tx (ls d) = false ->
  (up (set_line ls c (take_up (ls c)) d) = None /\ up_tx (set_line ls c (take_up (ls c)) d) = false) /\
  (up (set_line ls c (drop_held (ls c)) d) = None /\ up_tx (set_line ls c (drop_held (ls c)) d) = false).
Proof. intros ls c d H1 H2. unfold set_line. destruct (Nat.eqb_spec d c) as [->|]; cbn; auto. Qed.
Lemma send_vanished : forall ls c d g l ok, send_down g (ls c) = Some (l, ok) -> up (ls d) = None -> up_tx (ls d) = false ->
  up (set_line ls c l d) = None /\ up_tx (set_line ls c l d) = false.
Proof.
  intros ls c d g l ok Es H1 H2. unfold set_line. destruct (Nat.eqb_spec d c) as [->|]; [|auto]. unfold send_down in Es.
  destruct (down_rx (ls c)); [destruct (down (ls c)); [discriminate|]|]; injection Es as <- <-; auto.
Qed.
Lemma drop_vanished : forall fs ls d, up (ls d) = None -> up_tx (ls d) = false ->
  up (drop_all fs ls d) = None /\ up_tx (drop_all fs ls d) = false.
Proof. intros fs ls d H1 H2. unfold drop_all. destruct (existsb (Nat.eqb d) fs); auto. Qed.

Lemma vanished_run : forall k s m s', vanished k s -> run env s m s' -> vanished k s'.
Proof.
  intros k s m s' H R. induction R as [|m s1 s2 R IH E|m s1 s2 R IH E]; [exact H| |]; destruct IH as (c & H1 & H2 & H3 & H4 & H5 & H6).
  - destruct (env_shape _ _ E) as (E1 & E2 & E3 & _). exists c. rewrite E1, E2, E3. destruct (env_vanished _ _ _ E H2 H3). repeat split; assumption.
  - clear H. destruct s1 as [ls fs os p lg]. cbn [lines fields open at_ log] in *. destruct p as [|j|j|j| | |]; cbn in E; try discriminate.
    + rewrite (existsb_nth_true _ _ H4) in E. injection E as <-. exists c. cbn. repeat split; auto; discriminate.
    + destruct (nth_error fs j) as [d|] eqn:Ej; [|injection E as <-; exists c; cbn; repeat split; auto; discriminate].
      destruct (take_up_vanished ls d c H2 H3) as [[T1 T2] [T3 T4]].
      destruct (up (ls d)) as [[| |e]|] eqn:Eu.
      * assert (Hne : j <> k) by (intros ->; congruence). destruct (nth j os false); injection E as <-; exists c; cbn.
        -- repeat split; auto; congruence.
        -- destruct (drop_vanished fs _ _ T1 T2). repeat split; auto; discriminate.
      * injection E as <-. exists c. cbn. repeat split; auto; discriminate.
      * assert (Hne : j <> k) by (intros ->; congruence). injection E as <-. exists c. cbn. repeat split; auto; try discriminate.
        rewrite nth_error_set_nth. apply not_eq_sym, Nat.eqb_neq in Hne. rewrite Hne. exact H1.
      * injection E as <-. exists c. cbn. repeat split; auto; discriminate.
    + assert (Hne : j <> k) by congruence. destruct (nth_error fs j) as [d|] eqn:Ej; [|discriminate].
      destruct (send_down Stop (ls d)) as [[l ok]|] eqn:Es; [|discriminate]. injection E as <-. exists c. cbn.
      destruct (send_vanished _ _ _ _ _ _ Es H2 H3). repeat split; auto; try discriminate.
      assert (Hn : nth k (set_nth j false os) false = nth k os false); [|congruence].
      rewrite !nth_of, nth_error_set_nth. apply not_eq_sym, Nat.eqb_neq in Hne. rewrite Hne. reflexivity.
    + destruct (nth_error fs j) as [d|] eqn:Ej.
      * destruct (send_down Cancel (ls d)) as [[l ok]|] eqn:Es; [|discriminate]. injection E as <-. exists c. cbn.
        destruct (send_vanished _ _ _ _ _ _ Es H2 H3). repeat split; auto; discriminate.
      * injection E as <-. exists c. cbn. destruct (drop_vanished fs _ _ H2 H3). repeat split; auto; discriminate.
Qed.

(** Once a participant has dropped its ends without having sent Stop or Cancel, the broadcaster never ends
    normally, in any continuation; it can end only because somebody else sends Cancel or sends Stop twice. *)
Theorem silent_death_not_noticed : forall n m0 s k m s',
  run env (start n) m0 s -> vanished k s -> run env s m s' ->
  at_ s' <> Over /\
  (running s' = false ->
     (exists j, j < n - 1 /\ In Cancel (heard j (log s'))) \/ (exists j, j < n - 1 /\ stops j (log s') = 2)).
Proof.
  intros n m0 s k m s' R H R'. destruct (vanished_run _ _ _ _ H R') as (c & _ & _ & _ & _ & _ & H6). split; [exact H6|].
  pose proof (binv_run _ _ _ (run_trans _ _ _ _ _ _ R R')) as I. unfold running. destruct (at_ s') eqn:Ea; try discriminate; intros _.
  - contradiction.
  - left. apply (b_cancel _ _ I). auto.
  - right. apply (b_twice _ _ I). exact Ea.
Qed.
Print Assumptions silent_death_not_noticed.

Definition deserted (s : state) : Prop :=
  (forall c, In c (fields s) -> up (lines s c) = None /\ up_tx (lines s c) = false) /\
  existsb id (open s) = true /\ match at_ s with Test | Poll _ => True | _ => False end.

Lemma deserted_run : forall s m s', deserted s -> run env s m s' -> deserted s'.
Proof.
  intros s m s' H R. induction R as [|m s1 s2 R IH E|m s1 s2 R IH E]; [exact H| |]; destruct IH as (H1 & H2 & H3).
  - destruct (env_shape _ _ E) as (E1 & E2 & E3 & _). unfold deserted. rewrite E1, E2, E3. split; [|auto].
    intros c Hc. destruct (H1 c Hc). eapply env_vanished; eauto.
  - destruct s1 as [ls fs os p lg]. cbn [lines fields open at_ log] in *. destruct p as [|j|j|j| | |]; cbn in E; try contradiction.
    + rewrite H2 in E. injection E as <-. split; auto.
    + destruct (nth_error fs j) as [d|] eqn:Ej; [|injection E as <-; split; auto].
      destruct (H1 d (nth_error_In _ _ Ej)) as [Hu _]. rewrite Hu in E. injection E as <-. split; auto.
Qed.

(** When everybody has left, and at least one without Stop, the broadcaster polls for ever: whatever happens,
    it always has a next step. *)
Theorem silent_death_livelock : forall s m s', deserted s -> run env s m s' ->
  running s' = true /\ exists s'', bstep s' = Some s''.
Proof.
  intros s m s' H R. destruct (deserted_run _ _ _ H R) as (H1 & H2 & H3). destruct s' as [ls fs os p lg]; cbn [lines fields open at_ log] in *.
  unfold running. destruct p as [|j|j|j| | |]; try contradiction; (split; [reflexivity|]); cbn.
  - rewrite H2. eauto.
  - destruct (nth_error fs j) as [d|] eqn:Ej; [|eauto]. destruct (H1 d (nth_error_In _ _ Ej)) as [Hu _]. rewrite Hu. eauto.
Qed.
Print Assumptions silent_death_livelock.

Ltac own R := match type of R with run ?E ?s ?m ?s1 =>
  let x := eval cbn in (bstep s1) in match x with Some ?s2 => apply (fun R => ROwn E s m s1 s2 R eq_refl) in R end end.
Ltac act R c := match type of R with run ?E ?s ?m (State ?ls ?fs ?os ?p ?lg) =>
  let H := fresh in let H' := fresh in pose proof (c ls fs os p lg) as H;
  eassert (H' : E _ _) by (eapply H; try reflexivity; try discriminate; intros ? [= <-] Hin; cbn in Hin; intuition discriminate);
  pose proof (REnv _ _ _ _ _ R H') as HH; clear R H H'; rename HH into R; cbn in R end.

(** C28 is false. Three roles: the first participant closes as it should and leaves, the second just leaves. A
    reachable state in which the second participant is dead and has said nothing, and from
    which, whatever happens, the broadcaster never ends. *)
Theorem broadcaster_notices_death_refuted :
  exists n m0 s, run env (start n) m0 s /\
    (forall k c, nth_error (fields s) k = Some c -> up_tx (lines s c) = false /\ down_rx (lines s c) = false) /\
    heard 1 (log s) = [] /\ heard 0 (log s) = [Stop] /\
    forall m s', run env s m s' -> running s' = true /\ exists s'', bstep s' = Some s''.
Proof.
  pose proof (RStart env (start 3)) as R. unfold start in R at 2. cbn in R.
  act R (fun ls fs os p lg => EPut ls fs os p lg 0 Stop).
  own R. own R. own R.
  act R (fun ls fs os p lg h1 h2 => EQuiet _ _ (EGet ls fs os p lg 0 Stop h1 h2)).
  act R (fun ls fs os p lg => EQuiet _ _ (EDropTx ls fs os p lg 0)).
  act R (fun ls fs os p lg => EQuiet _ _ (EDropRx ls fs os p lg 0)).
  act R (fun ls fs os p lg => EQuiet _ _ (EDropTx ls fs os p lg 1)).
  act R (fun ls fs os p lg => EQuiet _ _ (EDropRx ls fs os p lg 1)).
  eexists 3, 3, _. split; [exact R|]. clear R. split; [|split; [|split]].
  - cbn. intros [|[|[|k]]] c; cbn; try discriminate; intros [= <-]; split; reflexivity.
  - reflexivity.
  - reflexivity.
  - intros m s' R. eapply silent_death_livelock; [|exact R]. split; [|split; [reflexivity|exact Logic.I]].
    cbn. intros c [<-|[<-|[]]]; split; reflexivity.
Qed.
Print Assumptions broadcaster_notices_death_refuted.

(** Four roles: participant 0 closes; participant 1 replaces its line by line 7 and then cancels there, having read
    nothing; participant 2 has left; everybody still there gets Cancel, participant 0 after its Stop. *)
Example a_cancelled_session : exists s, run env (start 4) 13 s /\ at_ s = Cancelled /\
  told 0 (log s) = [Stop; Cancel] /\ told 1 (log s) = [Cancel] /\ told 2 (log s) = [Cancel] /\
  got 0 (log s) = [Stop] /\ down (lines s 0) = Some Cancel /\ down (lines s 7) = Some Cancel /\ down (lines s 2) = None.
Proof.
  pose proof (RStart env (start 4)) as R. unfold start in R at 2. cbn in R.
  act R (fun ls fs os p lg => EPut ls fs os p lg 0 Stop).
  act R (fun ls fs os p lg => EPut ls fs os p lg 1 (Offer 7)).
  act R (fun ls fs os p lg => EPut ls fs os p lg 7 Cancel).
  act R (fun ls fs os p lg => EQuiet _ _ (EDropRx ls fs os p lg 2)).
  own R. own R. own R. own R. own R. own R. own R. own R. own R.
  act R (fun ls fs os p lg h1 h2 => EQuiet _ _ (EGet ls fs os p lg 0 Stop h1 h2)).
  own R. own R. own R. own R.
  eexists. split; [exact R|]. vm_compute. repeat split.
Qed.

(** The hypotheses of [cancel_is_spread]: participant 1 of three has put Cancel, the broadcaster is about to poll. *)
Example a_cancel_waiting : exists s, run env (start 3) 1 s /\ running s = true /\ nth_error (fields s) 1 = Some 1 /\
  up (lines s 1) = Some Cancel /\ nth 1 (open s) false = true /\ at_ s <> Answer 1.
Proof.
  pose proof (RStart env (start 3)) as R. unfold start in R at 2. cbn in R.
  act R (fun ls fs os p lg => EPut ls fs os p lg 1 Cancel). own R.
  eexists. split; [exact R|]. repeat split; discriminate.
Qed.

(** Three roles: participant 0 sends Stop; participant 1 replaces its line by 5, that by 6, and sends Stop there. *)
Example all_sent_stops : exists s s', run env (start 3) 0 s /\ stopping s [[0]; [1; 5; 6]] /\
  run quiet s 15 s' /\ at_ s' = Over /\ told 0 (log s') = [Stop] /\ told 1 (log s') = [Stop].
Proof.
  pose proof (RStart env (start 3)) as R. unfold start in R at 2. cbn in R.
  act R (fun ls fs os p lg => EPut ls fs os p lg 0 Stop).
  act R (fun ls fs os p lg => EPut ls fs os p lg 1 (Offer 5)).
  act R (fun ls fs os p lg => EPut ls fs os p lg 5 (Offer 6)).
  act R (fun ls fs os p lg => EPut ls fs os p lg 6 Stop).
  match type of R with run _ _ _ ?s => exists s; pose proof (RStart quiet s) as R' end.
  do 15 (own R'). eexists. split; [exact R|]. clear R. split; [|split; [exact R'|]]; [clear R'|vm_compute; repeat split].
  split; cbn.
  - auto.
  - intros [|[|k]] c; cbn; [intros [= <-]|intros [= <-]|destruct k; discriminate].
    + split; [apply LStop; reflexivity|]. split; [reflexivity|discriminate].
    + split; [|split; [reflexivity|discriminate]]. apply (LOffer _ _ 5); [reflexivity|]. apply (LOffer _ _ 6); [reflexivity|]. apply LStop; reflexivity.
  - repeat constructor; cbn; intuition discriminate.
  - exact Logic.I.
  - discriminate.
Qed.
