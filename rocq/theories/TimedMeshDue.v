(** Timetables seen by one role: when it does what it does next. *)
From Coq Require Import List Arith ZArith Bool Lia.
From Verif Require Import Types Diag DiagProofs Wiring WiringProofs Session Mesh MeshSpec Links LinksProofs Refine Sim MeshWire MeshInv MeshStep Timed TimedProofs TimedMesh Global MeshRounds MeshGlobal TimedMeshPlan.
Import ListNotations.
Open Scope nat_scope.

(** ** The entries of one role *)

Fixpoint mine (p : nat) (last : Z) (start : nat -> Z) (es : list entry) : Prop :=
  match es with
  | [] => True
  | e :: es' =>
      if from (e_msg e) =? p then
        (last <= e_sent e)%Z /\ well_inside (e_win e) (elapsed (e_sent e) (start (w_clock (e_win e)))) /\
        mine p (e_sent e) (again (e_win e) (e_sent e) start) es'
      else if into (e_msg e) =? p then
        (last <= e_got e)%Z /\ well_inside (e_win e) (elapsed (e_got e) (start (w_clock (e_win e)))) /\
        mine p (e_got e) (again (e_win e) (e_got e) start) es'
      else mine p last start es'
  end.
Fixpoint due_of (p : nat) (es : list entry) (E : Z) : Z :=
  match es with
  | [] => E
  | e :: es' => if from (e_msg e) =? p then e_sent e else if into (e_msg e) =? p then e_got e else due_of p es' E
  end.

Lemma keeps_mine : forall p n es last start, Forall (wf_message n) (map e_msg es) -> keeps last start es -> mine p (last p) (start p) es.
Proof.
  intros p n. induction es as [|e es IH]; intros last start W K; [exact I|]. inversion W as [|? ? Wm W']; subst.
  destruct Wm as (_ & _ & Hne). cbn [keeps] in K. destruct K as (K1 & K2 & K3 & K4 & K5 & K6). cbn [mine].
  specialize (IH _ _ W' K6). unfold put_at in IH.
  destruct (Nat.eqb_spec (from (e_msg e)) p) as [Ef|Ef].
  - subst p. destruct (Nat.eqb_spec (from (e_msg e)) (into (e_msg e))); [contradiction|]. rewrite Nat.eqb_refl in IH. auto.
  - destruct (Nat.eqb_spec (into (e_msg e)) p) as [Ei|Ei].
    + subst p. rewrite Nat.eqb_refl in IH. auto.
    + destruct (Nat.eqb_spec p (into (e_msg e))); [congruence|]. destruct (Nat.eqb_spec p (from (e_msg e))); [congruence|]. exact IH.
Qed.

Definition within (es : list entry) (E : Z) : Prop := forall e, In e es -> (e_sent e <= E)%Z /\ (e_got e <= E)%Z.

Lemma due_le : forall p es E, within es E -> (due_of p es E <= E)%Z.
Proof.
  intros p es E. induction es as [|e es IH]; intros H; cbn; [lia|]. destruct (H e (or_introl eq_refl)).
  destruct (from (e_msg e) =? p); [assumption|]. destruct (into (e_msg e) =? p); [assumption|]. apply IH. intros x Hx. apply H. right. exact Hx.
Qed.
Lemma mine_due : forall p es last start E, mine p last start es -> (last <= E)%Z -> (last <= due_of p es E)%Z.
Proof.
  intros p. induction es as [|e es IH]; intros last start E M H; cbn in *; [exact H|].
  destruct (from (e_msg e) =? p); [apply M|]. destruct (into (e_msg e) =? p); [apply M|]. eapply IH; eauto.
Qed.
Lemma due_skip : forall p es last start E, mine p last start es -> within es E -> (last <= E)%Z ->
  forall k, (due_of p es E <= due_of p (skipn k es) E)%Z.
Proof.
  intros p. induction es as [|e es IH]; intros last start E M W H k; [destruct k; cbn; lia|].
  destruct k as [|k]; [cbn [skipn]; lia|]. cbn [skipn].
  assert (W' : within es E) by (intros x Hx; apply W; right; exact Hx). destruct (W e (or_introl eq_refl)) as [We1 We2].
  cbn [mine due_of] in *. destruct (from (e_msg e) =? p).
  - destruct M as (_ & _ & M). pose proof (mine_due _ _ _ _ E M We1). specialize (IH _ _ _ M W' We1 k). lia.
  - destruct (into (e_msg e) =? p).
    + destruct M as (_ & _ & M). pose proof (mine_due _ _ _ _ E M We2). specialize (IH _ _ _ M W' We2 k). lia.
    + apply (IH _ _ _ M W' H k).
Qed.
Lemma mine_skip : forall p es last start E, mine p last start es -> within es E -> (last <= E)%Z ->
  forall k, exists last' start', mine p last' start' (skipn k es) /\ (last' <= E)%Z.
Proof.
  intros p. induction es as [|e es IH]; intros last start E M W H k; [destruct k; cbn; eauto|].
  destruct k as [|k]; [exists last, start; auto|]. cbn [skipn].
  assert (W' : within es E) by (intros x Hx; apply W; right; exact Hx). destruct (W e (or_introl eq_refl)) as [We1 We2].
  cbn [mine] in M. destruct (from (e_msg e) =? p); [eapply IH; [apply M|exact W'|exact We1]|].
  destruct (into (e_msg e) =? p); [eapply IH; [apply M|exact W'|exact We2]|eapply IH; eauto].
Qed.
Lemma within_skip : forall es E k, within es E -> within (skipn k es) E.
Proof. intros es E k H e He. apply H. rewrite <- (firstn_skipn k es). apply in_or_app. right. exact He. Qed.
Lemma skipn_skipn' : forall A (l : list A) a b, skipn a (skipn b l) = skipn (b + a) l.
Proof. intros A l a b. revert l. induction b as [|b IH]; intros l; [reflexivity|]. destruct l; cbn; [destruct a; reflexivity|]. apply IH. Qed.
Lemma due_mono : forall p es last start E k k', mine p last start es -> within es E -> (last <= E)%Z -> k <= k' ->
  (due_of p (skipn k es) E <= due_of p (skipn k' es) E)%Z.
Proof.
  intros p es last start E k k' M W H Hk. destruct (mine_skip p es last start E M W H k) as (last' & start' & M' & H').
  replace k' with (k + (k' - k)) by lia. rewrite <- skipn_skipn'. eapply due_skip; [exact M'|apply within_skip, W|exact H'].
Qed.
Lemma keeps_cause : forall es last start k e, keeps last start es -> nth_error es k = Some e -> (e_sent e <= e_got e)%Z.
Proof.
  induction es as [|x es IH]; intros last start k e K En; [destruct k; discriminate|]. cbn in K. destruct K as (_ & _ & K & _ & _ & K').
  destruct k as [|k]; cbn in En; [injection En as <-; exact K|eapply IH; eauto].
Qed.
Lemma skipn_nth : forall A (l : list A) k x, nth_error l k = Some x -> skipn k l = x :: skipn (S k) l.
Proof. intros A l. induction l as [|y l IH]; intros [|k] x E; cbn in *; try discriminate; [injection E as ->; reflexivity|apply IH, E]. Qed.

(** ** Windows *)

Lemma windows_nth : forall n p q es e, 1 <= p <= n -> 1 <= q <= n -> q <> p ->
  nth_error (windows_of n p es e) (field_pos p q) = Some (field_windows p q es e).
Proof.
  intros n p q es e Hp Hq Hne. unfold windows_of.
  destruct (peer_field n p q Hp Hq (not_eq_sym Hne)) as [Hk Hpe].
  rewrite nth_error_map, nth_error_seq' by exact Hk. cbn [option_map]. rewrite <- peer_other.
  replace (1 + field_pos p q) with (S (field_pos p q)) by lia. rewrite Hpe. reflexivity.
Qed.
Lemma windows_length : forall n p es e, length (windows_of n p es e) = n - 1.
Proof. intros. unfold windows_of. rewrite map_length, seq_length. reflexivity. Qed.

Lemma field_skip : forall p q x es e, involves p (e_msg x) = false -> field_windows p q (x :: es) e = field_windows p q es e.
Proof.
  intros p q x es e H. apply orb_false_iff in H. destruct H as [H1 H2]. unfold field_windows. cbn [filter]. unfold concerns.
  rewrite H1, H2. cbn [andb orb]. rewrite andb_false_r. reflexivity.
Qed.
Lemma windows_skip : forall n p x es e, involves p (e_msg x) = false -> windows_of n p (x :: es) e = windows_of n p es e.
Proof. intros n p x es e H. apply map_ext. intros i. apply field_skip, H. Qed.

(** The peer of role p in a message. *)
Definition peer_in (p : nat) (m : message) : nat := if from m =? p then into m else from m.

Lemma windows_message : forall n p x es e, 1 <= p <= n -> wf_message n (e_msg x) -> involves p (e_msg x) = true ->
  head_window (field_pos p (peer_in p (e_msg x))) (windows_of n p (x :: es) e) = e_win x /\
  pop_window (field_pos p (peer_in p (e_msg x))) (windows_of n p (x :: es) e) = windows_of n p es e.
Proof.
  intros n p x es e Hp (Hf & Hi & Hne) Hin. set (y := peer_in p (e_msg x)).
  assert (Hy : 1 <= y <= n /\ y <> p).
  { unfold y, peer_in. unfold involves in Hin. destruct (Nat.eqb_spec (from (e_msg x)) p); [split; [lia|congruence]|auto]. }
  destruct Hy as [Hy Hyp].
  assert (Hc : forall q, concerns p q (e_msg x) = (q =? y)).
  { intros q. unfold concerns, y, peer_in, involves in *. destruct (Nat.eqb_spec (from (e_msg x)) p) as [E|E]; cbn [andb orb] in *.
    - rewrite (Nat.eqb_sym q). destruct (Nat.eqb_spec (into (e_msg x)) q); [reflexivity|]. cbn [orb].
      destruct (Nat.eqb_spec (into (e_msg x)) p); [congruence|]. apply andb_false_r.
    - rewrite Hin, andb_true_r. apply Nat.eqb_sym. }
  assert (Hw : nth_error (windows_of n p (x :: es) e) (field_pos p y) = Some (e_win x :: field_windows p y es e)).
  { rewrite windows_nth by auto. unfold field_windows. cbn [filter]. rewrite Hc, Nat.eqb_refl. reflexivity. }
  unfold head_window, pop_window. rewrite (nth_error_nth _ _ [] Hw). split; [reflexivity|]. cbn [tl].
  apply list_ext. intros k. destruct (lt_dec k (n - 1)) as [Hk|Hk].
  - assert (E : exists q, q <> p /\ 1 <= q <= n /\ k = field_pos p q).
    { exists (peer p (S k)). split; [apply peer_neq|]. split; [apply peer_range; lia|]. rewrite field_pos_peer by lia. lia. }
    destruct E as (q & H1 & H2 & ->). rewrite (windows_nth n p q es e Hp H2 H1).
    destruct (Nat.eq_dec q y) as [->|Hqx].
    + rewrite nth_set_same; [reflexivity|]. rewrite windows_length. exact Hk.
    + rewrite nth_set_other; [rewrite (windows_nth n p q _ e Hp H2 H1); f_equal; unfold field_windows; cbn [filter]; rewrite Hc;
        destruct (Nat.eqb_spec q y); [contradiction|reflexivity]|].
      intros E. apply Hqx. destruct (peer_field n p q Hp H2 (not_eq_sym H1)) as [_ P1].
      destruct (peer_field n p y Hp Hy (not_eq_sym Hyp)) as [_ P2]. rewrite <- P1, <- P2, E. reflexivity.
  - rewrite !(proj2 (nth_error_None _ _)); [reflexivity| |]; rewrite ?set_nth_length, windows_length; lia.
Qed.

(** A choice has no bounds. *)
Lemma windows_offer : forall n p c b, 1 <= p <= n -> 1 <= c <= n -> c <> p ->
  head_window (field_pos p c) (windows_of n p [] (GChoose c b)) = free_window.
Proof.
  intros n p c b Hp Hc Hne. unfold head_window. rewrite (nth_error_nth _ _ [] (windows_nth n p c [] (GChoose c b) Hp Hc Hne)).
  unfold field_windows. cbn. rewrite Nat.eqb_refl, orb_true_r. reflexivity.
Qed.
Lemma windows_choose : forall n p b, Forall (fun ws => hd free_window ws = free_window) (windows_of n p [] (GChoose p b)).
Proof.
  intros n p b. apply Forall_forall. intros ws H. apply in_map_iff in H as (i & <- & _). unfold field_windows. cbn.
  rewrite Nat.eqb_refl. reflexivity.
Qed.

(** ** One's next entry in front *)

Lemma enormalise : forall n p es e E last start, mine p last start es -> exists pre suf, es = pre ++ suf /\ norm p (map e_msg suf) /\
  sessions_of n p (map e_msg suf) e = sessions_of n p (map e_msg es) e /\
  stack_of p (map e_msg suf) e = stack_of p (map e_msg es) e /\ windows_of n p suf e = windows_of n p es e /\
  due_of p suf E = due_of p es E /\ mine p last start suf.
Proof.
  intros n p es e E last start. induction es as [|x es IH]; intros M.
  - exists [], []. repeat split.
  - destruct (involves p (e_msg x)) eqn:Ei.
    + exists [], (x :: es). split; [reflexivity|]. split; [exact Ei|]. auto 8.
    + pose proof Ei as Ei'. apply orb_false_iff in Ei' as [H1 H2]. cbn [mine] in M. rewrite H1, H2 in M.
      destruct (IH M) as (pre & suf & -> & Hn & A1 & A2 & A3 & A4 & A5). exists (x :: pre), suf. split; [reflexivity|].
      split; [exact Hn|]. split; [|split; [|split; [|split; [|exact A5]]]].
      * rewrite A1. unfold sessions_of. apply map_ext. intros i. symmetry. cbn [map]. apply sess_skip, Ei.
      * rewrite A2. symmetry. cbn [map]. apply stack_skip, Ei.
      * rewrite A3. symmetry. apply windows_skip, Ei.
      * rewrite A4. cbn [app due_of]. rewrite H1, H2. reflexivity.
Qed.
