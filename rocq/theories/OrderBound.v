(** How long a session runs: the number of steps of all roles together, whoever crashes, is bounded by the types of the rounds
    that were begun. Proofs for C71. *)
From Coq Require Import List Arith Bool Lia Permutation.
From Verif Require Import Types Diag DiagProofs Wiring WiringProofs Session Mesh MeshSpec Links LinksProofs Refine Sim
  MeshWire MeshInv MeshStep MeshKeep MeshSafe MeshRounds MeshRun MeshLog MeshReach Global MeshGlobal MeshSignal MeshProgress MeshBound
  MeshClean MeshFair TidySpec MeshTidy OrderSpec OrderProofs MeshOrder OrderReady OrderFair Properties_Mesh Properties_Order OrderEnd Properties_OrderFair.
Import ListNotations.

(** Specification only. The steps of one round: every channel is given back, and every role goes through its stack, a choice and [close]. *)
Definition round_cost (n : nat) (R : nat -> mty) : nat :=
  4 * ((n - 1) * n / 2) + 3 * n * (fold_right (fun p a => depth (snd (R p)) + a) 0 (seq 1 n) + 2 * n + 4).
(** Specification only. The steps of all rounds of a history. *)
Definition total_cost (n : nat) (branch : nat -> nat -> nat -> mty) (T : nat -> mty) (hist : history) : nat :=
  fold_right (fun g a => round_cost n (round_types branch T hist g) + a) 0 (seq 0 (S (length hist))).

(** Specification only. The steps with which choices are made (choose_mpst_multi_to_all, src/macros_multiple/choose.rs). *)
Definition choices_made (tr : list (nat * inp)) : list (nat * inp) := filter (fun x => match snd x with ILabel _ => true | _ => false end) tr.

Lemma sum_fold : forall f k a, fold_right (fun i s => f i + s) 0 (seq a k) = sum_to k (fun i => f (a + i)).
Proof.
  intros f. induction k as [|k IH]; intros a; [reflexivity|]. cbn [seq fold_right]. rewrite IH.
  change (sum_to (S k) (fun i => f (a + i))) with (sum_to k (fun i => f (a + i)) + f (a + k)).
  assert (E : forall k, sum_to k (fun i => f (S a + i)) + f a = sum_to k (fun i => f (a + i)) + f (a + k)).
  { clear. induction k as [|k IH]; [cbn; rewrite Nat.add_0_r; lia|]. cbn [sum_to]. replace (S a + k) with (a + S k) by lia. lia. }
  specialize (E k). lia.
Qed.

Section Bound.
  Variable n : nat.
  Variable branch : nat -> nat -> nat -> mty.
  Variable labels : nat -> nat.
  Variable strict : bool.
  Hypothesis branch_dual : forall b l, l < labels b -> dual_mesh n (branch b l).
  Variable T : nat -> mty.
  Hypothesis T_dual : dual_mesh n T.

  Notation lthread := (@thread handle).
  Notation RT := (round_types branch T).
  Notation mu := (OrderFair.mu n branch T).
  Notation cut := (MeshOrder.cut n).
  Notation low := (OrderFair.low n).
  Notation room := (OrderFair.room n branch T).
  Notation to_go := (OrderFair.to_go n branch T).
  Notation ahead := (OrderFair.ahead n branch T).

  Lemma cost_room : forall hist g, round_cost n (RT hist g) = 4 * npairs n + 3 * (n * room hist g).
  Proof.
    intros hist g. unfold round_cost, room, deep. rewrite (sum_fold (fun p => depth (snd (RT hist g p)))).
    change (fun i => depth (snd (RT hist g (1 + i)))) with (fun i => depth (snd (RT hist g (S i)))).
    fold (npairs n). lia.
  Qed.
  Lemma total_snoc : forall hist x, total_cost n branch T (hist ++ [x]) = total_cost n branch T hist + round_cost n (RT (hist ++ [x]) (S (length hist))).
  Proof.
    intros hist x. unfold total_cost. rewrite !(sum_fold (fun g => round_cost n (round_types branch T _ g))).
    rewrite app_length. cbn [length]. replace (S (length hist + 1)) with (S (S (length hist))) by lia. cbn [sum_to Nat.add].
    f_equal. f_equal; [|rewrite rt_app by lia; reflexivity]. apply sum_to_ext. intros m Hm. rewrite rt_app by lia. reflexivity.
  Qed.

  Lemma low_next : forall g L, (forall m, cut g <= m < cut (S g) -> exists t, lk L m = new_link t) -> low (S g) L <= low g L + 4 * npairs n.
  Proof.
    intros g L H. unfold low. replace (cut (S g)) with (cut g + npairs n) in * by (unfold MeshOrder.cut; cbn; lia).
    rewrite sum_to_app. assert (sum_to (npairs n) (fun i => link_weight (lk L (cut g + i))) <= npairs n * 4); [|lia].
    apply sum_to_le. intros i Hi. destruct (H (cut g + i) ltac:(lia)) as [t ->]. cbn. lia.
  Qed.
  Lemma go_next : forall hist g th, t_round th <= g -> to_go hist (S g) th <= to_go hist g th + room hist (S g).
  Proof.
    intros hist g th H. unfold to_go. destruct (Nat.leb_spec (t_round th) (S g)); [|lia]. destruct (Nat.leb_spec (t_round th) g); [|lia].
    assert (E : ahead hist (S g) (t_round th) = ahead hist g (t_round th) + room hist (S g)).
    { unfold OrderFair.ahead. replace (S g - t_round th) with (S (g - t_round th)) by lia. cbn [sum_to]. f_equal. f_equal. lia. }
    destruct (t_prog th); lia.
  Qed.
  Lemma sum_plus : forall k f h c, (forall i, i < k -> f i <= h i + c) -> sum_to k f <= sum_to k h + k * c.
  Proof.
    induction k as [|k IH]; intros f h c H; [cbn; lia|]. cbn [sum_to Nat.mul]. specialize (IH f h c ltac:(intros; apply H; lia)). specialize (H k ltac:(lia)). lia.
  Qed.

  Lemma record_length : forall L p i (th th' : lthread) L' hist, tcase n branch labels strict p th L i th' L' ->
    length (record p i th hist) = length hist + length (choices_made [(p, i)]).
  Proof.
    intros L p i th th' L' hist C. destruct C; try (cbn; rewrite ?Nat.add_0_r; reflexivity).
    cbn. rewrite H, H0, H1, app_length. reflexivity.
  Qed.

  (** Every step uses up something of the rounds begun; a choice adds the steps of the round it begins. *)
  Lemma paid : forall tr sl, steps link_ops n branch labels strict (init link_ops n T empty_links) tr sl ->
    exists hist, inv n branch labels (st_store sl) (st_thr sl) /\ rinv n labels hist (st_store sl) (st_thr sl) /\
      dinv n branch labels T hist (st_store sl) (st_thr sl) /\ length hist = length (choices_made tr) /\
      (all_ordered n branch labels T -> xinv n branch labels T (reached n labels branch T) hist (st_thr sl) /\ chosen_in n labels branch T hist) /\
      length tr + mu hist (length hist) (st_store sl) (st_thr sl) <= total_cost n branch T hist.
  Proof.
    intros tr sl H.
    apply (reach_inv n branch labels strict branch_dual T T_dual
             (fun tr hist L thr => length hist = length (choices_made tr) /\
                (all_ordered n branch labels T -> xinv n branch labels T (reached n labels branch T) hist thr /\ chosen_in n labels branch T hist) /\
                length tr + mu hist (length hist) L thr <= total_cost n branch T hist)); [| |exact H]; clear H tr sl.
    - split; [reflexivity|]. split.
      { intros HO. split; [|apply chosen_nil]. apply xinv_init; auto; [constructor|]. intros R p HR Hp. destruct (HO R HR) as (rank & H1 & _). auto. }
      destruct (init_form n T T_dual) as (L & _ & _ & Hnew & _ & -> & Hthr).
      unfold total_cost. cbn [length seq fold_right]. rewrite cost_room, !Nat.add_0_r. cbn [Nat.add]. unfold OrderFair.mu.
      assert (H1 : low 0 L <= npairs n * 4).
      { unfold OrderFair.low. unfold MeshOrder.cut. rewrite Nat.mul_1_l. apply sum_to_le. intros m Hm. destruct (Hnew m Hm) as [t ->]. cbn. lia. }
      assert (H2 : sum_to n (fun i => to_go [] 0 (st_thr (init link_ops n T empty_links) (S i))) <= n * room [] 0).
      { apply sum_to_le. intros i Hi. rewrite Hthr by lia. unfold OrderFair.to_go, OrderFair.local, OrderFair.room, OrderFair.ahead.
        cbn [t_round t_prog Nat.leb Nat.sub sum_to round_types]. pose proof (deep_le n T (S i) ltac:(lia)). lia. }
      lia.
    - intros tr hist L thr p i th' L' Hp I R D (Q1 & Q2 & Q) C. split; [|split].
      { unfold choices_made in *. rewrite filter_app, app_length, <- Q1. eapply record_length; eauto. }
      { intros HO. destruct (Q2 HO) as [X H]. split; [|eapply chosen_step; eauto].
        pose proof (reached_dual n branch labels T (conj T_dual branch_dual)) as HRD.
        assert (HW : forall R0 p0, reached n labels branch T R0 -> 1 <= p0 <= n -> script_of n labels R0 p0 <> None)
          by (intros R0 p0 HR Hp0; destruct (HO R0 HR) as (rank & H1 & _); auto).
        eapply xinv_step with (L := L) (strict := strict); eauto; [constructor|]. intros; eapply reached_next; eauto. }
      destruct (mu_step n branch labels strict branch_dual T hist L thr p i th' L' (length hist) Hp I R (le_n _) C) as [_ M]. cbn zeta in M.
      assert (Hmt : matters n (length hist) (thr p)).
      { unfold matters. destruct (t_trash (thr p)) as [|[[k s] f] rest] eqn:Et; [apply (r_thr _ _ _ _ _ R p Hp)|].
        assert (Hlv : live L (k, s, f)).
        { apply (live_link n branch labels L thr p _ Hp I). unfold Sim.all_of. rewrite Et. apply in_or_app. right; left; reflexivity. }
        destruct Hlv as [Hl _]. rewrite (r_next _ _ _ _ _ R) in Hl. unfold MeshOrder.cut. exact Hl. }
      specialize (M Hmt). rewrite app_length. cbn [length].
      destruct (record_case n branch labels strict L p i (thr p) th' L' hist C)
        as [Er|(b & l & ss & hs & pl & Er & Hl & Ei & Et & Ep & Ec & Ea)]; rewrite Er in *; [lia|].
      rewrite app_length. cbn [length]. replace (length hist + 1) with (S (length hist)) by lia. rewrite total_snoc, cost_room.
      destruct (new_mesh n (choose_vars n) (branch b l) L pl L' (choose_vars_spec n) (branch_dual b l Hl) Ea) as (_ & Hn & _ & Hnew & _).
      pose proof (r_next _ _ _ _ _ R) as Hnx.
      set (hist' := hist ++ [(p, b, l)]) in *. set (thr' := set_thr thr p th') in *.
      assert (H1 : low (S (length hist)) L' <= low (length hist) L' + 4 * npairs n).
      { apply low_next. intros m Hm. apply Hnew. unfold MeshOrder.cut in Hm. rewrite Hn, Hnx. cbn in Hm |- *. lia. }
      assert (H2 : sum_to n (fun k => to_go hist' (S (length hist)) (thr' (S k))) <=
                   sum_to n (fun k => to_go hist' (length hist) (thr' (S k))) + n * room hist' (S (length hist))).
      { apply sum_plus. intros k Hk. apply go_next. unfold thr', set_thr. destruct (Nat.eqb_spec (S k) p) as [E|E].
        - assert (Hr : t_round th' = t_round (thr p)).
          { inversion C; subst; try congruence; cbn [t_round]; try reflexivity; congruence. }
          rewrite Hr. apply (r_thr _ _ _ _ _ R p Hp).
        - apply (r_thr _ _ _ _ _ R (S k)). lia. }
      unfold OrderFair.mu in *. lia.
  Qed.
End Bound.

(** The histories of types without recursion cost a bounded number of steps. *)
Lemma total_shift : forall n branch T p b l hist,
  total_cost n branch T ((p, b, l) :: hist) = round_cost n T + total_cost n branch (branch b l) hist.
Proof.
  intros n branch T p b l hist. unfold total_cost. cbn [length]. change (seq 0 (S (S (length hist)))) with (0 :: seq 1 (S (length hist))).
  cbn [fold_right]. f_equal. rewrite (sum_fold (fun g => round_cost n (round_types branch T _ g))), (sum_fold (fun g => round_cost n (round_types branch _ hist g))).
  apply sum_to_ext. intros m Hm. cbn [Nat.add]. rewrite round_shift by lia. reflexivity.
Qed.
Lemma unwinds_cost : forall n branch labels T, unwinds n branch labels T ->
  exists N, forall hist, chosen_in n labels branch T hist -> total_cost n branch T hist <= N.
Proof.
  intros n branch labels T U. induction U as [R _ IH].
  destruct (common_bound _ (choices n labels R) (fun b B => forall l, l < labels b -> forall hist, chosen_in n labels branch (branch b l) hist ->
              total_cost n branch (branch b l) hist <= B)) as [B HB].
  - intros b m m' H Hle l Hl hist Hh. specialize (H l Hl hist Hh). lia.
  - intros b Hb. destruct (choices_in n labels R b Hb) as (p & s & Hp & Hs & Hin).
    destruct (common_bound _ (seq 0 (labels b)) (fun l B => forall hist, chosen_in n labels branch (branch b l) hist ->
                total_cost n branch (branch b l) hist <= B)) as [B HB].
    + intros l m m' H Hle hist Hh. specialize (H hist Hh). lia.
    + intros l Hl. apply in_seq in Hl. exact (IH p s b l Hp Hs Hin ltac:(lia)).
    + exists B. intros l Hl. apply HB, in_seq. lia.
  - exists (round_cost n R + B). intros [|[[p b] l] hist] H.
    + unfold total_cost. cbn [length seq fold_right round_types]. lia.
    + destruct (chosen_tail n labels branch R p b l hist H) as [(Hp & Hl & s & Hs & Hin) Ht].
      rewrite total_shift. specialize (HB b (in_choices n labels R p s b Hp Hs Hin) l Hl hist Ht). lia.
Qed.

(** Specification only. The same as a function: the largest cost of a history. *)
Fixpoint most (xs : list (option nat)) : option nat :=
  match xs with
  | [] => Some 0
  | Some a :: xs' => option_map (Nat.max a) (most xs')
  | None :: _ => None
  end.
Fixpoint longest_run (fuel n : nat) (branch : nat -> nat -> nat -> mty) (labels : nat -> nat) (R : nat -> mty) : option nat :=
  match fuel with
  | 0 => None
  | S f =>
      option_map (Nat.add (round_cost n R))
        (most (map (fun x => longest_run f n branch labels (branch (fst x) (snd x)))
                 (flat_map (fun b => map (pair b) (seq 0 (labels b))) (choices n labels R))))
  end.
Lemma most_le : forall xs N, most xs = Some N -> forall x, In x xs -> exists a, x = Some a /\ a <= N.
Proof.
  induction xs as [|[a|] xs IH]; cbn; intros N H x Hx; [destruct Hx| |discriminate].
  destruct (most xs) as [M|] eqn:E; [|discriminate]. injection H as <-. destruct Hx as [<-|Hx]; [exists a; split; [reflexivity|lia]|].
  destruct (IH M eq_refl x Hx) as (c & -> & Hc). exists c. split; [reflexivity|lia].
Qed.
Lemma longest_run_cost : forall fuel n branch labels R N, longest_run fuel n branch labels R = Some N ->
  forall hist, chosen_in n labels branch R hist -> total_cost n branch R hist <= N.
Proof.
  induction fuel as [|f IH]; intros n branch labels R N E hist H; [discriminate|]. cbn [longest_run] in E.
  destruct (most _) as [M|] eqn:EM in E; [|discriminate]. cbn [option_map] in E. injection E as <-. destruct hist as [|[[p b] l] hist].
  - unfold total_cost. cbn [length seq fold_right round_types]. lia.
  - destruct (chosen_tail n labels branch R p b l hist H) as [(Hp & Hl & s & Hs & Hin) Ht]. rewrite total_shift.
    destruct (most_le _ _ EM (longest_run f n branch labels (branch b l))) as (a & Ea & Ha).
    + apply in_map_iff. exists (b, l). split; [reflexivity|]. apply in_flat_map. exists b. split; [eapply in_choices; eauto|].
      apply in_map, in_seq. lia.
    + specialize (IH n branch labels (branch b l) a Ea hist Ht). lia.
Qed.
