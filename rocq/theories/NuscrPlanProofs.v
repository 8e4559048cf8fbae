(** * Generated files that can run in time: proofs

    Statements are in Properties_NuscrPlan.v. *)

From Coq Require Import Ascii String ZArith QArith Qround Arith Bool Lia Lqa Permutation List.
From Verif Require Types Wiring Session Mesh Global Timed TimedProofs TimedMesh TimedMeshProofs Properties_Global TimedMeshPlan.
From Verif Require Import Checker CheckerText CheckerAll Nuscr NuscrSpec NuscrMaps NuscrFile NuscrNames NuscrText NuscrTextSpec
  Properties_Nuscr NuscrGlobalSpec NuscrGlobal NuscrSystem NuscrItems Properties_NuscrItems NuscrTimedSpec NuscrTimedProofs
  NuscrTimetable NuscrPlanSpec.
Import ListNotations.
Open Scope nat_scope.
Open Scope list_scope.

(** ** Numbers *)

Lemma decimal_number v w : (0 <= v)%Z -> forall z, digits v w = Some z -> decimal v w = Some z.
Proof.
  revert v. induction w as [|c w IH]; intros v Hv z; cbn [digits decimal]; [auto|]. unfold Nuscr.digit.
  destruct ((48 <=? Z.of_nat (nat_of_ascii c))%Z && (Z.of_nat (nat_of_ascii c) <=? 57)%Z) eqn:E; [|discriminate].
  apply andb_prop in E as [E1 E2]. apply Z.leb_le in E1, E2. intros H.
  assert ((48 <=? nat_of_ascii c) && (nat_of_ascii c <=? 57) = true) as -> by (apply andb_true_iff; rewrite !Nat.leb_le; lia).
  apply IH; [lia|]. rewrite <- H. f_equal. rewrite Nat2Z.inj_sub by lia. reflexivity.
Qed.
Lemma bound_number w z : number w = Some z -> bound w = z.
Proof.
  unfold number, bound. destruct w as [|c w]; [discriminate|]. intros H. rewrite (decimal_number 0 _ (Z.le_refl _) _ H). reflexivity.
Qed.

(** Rounding down keeps a difference between whole numbers. *)
Lemma floor_diff s t lo hi : (inject_Z lo <= s - t)%Q -> (s - t <= inject_Z hi)%Q ->
  (lo <= Qfloor s - Qfloor t <= hi)%Z.
Proof.
  intros H1 H2. pose proof (Qfloor_le s) as A1. pose proof (Qlt_floor s) as A2.
  pose proof (Qfloor_le t) as B1. pose proof (Qlt_floor t) as B2.
  rewrite inject_Z_plus in A2, B2. change (inject_Z 1) with 1%Q in A2, B2.
  assert (inject_Z (Qfloor t + lo) < inject_Z (Qfloor s + 1))%Q as K1 by (rewrite !inject_Z_plus; change (inject_Z 1) with 1%Q; lra).
  assert (inject_Z (Qfloor s) < inject_Z (Qfloor t + hi + 1))%Q as K2 by (rewrite !inject_Z_plus; change (inject_Z 1) with 1%Q; lra).
  rewrite <- Zlt_Qlt in K1, K2. lia.
Qed.

(** ** From instants for a list of messages to entries of a timetable *)

Section Entries.
  Variable title : str -> str.
  Variable code : str -> nat.
  Variable rs : list str.
  Notation no := (number_in rs).
  Notation told := (told title code rs).

  Definition plannable (m : msg) : Prop :=
    In (sender m) rs /\ In (receiver m) rs /\ sender m <> receiver m /\ closed_window m /\
    (exists c, clock m = [c]) /\ (forall r, reset m = Some r -> exists c, r = [c] /\ c <> " "%char).

  Lemma letter_inj a b : nat_of_ascii a = nat_of_ascii b -> a = b.
  Proof. intros E. rewrite <- (ascii_nat_embedding a), E. apply ascii_nat_embedding. Qed.

  Lemma again_letter m v start c : (forall r, reset m = Some r -> exists c, r = [c] /\ c <> " "%char) ->
    TimedMeshPlan.again (window_of m) v start (letter [c]) = if resets [c] m then v else start (letter [c]).
  Proof.
    intros H. unfold TimedMeshPlan.again, resets, window_of. cbn [Types.w_reset letter]. destruct (reset m) as [r|].
    - destruct (H r eq_refl) as (x & -> & Hx). cbn [letter]. assert (nat_of_ascii x =? Timed.no_reset = false) as ->.
      { apply Nat.eqb_neq. intros E. apply Hx. apply letter_inj. exact E. }
      cbn [negb andb]. rewrite Nat.eqb_sym. destruct (Nat.eqb_spec (nat_of_ascii x) (nat_of_ascii c)) as [E|E].
      + apply letter_inj in E. subst. rewrite seqb_refl. reflexivity.
      + assert (seqb [x] [c] = false) as -> by (apply seqb_false; congruence). reflexivity.
    - rewrite Nat.eqb_refl. reflexivity.
  Qed.

  Lemma put_number {A} (g : nat -> A) r v x : In r rs -> In x rs -> TimedMeshPlan.put_at g (no r) v (no x) = if seqb x r then v else g (no x).
  Proof. intros Hr Hx. unfold TimedMeshPlan.put_at. rewrite no_eqb by assumption. reflexivity. Qed.

  Notation at_sec base q := (base + Timed.second * Qfloor q)%Z.
  Lemma inside_window m s t base : plannable m -> in_window (s - t) m ->
    TimedProofs.well_inside (window_of m) (Timed.elapsed (at_sec base s) (at_sec base t)).
  Proof.
    intros (_ & _ & _ & (L1 & L2 & _) & _) H. unfold in_window in H.
    destruct (number (lb m)) as [lo|] eqn:E1; [|contradiction]. destruct (number (rb m)) as [hi|] eqn:E2; [|contradiction].
    rewrite L1, L2 in H. destruct H as [H1 H2]. pose proof (floor_diff _ _ _ _ H1 H2) as K.
    pose proof (NuscrClocks.number_nonneg _ _ E1) as P1.
    assert (0 <= lo)%Z as P1' by (clear - P1; first [exact P1|rewrite Zle_Qle; exact P1]).
    unfold TimedProofs.well_inside, TimedProofs.in_window, window_of. cbn [Types.w_start Types.w_end Types.w_incl_start Types.w_incl_end].
    rewrite L1, L2, (bound_number _ _ E1), (bound_number _ _ E2). unfold Timed.elapsed, Timed.second. split; [split|]; intros; try lia; discriminate.
  Qed.

  Lemma together_keeps base ms : forall now start (last : nat -> Z) (start' : nat -> nat -> Z), Forall plannable ms ->
    (forall r, In r rs -> last (no r) = at_sec base (now r)) ->
    (forall r c, In r rs -> start' (no r) (letter [c]) = at_sec base (start r [c])) ->
    together now start ms ->
    exists es, map TimedMeshPlan.e_msg es = map told ms /\ map TimedMeshPlan.e_win es = map window_of ms /\ TimedMeshPlan.keeps last start' es.
  Proof.
    induction ms as [|m ms IH]; intros now start last start' F Hl Hs H; [exists []; repeat split|].
    inversion F as [|? ? F1 F2]; subst. destruct H as (s & t & H1 & H2 & H3 & H4 & H5 & H6).
    pose proof F1 as (R1 & R2 & R3 & C & (c & Hc) & Hr).
    set (e := TimedMeshPlan.Entry (told m) (window_of m) (at_sec base s) (at_sec base t)).
    assert (Hw : Types.w_clock (window_of m) = letter [c]) by (unfold window_of; cbn [Types.w_clock]; rewrite Hc; reflexivity).
    destruct (IH (put (put now (sender m) s) (receiver m) t) (restart m (receiver m) t (restart m (sender m) s start))
      (TimedMeshPlan.put_at (TimedMeshPlan.put_at last (no (sender m)) (at_sec base s)) (no (receiver m)) (at_sec base t))
      (TimedMeshPlan.put_at (TimedMeshPlan.put_at start' (no (sender m)) (TimedMeshPlan.again (window_of m) (at_sec base s) (start' (no (sender m)))))
         (no (receiver m)) (TimedMeshPlan.again (window_of m) (at_sec base t) (start' (no (receiver m))))) F2) as (es & E1 & E2 & E3).
    - intros r Hr'. rewrite !put_number by assumption. unfold put. destruct (seqb r (receiver m)); [reflexivity|].
      destruct (seqb r (sender m)); [reflexivity|]. apply Hl, Hr'.
    - intros r x Hr'. rewrite !put_number by assumption. unfold restart. destruct (seqb r (receiver m)) eqn:Er.
      + apply seqb_true in Er. subst r. rewrite again_letter by exact Hr. cbn [andb].
        assert (seqb (receiver m) (sender m) = false) as -> by (apply seqb_false; congruence). cbn [andb].
        destruct (resets [x] m); [reflexivity|]. apply Hs, Hr'.
      + cbn [andb]. destruct (seqb r (sender m)) eqn:Es.
        * apply seqb_true in Es. subst r. rewrite again_letter by exact Hr. cbn [andb]. destruct (resets [x] m); [reflexivity|]. apply Hs, Hr'.
        * cbn [andb]. apply Hs, Hr'.
    - exact H6.
    - exists (e :: es). cbn [map e TimedMeshPlan.e_msg TimedMeshPlan.e_win]. split; [now rewrite E1|]. split; [now rewrite E2|].
      cbn [TimedMeshPlan.keeps e TimedMeshPlan.e_msg TimedMeshPlan.e_win TimedMeshPlan.e_sent TimedMeshPlan.e_got].
      change (Global.from (told m)) with (no (sender m)). change (Global.into (told m)) with (no (receiver m)).
      rewrite Hw, (Hl _ R1), (Hl _ R2), (Hs _ c R1), (Hs _ c R2). rewrite Hc in H4, H5.
      apply Qfloor_resp_le in H1, H2, H3.
      split; [unfold Timed.second; lia|]. split; [unfold Timed.second; lia|]. split; [unfold Timed.second; lia|].
      split; [apply inside_window; assumption|]. split; [apply inside_window; assumption|]. exact E3.
  Qed.

  Lemma entries_end base es : exists E, (base <= E)%Z /\ forall e, In e es -> (TimedMeshPlan.e_sent e <= E)%Z /\ (TimedMeshPlan.e_got e <= E)%Z.
  Proof.
    induction es as [|e es (E & H1 & H2)]; [exists base; split; [lia|intros e []]|].
    exists (Z.max E (Z.max (TimedMeshPlan.e_sent e) (TimedMeshPlan.e_got e))). split; [lia|]. intros x [<-|Hx]; [lia|]. specialize (H2 x Hx). lia.
  Qed.

  (** The windows of the fields. *)
  Lemma entries_field a b es ms ch : In a rs -> In b rs -> Forall plannable ms ->
    map TimedMeshPlan.e_msg es = map told ms -> map TimedMeshPlan.e_win es = map window_of ms ->
    (forall s, ch = Some s -> In s rs) ->
    TimedMeshPlan.field_windows (no a) (no b) es (finale_of rs ch) = wanted_windows a b ms ch.
  Proof.
    intros Ha Hb F E1 E2 Hch. unfold TimedMeshPlan.field_windows, wanted_windows. f_equal.
    - revert es E1 E2. induction F as [|m ms (R1 & R2 & _) F IH]; intros [|e es] E1 E2; try discriminate; [reflexivity|].
      cbn [map] in E1, E2. injection E1 as E1 E1'. injection E2 as E2 E2'. cbn [filter]. rewrite E1.
      unfold TimedMeshPlan.concerns at 1. cbn [told Global.from Global.into]. rewrite !no_eqb by assumption. unfold between at 1.
      destruct ((seqb (sender m) a && seqb (receiver m) b) || (seqb (sender m) b && seqb (receiver m) a)); cbn [map]; [rewrite E2; f_equal|]; apply IH; assumption.
    - destruct ch as [s|]; cbn [finale_of]; [|reflexivity]. specialize (Hch s eq_refl). rewrite !no_eqb by assumption.
      destruct (seqb a s || seqb b s); reflexivity.
  Qed.
End Entries.

(** Rounds one after the other. *)
Lemma rounds_chain (Q : nat -> Z -> list TimedMeshPlan.entry -> Z -> Prop) N :
  (forall g b, g <= N -> exists es E, Q g b es E) ->
  exists base plan, base 0 = 0%Z /\ forall g, g <= N -> Q g (base g) (plan g) (base (S g)).
Proof.
  induction N as [|N IH]; intros H.
  - destruct (H 0 0%Z (le_n _)) as (es & E & HQ). exists (fun g => match g with 0 => 0%Z | _ => E end), (fun _ => es). split; [reflexivity|].
    intros g Hg. assert (g = 0) as -> by lia. exact HQ.
  - destruct IH as (base & plan & H0 & HQ); [intros g b Hg; apply H; lia|].
    destruct (H (S N) (base (S N)) (le_n _)) as (es & E & HE).
    exists (fun g => if g <=? S N then base g else E), (fun g => if g <=? N then plan g else es). split; [exact H0|].
    intros g Hg. destruct (Nat.leb_spec g N) as [G|G].
    + assert (g <=? S N = true) as -> by (apply Nat.leb_le; lia). assert (S g <=? S N = true) as -> by (apply Nat.leb_le; lia). apply HQ, G.
    + assert (g = S N) as -> by lia. rewrite Nat.leb_refl. assert (S (S N) <=? S N = false) as -> by (apply Nat.leb_gt; lia). exact HE.
Qed.

Lemma together_sound m ms : In m ms -> forall now start, together now start ms -> exists v, in_window v m.
Proof.
  induction ms as [|x ms IH]; [intros []|]. intros Hin now start (s & t & _ & _ & _ & K & _ & K').
  destruct Hin as [->|Hin]; [eauto|]. exact (IH Hin _ _ K').
Qed.

(** ** The parts on a way *)

Definition part_at (i : option nat) (ls : list nat) (g : nat) : option nat := match g with 0 => i | S g => Some (nth g ls 0) end.
Lemma way_at p i ls : way p i ls -> forall g, g <= length ls ->
  part p (part_at i ls g) /\ (g < length ls -> exists s, part_choice p (part_at i ls g) = Some s) /\
  (g = length ls -> part_choice p (part_at i ls g) = None).
Proof.
  induction 1 as [i Hi Hc|i s l ls Hi Hc Hl H IH]; intros g Hg; cbn [length] in *.
  - assert (g = 0) as -> by lia. cbn. split; [exact Hi|]. split; [lia|auto].
  - destruct g as [|g]; [cbn; split; [exact Hi|split; [eauto|discriminate]]|].
    destruct (IH g ltac:(lia)) as (K1 & K2 & K3).
    assert (part_at i (l :: ls) (S g) = part_at (Some l) ls g) as -> by (destruct g; reflexivity).
    split; [exact K1|]. split; [intros; apply K2; lia|intros; apply K3; lia].
Qed.
Lemma way_in i ls g : g <= length ls -> part_at i ls g = i \/ exists l, In l ls /\ part_at i ls g = Some l.
Proof.
  destruct g as [|g]; [now left|]. intros H. right. exists (nth g ls 0). split; [apply nth_In; lia|reflexivity].
Qed.

Section Accepted.
  Variables (title : str -> str) (code : str -> nat) (name : str) (p : proto) (ls : list str) (f : rust_file).
  Hypothesis HT : protocol_text name p ls.
  Hypothesis HR : no_rec p.
  Hypothesis HC : clean p.
  Hypothesis HG : generator_text title ls = Fine f.
  Hypothesis H2 : 2 <= length (p_roles p).
  Hypothesis HL : letter_clocks p.
  Hypothesis HK : forall i m, part p i -> In m (part_messages p i) -> closed_window m.
  Hypothesis HU : resets_used p.

  Notation rs := (meshed_roles f).
  Notation n := (length (meshed_roles f)).
  Notation P := (global_of title code (meshed_roles f) p).
  Notation no := (number_in (meshed_roles f)).

  Lemma pl_clocks : exists clk : str -> list str, forall r ix v ty ws, In (r, ix, v, ty, ws) (functions f) -> ws = clk r.
  Proof.
    pose proof HG as G. unfold generator_text, generator in G. apply gbind_fine in G as ([[[[[x1 x2] g] x4] main] x6] & _ & G).
    destruct (negb (opening g =? closing g)); [discriminate|]. destruct (negb (output g)); [discriminate|].
    apply gbind_fine in G as (ss & _ & G). apply gbind_fine in G as (st & _ & G). apply gbind_fine in G as (eps & _ & G).
    apply gbind_fine in G as (fns & Ef & G). injection G as <-. cbn [functions].
    exists (fun r => match hget (clocks g) r with Some c => c | None => [] end).
    intros r ix v ty ws Hin. destruct (collect_in _ _ _ _ Ef Hin) as (t & l & _ & Hl & Hx).
    exact (tree_functions_clocks _ _ _ _ Hl Hx).
  Qed.
  Lemma pl_function a : In a rs -> exists ix v ty ws, In (a, ix, v, ty, ws) (functions f).
  Proof.
    intros Ha. pose proof (acc_written title name p ls f HT HR HC HG) as W. pose proof (wr_functions _ _ _ W) as E.
    assert (In (a, part_index None, 0, endpoint_name (part_text None) a) (map (fun x : str * list nat * nat * str * list str => fst x) (functions f))) as Hin.
    { rewrite E. apply in_flat_map. exists None. split; [now left|]. apply in_flat_map. exists a. split.
      - rewrite <- (wr_roles _ _ _ W). exact Ha.
      - apply in_map_iff. exists 0. split; [reflexivity|]. apply in_seq. lia. }
    apply in_map_iff in Hin as ([[[[r ix] v] ty] ws] & Ex & Hin). cbn in Ex. injection Ex as -> -> -> ->. eauto 6.
  Qed.
  Lemma pl_started clk i m a : (forall r ix v ty ws, In (r, ix, v, ty, ws) (functions f) -> ws = clk r) ->
    part p i -> In m (part_messages p i) -> In a rs -> involves a m = true -> In (clock m) (clk a).
  Proof.
    intros Hclk Hi Hm Ha Hv. destruct (pl_function a Ha) as (ix & v & ty & ws & Hin).
    pose proof (wr_clocks _ _ _ (acc_written title name p ls f HT HR HC HG) i m _ Hi Hm Hin) as K. cbn in K.
    rewrite <- (Hclk _ _ _ _ _ Hin). apply K. unfold involves in Hv. apply orb_true_iff in Hv as [E|E]; apply seqb_true in E; auto.
  Qed.

  Lemma pl_plannable i : part p i -> Forall (plannable rs) (part_messages p i).
  Proof.
    intros Hi. apply Forall_forall. intros m Hm. pose proof (acc_roles title name p ls f HT HR HC HG i Hi) as Hr.
    unfold roles_in in Hr. rewrite Forall_forall in Hr. destruct (Hr m Hm) as (R1 & R2 & R3).
    destruct (HL i m Hi Hm) as [L1 L2]. split; [exact R1|]. split; [exact R2|]. split; [exact R3|]. split; [exact (HK i m Hi Hm)|].
    split; [exact L1|]. intros r Er. destruct (L2 r Er) as [c ->]. exists c. split; [reflexivity|]. intros ->.
    destruct (spoken_text name p ls m HT) as (s & Hs); [now exists i|]. destruct Hs as [? ? ? ? ? ? ? ? ? ? ? ? ? ? ? ? ? ? ? ? ? ? ? ? ? Hw].
    rewrite Er in Hw. destruct Hw as [_ Hw]. inversion Hw as [|? ? W _]; subst.
    destruct W as [D|[D|[D|D]]]; [| | |discriminate]; unfold NuscrTextSpec.digit in *; cbn in D; lia.
  Qed.

  Lemma pl_windows i k es : part p i -> 1 <= k <= n ->
    map TimedMeshPlan.e_msg es = map (told title code rs) (part_messages p i) ->
    map TimedMeshPlan.e_win es = map window_of (part_messages p i) ->
    role_windows rs p i k = TimedMeshPlan.windows_of n k es (snd (round_of title code rs p i)).
  Proof.
    intros Hi Hk E1 E2. destruct (acc_number title code name p ls f HT HR HC HG H2 k Hk) as (a & (_ & Ha) & Hin & ->).
    unfold role_windows. rewrite Ha. unfold TimedMeshPlan.windows_of.
    pose proof (others_numbers rs a (acc_nodup title name p ls f HT HR HC HG) Hin) as On.
    transitivity (map (fun q => TimedMeshPlan.field_windows (no a) q es (snd (round_of title code rs p i)))
      (map (fun b => S (place b rs)) (filter (fun b => negb (seqb b a)) rs))).
    - rewrite map_map. apply map_ext_in. intros b Hb. apply filter_In in Hb as [Hb _]. symmetry. cbn [snd round_of].
      apply (entries_field title code rs a b es (part_messages p i) (part_choice p i)); auto; [apply pl_plannable, Hi|].
      intros s Es. pose proof (acc_chooser title name p ls f HT HR HC HG i Hi) as Hc. rewrite Es in Hc.
      destruct Hc as (? & ? & _ & Hc). exact Hc.
    - rewrite On, map_map. reflexivity.
  Qed.

  Lemma told_in i e es : map TimedMeshPlan.e_msg es = map (told title code rs) (part_messages p i) ->
    map TimedMeshPlan.e_win es = map window_of (part_messages p i) -> In e es ->
    exists m, In m (part_messages p i) /\ TimedMeshPlan.e_msg e = told title code rs m /\ TimedMeshPlan.e_win e = window_of m.
  Proof.
    revert es. induction (part_messages p i) as [|m ms IH]; intros [|x es] E1 E2 Hin; try discriminate; [destruct Hin|].
    cbn [map] in E1, E2. injection E1 as E1 E1'. injection E2 as E2 E2'. destruct Hin as [<-|Hin]; [exists m; auto using in_eq|].
    destruct (IH es E1' E2' Hin) as (m' & Hm & K). exists m'. split; [now right|exact K].
  Qed.

  Variable picks : list nat.
  Hypothesis HW : way p None picks.
  Hypothesis HF : forall i, i = None \/ (exists l, In l picks /\ i = Some l) -> followed (fun _ => 0%Q) (part_messages p i).

  Notation pick := (fun g => nth g picks 0).
  Notation ith := (part_at None picks).
  Lemma pl_path g : g <= length picks -> TimedMeshPlan.path P pick g = round_of title code rs p (ith g).
  Proof.
    induction g as [|g IH]; intros Hg; [reflexivity|]. cbn [TimedMeshPlan.path]. rewrite (IH ltac:(lia)).
    destruct (way_at p None picks HW g ltac:(lia)) as (_ & K & _). destruct (K ltac:(lia)) as (s & Es).
    cbn [snd round_of]. rewrite Es. reflexivity.
  Qed.

  Lemma pl_timetable : exists cs base plan, started_as f cs /\ base 0 = 0%Z /\
    TimedMeshPlan.timetable n (variants p) P (role_windows rs p None) (fun _ l => role_windows rs p (Some l)) cs (length picks) pick base plan.
  Proof.
    destruct pl_clocks as (clk & Hclk).
    set (cs := fun k => match nth_error rs (k - 1) with Some a => map letter (clk a) | None => [] end).
    assert (Hno : forall a, In a rs -> cs (no a) = map letter (clk a)).
    { intros a Ha. unfold cs, number_in. cbn [Nat.sub]. rewrite Nat.sub_0_r, place_nth by exact Ha. reflexivity. }
    set (Q := fun g b es E => map TimedMeshPlan.e_msg es = map (told title code rs) (part_messages p (ith g)) /\
      map TimedMeshPlan.e_win es = map window_of (part_messages p (ith g)) /\
      TimedMeshPlan.keeps (fun _ => b) (fun _ _ => b) es /\ (b <= E)%Z /\
      forall e, In e es -> (TimedMeshPlan.e_sent e <= E)%Z /\ (TimedMeshPlan.e_got e <= E)%Z).
    destruct (rounds_chain Q (length picks)) as (base & plan & H0 & HQ).
    { intros g b Hg. destruct (way_at p None picks HW g Hg) as (Hi & _ & _).
      destruct (together_keeps title code rs b (part_messages p (ith g)) (fun _ => 0%Q) (fun _ _ => 0%Q) (fun _ => b) (fun _ _ => b)) as (es & E1 & E2 & E3).
      - apply pl_plannable, Hi.
      - intros r _. change (Qfloor 0) with 0%Z. lia.
      - intros r c _. change (Qfloor 0) with 0%Z. lia.
      - apply HF. apply way_in, Hg.
      - destruct (entries_end b es) as (E & K1 & K2). exists es, E. unfold Q. auto 6. }
    exists cs, base, plan. split; [|split; [exact H0|]].
    - intros k a ix v ty ws Hk Hin. apply (number_no rs (acc_nodup title name p ls f HT HR HC HG) f eq_refl) in Hk as [-> Ha].
      rewrite (Hno a Ha), (Hclk _ _ _ _ _ Hin). reflexivity.
    - assert (Hm : forall g e, g <= length picks -> In e (plan g) -> exists m, In m (part_messages p (ith g)) /\
        TimedMeshPlan.e_msg e = told title code rs m /\ TimedMeshPlan.e_win e = window_of m).
      { intros g e Hg Hin. destruct (HQ g Hg) as (E1 & E2 & _). exact (told_in _ _ _ E1 E2 Hin). }
      constructor.
      + rewrite pl_path by lia. destruct (way_at p None picks HW (length picks) (le_n _)) as (_ & _ & K). cbn [snd round_of]. rewrite (K eq_refl). reflexivity.
      + intros g Hg. rewrite pl_path by lia. destruct (way_at p None picks HW g ltac:(lia)) as (_ & K & _). destruct (K Hg) as (s & Es).
        exists (no s), 0. cbn [snd round_of]. rewrite Es. split; [reflexivity|].
        apply (acc_part_variant p H2). apply (way_at p None picks HW (S g) ltac:(lia)).
      + intros g Hg. rewrite pl_path by lia. apply (HQ g Hg).
      + intros g Hg. apply (HQ g Hg).
      + intros g Hg. apply (HQ g Hg).
      + intros g e Hg Hin. destruct (HQ g Hg) as (_ & _ & _ & _ & K). exact (K e Hin).
      + intros g e Hg Hin. destruct (Hm g e Hg Hin) as (m & Hin' & _ & ->).
        destruct (way_at p None picks HW g Hg) as (Hi & _ & _). destruct (HK _ m Hi Hin') as (L1 & L2 & L3).
        assert (HS : exists v, in_window v m).
        { exact (together_sound m _ Hin' _ _ (HF (ith g) ltac:(apply way_in, Hg))). }
        destruct HS as (v & Hv). unfold in_window in Hv. destruct (number (lb m)) as [lo|] eqn:E1; [|contradiction].
        destruct (number (rb m)) as [hi|] eqn:E2; [|contradiction]. rewrite L1, L2 in Hv. destruct Hv as [V1 V2].
        unfold window_of. cbn [Types.w_start Types.w_end]. rewrite (bound_number _ _ E1), (bound_number _ _ E2).
        pose proof (NuscrClocks.number_nonneg _ _ E1) as P1. specialize (L3 hi eq_refl).
        assert (lo <= hi)%Z by (rewrite Zle_Qle; lra).
        assert (0 <= lo)%Z by (first [exact P1|rewrite Zle_Qle; exact P1]). lia.
      + intros g e k Hg Hin Hk. destruct (Hm g e Hg Hin) as (m & Hin' & Em & ->).
        destruct (way_at p None picks HW g Hg) as (Hi & _ & _).
        pose proof (pl_plannable _ Hi) as Hp. rewrite Forall_forall in Hp. destruct (Hp m Hin') as (R1 & R2 & _).
        assert (exists a, In a rs /\ involves a m = true /\ k = no a) as (a & Ha & Hv & ->).
        { rewrite Em in Hk. cbn in Hk. destruct Hk as [->| ->].
          - exists (sender m). split; [exact R1|]. split; [unfold involves; now rewrite seqb_refl|reflexivity].
          - exists (receiver m). split; [exact R2|]. split; [unfold involves; rewrite seqb_refl; apply orb_true_r|reflexivity]. }
        rewrite (Hno a Ha). split.
        * change (In (letter (clock m)) (map letter (clk a))). apply in_map. exact (pl_started clk _ m a Hclk Hi Hin' Ha Hv).
        * unfold window_of. cbn [Types.w_reset]. destruct (reset m) as [c|] eqn:Er; [right|now left].
          destruct (HU _ m c a Hi Hin' Er Hv) as (j & m' & Hj & Hm' & Hv' & <-). apply in_map. exact (pl_started clk _ m' a Hclk Hj Hm' Ha Hv').
      + intros k Hk. destruct (HQ 0 ltac:(lia)) as (E1 & E2 & _). rewrite pl_path by lia. exact (pl_windows None k (plan 0) Logic.I Hk E1 E2).
      + intros g k c b Hg Hk _. destruct (HQ (S g) ltac:(lia)) as (E1 & E2 & _). rewrite pl_path by lia.
        destruct (way_at p None picks HW (S g) ltac:(lia)) as (Hi & _ & _). exact (pl_windows _ k (plan (S g)) Hi Hk E1 E2).
  Qed.
End Accepted.
