(** * Windows of generated files: proofs

    Statements are in Properties_NuscrTimed.v. *)

From Coq Require Import Ascii String ZArith Arith Bool Lia Permutation List.
From Verif Require Types Wiring Session Mesh Global Timed TimedMesh TimedMeshProofs TimedMeshWindows Properties_Global.
From Verif Require Import Checker CheckerText CheckerAll Nuscr NuscrSpec NuscrFile NuscrNames NuscrText NuscrTextSpec
  Properties_Nuscr NuscrGlobalSpec NuscrGlobal NuscrSystem NuscrItems Properties_NuscrItems NuscrTimedSpec.
Import ListNotations.
Open Scope nat_scope.
Open Scope list_scope.

(** ** Numbers *)

Lemma decimal_digits v w : (0 <= v)%Z -> Forall digit w -> exists z, decimal v w = Some z /\ (0 <= z)%Z.
Proof.
  intros Hv H. revert v Hv. induction H as [|c w D _ IH]; intros v Hv; cbn [decimal]; [now exists v|].
  unfold digit in D. destruct ((48 <=? nat_of_ascii c) && (nat_of_ascii c <=? 57)) eqn:E.
  - apply IH. lia.
  - apply andb_false_iff in E. rewrite !Nat.leb_gt in E. lia.
Qed.
Lemma natural_const w : natural w -> const_as w (bound w) /\ (0 <= bound w)%Z.
Proof.
  intros [Hw D]. destruct (decimal_digits 0 w (Z.le_refl _) D) as (z & E & Hz). unfold bound. rewrite E. split; [|exact Hz].
  destruct w as [|c w]; [easy|]. now constructor.
Qed.
Lemma decimal_minus v w : decimal v ("-"%char :: w) = None.
Proof. reflexivity. Qed.
Lemma const_unique w z z' : const_as w z -> const_as w z' -> z = z'.
Proof.
  intros H H'. destruct H as [c w z H|c w z H]; inversion H' as [c' w' z0 K|c' w' z0 K]; subst; try congruence.
  - rewrite decimal_minus in H. discriminate.
  - rewrite decimal_minus in K. discriminate.
Qed.
Lemma windows_unique y ws ws' : windows_as y ws -> windows_as y ws' -> ws = ws'.
Proof.
  intros H. revert ws'. induction H as [|d P c lo zlo loi hi zhi hii r k ws Hl Hh _ IH]; intros ws' H'; inversion H'; subst; [reflexivity|].
  f_equal; [|auto]. f_equal; eapply const_unique; eauto.
Qed.

(** ** The windows of a session *)

Definition readable (m : msg) : Prop :=
  natural (lb m) /\ natural (rb m) /\ (exists c, clock m = [c]) /\ (forall r, reset m = Some r -> exists c, r = [c]).

Lemma wanted_read title a b ms ch : Forall readable ms ->
  windows_as (wanted_session title a b ms ch) (wanted_windows a b ms ch).
Proof.
  intros H. assert (const_as (lit "-2") (-2) /\ const_as (lit "-1") (-1)) as [C2 C1].
  { split; [apply (ca_minus "2"%char [] 2)|apply (ca_minus "1"%char [] 1)]; reflexivity. }
  unfold wanted_windows. induction H as [|m ms (Hl & Hr & (c & Hc) & Hres) _ IH]; cbn [wanted_session filter map app].
  - destruct ch as [s|]; [|constructor]. destruct (seqb a s); cbn [orb]; [now constructor; [..|constructor]|].
    destruct (seqb b s); [now constructor; [..|constructor]|constructor].
  - unfold between at 1.
    assert (forall d k ws, windows_as k ws -> windows_as (STimed d (title (label m)) (clock m) (lb m) (li m) (rb m) (ri m)
      (match reset m with Some c => c | None => lit " " end) k) (window_of m :: ws)) as K.
    { intros d k ws Hk. unfold window_of. rewrite Hc. cbn [letter].
      apply natural_const in Hl as [Hl _], Hr as [Hr _]. destruct (reset m) as [r|].
      - destruct (Hres r eq_refl) as (c' & ->). now constructor.
      - now apply wa_timed with (r := " "%char). }
    destruct (seqb (sender m) a && seqb (receiver m) b); cbn [orb map app]; [now apply K|].
    destruct (seqb (sender m) b && seqb (receiver m) a); cbn [map app]; [now apply K|exact IH].
Qed.

Section Accepted.
  Variables (title : str -> str) (code : str -> nat) (name : str) (p : proto) (ls : list str) (f : rust_file).
  Hypothesis HT : protocol_text name p ls.
  Hypothesis HR : no_rec p.
  Hypothesis HC : clean p.
  Hypothesis HF : no_enum_message title p.
  Hypothesis HG : generator_text title ls = Fine f.
  Hypothesis H2 : 2 <= length (p_roles p).
  Hypothesis HL : letter_clocks p.

  Notation rs := (meshed_roles f).
  Notation n := (length (meshed_roles f)).
  Notation P := (global_of title code (meshed_roles f) p).
  Notation no := (number_in (meshed_roles f)).

  Lemma tim_nodup : NoDup rs.
  Proof. exact (acc_nodup title name p ls f HT HR HC HG). Qed.
  Lemma tim_in a : In a rs <-> In a (p_roles p).
  Proof. exact (acc_in title name p ls f HT HR HC HG a). Qed.
  Lemma tim_number k a : role_number f k a -> k = no a /\ In a rs.
  Proof. apply (number_no rs tim_nodup f eq_refl). Qed.

  Lemma tim_readable i m : part p i -> In m (part_messages p i) -> readable m.
  Proof.
    intros Hi Hm. destruct (spoken_text name p ls m HT) as (s & Hs); [now exists i|]. destruct Hs. 
    destruct (HL i m Hi Hm) as [L1 L2]. split; [assumption|]. split; [assumption|]. split; assumption.
  Qed.

  Lemma tim_endpoint i a : part p i -> In a rs -> exists e, In e (endpoint_types f) /\
    ep_name e = endpoint_name (part_text i) a /\ endpoint_windows f e (role_windows rs p i (no a)).
  Proof.
    intros Hi Ha. pose proof (proj1 (tim_in a) Ha) as Ha'.
    destruct (generated_endpoints title name p ls f i a HT HR (proj1 HC) HG Hi Ha') as (_ & _ & e & E1 & E2 & E3 & E4 & E5).
    exists e. do 2 (split; [assumption|]). unfold endpoint_windows, role_windows, number_in. cbn [Nat.sub].
    rewrite Nat.sub_0_r, (place_nth a rs Ha). clear E5. revert E4. generalize (filter (fun b => negb (seqb b a)) rs).
    intros l E4. induction E4 as [|b nm l l' H _ IH]; cbn [map]; constructor; [|exact IH].
    eexists. split; [exact H|]. apply wanted_read. apply Forall_forall. intros m Hm. exact (tim_readable i m Hi Hm).
  Qed.

  Lemma tim_unique_endpoint e W W' : endpoint_windows f e W -> endpoint_windows f e W' -> W = W'.
  Proof.
    destruct (generated_names_distinct title name p ls f HT HR HC HG) as (_ & U1 & _).
    unfold endpoint_windows. intros F. revert W'. induction F as [|nm s l l' (z & Z1 & Z2) _ IH]; intros W' F2; inversion F2; subst; [reflexivity|].
    destruct H1 as (z' & Z1' & Z2'). rewrite (U1 nm z' z Z1' Z1) in Z2'. f_equal; [eapply windows_unique; eauto|auto].
  Qed.

  Lemma tim_system : timed_system_as f code (variants p) (Global.proj n (Global.first_round P)) (Properties_Global.branches P n)
    (role_windows rs p None) (fun _ l => role_windows rs p (Some l)).
  Proof.
    split.
    - exact (acc_system title code name p ls f HT HR HC HF HG H2).
    - intros k a Hk. apply tim_number in Hk as [-> Ha]. exact (tim_endpoint None a Logic.I Ha).
    - intros l k a Hl Hk. apply tim_number in Hk as [-> Ha]. apply (acc_part_variant p H2 l) in Hl.
      exact (tim_endpoint (Some l) a Hl Ha).
  Qed.

  Lemma tim_unique labels T B W BW : timed_system_as f code labels T B W BW ->
    (forall k, 1 <= k <= n -> W k = role_windows rs p None k) /\
    (forall b l k, l < labels b -> 1 <= k <= n -> BW b l k = role_windows rs p (Some l) k).
  Proof.
    intros Y. pose proof (acc_labels title code name p ls f HT HR HC HG H2 labels T B (tsys_types _ _ _ _ _ _ _ Y)) as El. split.
    - intros k Hk. destruct (acc_number title code name p ls f HT HR HC HG H2 k Hk) as (a & Ha & Hin & Ek).
      destruct (tsys_start _ _ _ _ _ _ _ Y k a Ha) as (e & E1 & E2 & E3).
      destruct (tim_endpoint None a Logic.I Hin) as (e' & E1' & E2' & E3'). rewrite <- Ek in E3'.
      assert (e = e') as <- by (apply (acc_endpoint_name title name p ls f HT HR HC HG); auto; cbn [part_text] in *; congruence).
      exact (tim_unique_endpoint _ _ _ E3 E3').
    - intros b l k Hl Hk. pose proof Hl as Hl'. rewrite El in Hl'. destruct b as [|b]; [|cbn in Hl'; lia].
      apply (acc_part_variant p H2 l) in Hl'.
      destruct (acc_number title code name p ls f HT HR HC HG H2 k Hk) as (a & Ha & Hin & Ek).
      destruct (tsys_branches _ _ _ _ _ _ _ Y l k a Hl Ha) as (e & E1 & E2 & E3).
      destruct (tim_endpoint (Some l) a Hl' Hin) as (e' & E1' & E2' & E3'). rewrite <- Ek in E3'.
      assert (e = e') as <- by (apply (acc_endpoint_name title name p ls f HT HR HC HG); auto; cbn [part_text] in *; congruence).
      exact (tim_unique_endpoint _ _ _ E3 E3').
  Qed.

  (** ** The windows along an execution *)

  (** A window of role [k] on its field [j] is that of a message. *)
  Definition from_message (k j : nat) (d : bool) (t : nat) (w : Types.window) : Prop :=
    exists a b, nth_error rs (k - 1) = Some a /\ nth_error (filter (fun b => negb (seqb b a)) rs) j = Some b /\
    exists i m, part p i /\ In m (part_messages p i) /\ t = code (title (label m)) /\ w = window_of m /\
      (if d then sender m = a /\ receiver m = b else sender m = b /\ receiver m = a).

  Lemma tim_covers i a b j ms : part p i -> incl ms (part_messages p i) -> In a rs ->
    nth_error (filter (fun b => negb (seqb b a)) rs) j = Some b ->
    TimedMeshWindows.covers from_message (no a) j
      (Global.sess_of (no a) (no b) (map (told title code rs) ms) (finale_of rs (part_choice p i)))
      (wanted_windows a b ms (part_choice p i)).
  Proof.
    intros Hi Hms Ha Hj. assert (In b rs /\ a <> b) as [Hb Hab].
    { pose proof (nth_error_In _ _ Hj) as Hb. apply filter_In in Hb as [Hb E]. apply negb_true_iff, seqb_false in E. auto. }
    assert (nth_error rs (no a - 1) = Some a) as Ea.
    { unfold number_in. cbn [Nat.sub]. rewrite Nat.sub_0_r. now apply place_nth. }
    pose proof (acc_roles title name p ls f HT HR HC HG i Hi) as Hr.
    unfold wanted_windows. induction ms as [|m ms IH]; cbn [map Global.sess_of filter app].
    - pose proof (acc_chooser title name p ls f HT HR HC HG i Hi) as Hs.
      destruct (part_choice p i) as [s|]; cbn [finale_of Global.last_sess]; [|exact Logic.I].
      destruct Hs as (_ & _ & _ & Hs). rewrite !(no_eqb rs) by assumption.
      destruct (seqb a s); cbn [orb]; [now split|]. destruct (seqb b s); now split || exact Logic.I.
    - assert (incl ms (part_messages p i)) as Hms' by (intros x Hx; apply Hms; now right). specialize (IH Hms').
      assert (In m (part_messages p i)) as Hm by (apply Hms; now left).
      unfold roles_in in Hr. rewrite Forall_forall in Hr. destruct (Hr m Hm) as (R1 & R2 & R3).
      cbn [told Global.from Global.into Global.what]. rewrite !(no_eqb rs) by assumption. unfold between at 1.
      destruct (seqb (sender m) a && seqb (receiver m) b) eqn:E1; cbn [orb map app].
      + split; [|exact IH]. apply andb_prop in E1 as [E1 E2]. apply seqb_true in E1, E2.
        exists a, b. split; [exact Ea|]. split; [exact Hj|]. exists i, m. auto 8.
      + destruct (seqb (sender m) b && seqb (receiver m) a) eqn:E2; cbn [map app]; [|exact IH].
        split; [|exact IH]. apply andb_prop in E2 as [E2 E3]. apply seqb_true in E2, E3.
        exists a, b. split; [exact Ea|]. split; [exact Hj|]. exists i, m. auto 8.
  Qed.

  Lemma tim_covered i k : part p i -> 1 <= k <= n ->
    TimedMeshWindows.covered from_message k 0 (fst (Global.proj n (round_of title code rs p i) k)) (role_windows rs p i k).
  Proof.
    intros Hi Hk. destruct (acc_number title code name p ls f HT HR HC HG H2 k Hk) as (a & (_ & Ha) & Hin & ->).
    unfold role_windows. rewrite Ha. cbn [Global.proj fst]. unfold Global.sessions_of, number_in.
    pose proof (others_numbers rs a tim_nodup Hin) as On.
    replace (map (fun i0 => Global.sess_of (S (place a rs)) (Mesh.other (S (place a rs)) i0)
        (fst (round_of title code rs p i)) (snd (round_of title code rs p i))) (seq 1 (n - 1)))
      with (map (fun b => Global.sess_of (no a) (no b) (map (told title code rs) (part_messages p i))
              (finale_of rs (part_choice p i))) (filter (fun b => negb (seqb b a)) rs)).
    - assert (forall j b, nth_error (filter (fun b => negb (seqb b a)) rs) (0 + j) = Some b ->
                nth_error (filter (fun b => negb (seqb b a)) rs) j = Some b) as K by trivial.
      assert (forall l j, (forall g b, nth_error l g = Some b ->
          nth_error (filter (fun b => negb (seqb b a)) rs) (j + g) = Some b) ->
        TimedMeshWindows.covered from_message (no a) j
          (map (fun b => Global.sess_of (no a) (no b) (map (told title code rs) (part_messages p i)) (finale_of rs (part_choice p i))) l)
          (map (fun b => wanted_windows a b (part_messages p i) (part_choice p i)) l)) as C.
      { induction l as [|b l IH]; intros j Hl; cbn [map]; constructor.
        - apply tim_covers; [exact Hi|apply incl_refl|exact Hin|]. rewrite <- (Nat.add_0_r j). now apply Hl.
        - apply IH. intros g x Hx. rewrite Nat.add_succ_comm. now apply Hl. }
      apply (C _ 0). intros g b Hb. exact Hb.
    - transitivity (map (fun q => Global.sess_of (no a) q (fst (round_of title code rs p i)) (snd (round_of title code rs p i)))
        (map (fun b => S (place b rs)) (filter (fun b => negb (seqb b a)) rs))); [now rewrite map_map|].
      rewrite On, map_map. reflexivity.
  Qed.

  Lemma tim_field k x a b : role_number f k a -> role_number f x b -> a <> b ->
    nth_error (filter (fun b => negb (seqb b a)) rs) (Wiring.comm_field k x - 1) = Some b.
  Proof.
    intros Hk Hx Hab. apply tim_number in Hk as [-> Ha], Hx as [-> Hb].
    assert (no a <> no b) as Hne.
    { intros E. pose proof (no_eqb rs a b Ha Hb) as K. rewrite E, Nat.eqb_refl in K. symmetry in K. now apply seqb_true in K. }
    pose proof (others_numbers rs a tim_nodup Ha) as On.
    assert (1 <= no b <= n) as Bb by (unfold number_in; pose proof (place_lt b rs Hb); lia).
    assert (1 <= no a <= n) as Ba by (unfold number_in; pose proof (place_lt a rs Ha); lia).
    assert (nth_error (map (fun b => S (place b rs)) (filter (fun b => negb (seqb b a)) rs)) (Wiring.comm_field (no a) (no b) - 1) = Some (no b)) as E.
    { rewrite On. change (S (place a rs)) with (no a). 
      assert (Wiring.comm_field (no a) (no b) - 1 < n - 1 /\ Mesh.other (no a) (Wiring.comm_field (no a) (no b)) = no b /\
              1 <= Wiring.comm_field (no a) (no b)) as (K1 & K2 & K3).
      { unfold Wiring.comm_field, Mesh.other. destruct (Nat.leb_spec (no a) (no b)).
        - destruct (Nat.leb_spec (no a) (no b - 1)); lia.
        - destruct (Nat.leb_spec (no a) (no b)); lia. }
      erewrite map_nth_error; [f_equal; exact K2|]. rewrite (nth_error_nth' _ 0) by (now rewrite seq_length).
      rewrite seq_nth by exact K1. f_equal. lia. }
    rewrite nth_error_map in E. destruct (nth_error (filter _ rs) _) as [b'|] eqn:En; [|discriminate]. injection E as E.
    apply nth_error_In, filter_In in En as [Hb' _]. f_equal. 
    pose proof (no_eqb rs b' b Hb' Hb) as K. unfold number_in in K. cbn [Nat.eqb] in K. rewrite E, Nat.eqb_refl in K. symmetry in K. now apply seqb_true in K.
  Qed.
End Accepted.
