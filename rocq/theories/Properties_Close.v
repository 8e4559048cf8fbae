(** C29: what the close functions take for a clean end. C30: closing all roles from one thread. *)
From Coq Require Import List Arith Bool Lia.
From Verif Require Import Broadcast Diag Wiring WiringProofs Properties_Wiring Close.
Import ListNotations.

(** Every channel occurs once, as the one or the other end of one [End]. *)
Definition ts (es : list ending) : list nat := map fst es.
Definition rs (es : list ending) : list nat := map snd es.
Definition apart (es : list ending) : Prop := NoDup (ts es) /\ NoDup (rs es) /\ forall c, In c (ts es) -> ~ In c (rs es).

(** A peer has dropped one of its ends. *)
Definition peer_gone (es : list ending) (h : chans) : Prop :=
  exists t r, In (t, r) es /\ (tx (h r) = false \/ rx (h t) = false).

Definition variants : list variant := [close_method; close_macro; close_macro_cancel; close_macro_check].

(** ** Dropping keeps what concerns the peers *)

Lemma in_ts : forall es t r, In (t, r) es -> In t (ts es).
Proof. intros es t r H. apply (in_map fst) in H. exact H. Qed.
Lemma in_rs : forall es t r, In (t, r) es -> In r (rs es).
Proof. intros es t r H. apply (in_map snd) in H. exact H. Qed.

Lemma drop_end_keeps : forall h e c,
  (c <> fst e -> tx (drop_end h e c) = tx (h c)) /\ (c <> snd e -> rx (drop_end h e c) = rx (h c)).
Proof.
  intros h [t r] c. unfold drop_end, set_chan. cbn. destruct (Nat.eqb_spec c r) as [->|H1]; cbn.
  - destruct (Nat.eqb_spec r t) as [->|H2]; cbn; split; intros; congruence.
  - destruct (Nat.eqb_spec c t) as [->|H2]; cbn; split; intros; congruence.
Qed.
Lemma drop_ends_keeps : forall es h c,
  (~ In c (ts es) -> tx (drop_ends es h c) = tx (h c)) /\ (~ In c (rs es) -> rx (drop_ends es h c) = rx (h c)).
Proof.
  induction es as [|e es IH]; intros h c; [auto|]. destruct (IH (drop_end h e) c) as [I1 I2].
  destruct (drop_end_keeps h e c) as [J1 J2]. cbn [drop_ends fold_left ts rs map]. cbn in I1, I2. split; intros Hn.
  - unfold drop_ends in I1. rewrite I1; [apply J1|]; intros Hx; apply Hn; [left; congruence|right; exact Hx].
  - unfold drop_ends in I2. rewrite I2; [apply J2|]; intros Hx; apply Hn; [left; congruence|right; exact Hx].
Qed.
Lemma drop_ends_gone : forall es h, apart es -> peer_gone es h -> peer_gone es (drop_ends es h).
Proof.
  intros es h (A1 & A2 & A3) (t & r & Hin & Hg). exists t, r. split; [exact Hin|]. pose proof (in_ts _ _ _ Hin) as Ht. pose proof (in_rs _ _ _ Hin) as Hr.
  destruct (drop_ends_keeps es h r) as [K1 _]. destruct (drop_ends_keeps es h t) as [_ K2].
  rewrite K1, K2; [exact Hg|intros Hx; exact (A3 _ Ht Hx)|intros Hx; exact (A3 _ Hx Hr)].
Qed.

(** ** Any execution *)

Definition good (v : variant) (es : list ending) (s : cstate) : Prop :=
  match pt s with
  | Sending k => seen s = [] /\ (ignores v = false -> sent s = k) /\ k <= length es
  | Receiving k => length (seen s) = k /\ k <= length es /\ Forall (fun g => accepts v g = true) (seen s) /\ (ignores v = false -> sent s = length es)
  | Ended Fine => length (seen s) = length es /\ Forall (fun g => accepts v g = true) (seen s) /\ (ignores v = false -> sent s = length es)
  | Ended Error => (ignores v = false \/ on_recv_err v = Error) /\ Forall (fun g => accepts v g = true) (seen s) /\ peer_gone es (heap_ s)
  | Ended Panic => (exists g l, seen s = g :: l /\ accepts v g = false /\ Forall (fun g => accepts v g = true) l) \/
                   on_recv_err v = Panic /\ Forall (fun g => accepts v g = true) (seen s) /\ peer_gone es (heap_ s)
  end.

Lemma good_run : forall v es h s, apart es -> on_recv_err v <> Fine -> crun v es (begin h) s -> good v es s.
Proof.
  intros v es h s A Hv R. pose proof A as (A1 & A2 & A3).
  induction R as [|s1 s2 R IH E|s1 s2 R IH E].
  - cbn. repeat split; auto. lia.
  - assert (Hg : peer_gone es (heap_ s1) -> peer_gone es (heap_ s2)).
    { intros (t' & r' & Hin' & Hg). exists t', r'. split; [exact Hin'|].
      pose proof (in_ts _ _ _ Hin') as Ht'. pose proof (in_rs _ _ _ Hin') as Hr'.
      destruct E as [hh p g m t r x Hin E1 E2 E3|hh p g m t r Hin|hh p g m t r x Hin E1 E2|hh p g m t r Hin]; cbn in *;
        pose proof (in_ts _ _ _ Hin) as Ht; pose proof (in_rs _ _ _ Hin) as Hr; unfold set_chan;
        [destruct (Nat.eqb_spec r' r) as [->|], (Nat.eqb_spec t' r) as [->|]
        |destruct (Nat.eqb_spec r' r) as [->|], (Nat.eqb_spec t' r) as [->|]
        |destruct (Nat.eqb_spec r' t) as [->|], (Nat.eqb_spec t' t) as [->|]
        |destruct (Nat.eqb_spec r' t) as [->|], (Nat.eqb_spec t' t) as [->|]]; cbn; auto;
        try (exfalso; eapply A3; eassumption); destruct Hg as [Hg|Hg]; auto; congruence. }
    assert (Hs : pt s2 = pt s1 /\ seen s2 = seen s1 /\ sent s2 = sent s1) by (destruct E; cbn; auto).
    destruct Hs as (S1 & S2 & S3). unfold good in *. rewrite S1, S2, S3.
    destruct (pt s1) as [k|k|[| |]]; try exact IH.
    + destruct IH as (I1 & I2 & I3). auto.
    + destruct IH as [IH|(I1 & I2 & I3)]; [left; exact IH|right; auto].
  - destruct s1 as [hh p g m]. unfold good in IH. cbn [pt seen sent heap_] in IH. destruct p as [k|k|o]; cbn in E; [| |discriminate].
    + destruct IH as (-> & I2 & I3). destruct (nth_error es k) as [[t r]|] eqn:Ek.
      * assert (Hk : k < length es) by (apply nth_error_Some; congruence).
        destruct (rx (hh t)) eqn:Er.
        -- destruct (place1 (hh t)); [discriminate|]. injection E as <-. cbn. repeat split; auto. all: try lia. all: intros Hi; rewrite (I2 Hi); reflexivity.
        -- destruct (ignores v) eqn:Ei; injection E as <-; cbn.
           ++ repeat split; auto; congruence.
           ++ split; [auto|]. split; [constructor|]. apply drop_ends_gone; [exact A|]. exists t, r. split; [eapply nth_error_In; eauto|auto].
      * apply nth_error_None in Ek. injection E as <-. cbn. repeat split; auto; [lia|]. intros Hi. rewrite (I2 Hi). lia.
    + destruct IH as (I1 & I2 & I3 & I4). destruct (nth_error es k) as [[t r]|] eqn:Ek.
      * assert (Hk : k < length es) by (apply nth_error_Some; congruence).
        destruct (place1 (hh r)) as [x|] eqn:Ep.
        -- destruct (accepts v x) eqn:Ea; injection E as <-; cbn.
           ++ repeat split; auto.
           ++ left. exists x, g. auto.
        -- destruct (tx (hh r)) eqn:Et; [discriminate|]. injection E as <-. unfold good. cbn [pt seen heap_].
           assert (Hg : peer_gone es (drop_ends es hh)).
           { apply drop_ends_gone; [exact A|]. exists t, r. split; [eapply nth_error_In; eauto|auto]. }
           destruct (on_recv_err v) eqn:Eo; [congruence| |].
           ++ auto.
           ++ right. auto.
      * apply nth_error_None in Ek. injection E as <-. cbn. repeat split; auto. lia.
Qed.

(** The four families of close functions, any number of roles, any behaviour of the peers.
    The method close, the three-role [close_mpst], the binary close: [Ok] exactly for a Stop from every peer, panic exactly on
    a signal other than Stop, [Err] only when a peer has dropped an end.
    The macros [close_mpst!] and [close_mpst_cancel!]: never a panic; [Ok] with one signal of any kind per peer.
    [close_mpst_check_cancel!]: never an [Err]; [Ok] only without Cancel, panic on Cancel or when a peer has dropped an end.
    The variants that return a failed send have delivered Stop to everybody when they return [Ok]. *)
Theorem close_verdicts : forall es h s, apart es ->
  (crun close_method es (begin h) s ->
     (pt s = Ended Fine -> seen s = repeat Stop (length es) /\ sent s = length es) /\
     (pt s = Ended Panic -> exists g l, seen s = g :: l /\ g <> Stop) /\
     (pt s = Ended Error -> peer_gone es (heap_ s) /\ forall g, In g (seen s) -> g = Stop)) /\
  (crun close_macro es (begin h) s ->
     (pt s = Ended Fine -> length (seen s) = length es) /\ pt s <> Ended Panic /\
     (pt s = Ended Error -> peer_gone es (heap_ s))) /\
  (crun close_macro_cancel es (begin h) s ->
     (pt s = Ended Fine -> length (seen s) = length es /\ sent s = length es) /\ pt s <> Ended Panic /\
     (pt s = Ended Error -> peer_gone es (heap_ s))) /\
  (crun close_macro_check es (begin h) s ->
     (pt s = Ended Fine -> length (seen s) = length es /\ ~ In Cancel (seen s)) /\ pt s <> Ended Error /\
     (pt s = Ended Panic -> (exists l, seen s = Cancel :: l) \/ peer_gone es (heap_ s))).
Proof.
  intros es h s A. split; [|split; [|split]]; intros R;
    match type of R with crun ?v _ _ _ => pose proof (good_run v es h s A ltac:(discriminate) R) as G end; unfold good in G.
  - assert (Hstop : forall l, Forall (fun g => accepts close_method g = true) l -> l = repeat Stop (length l)).
    { induction 1 as [|g l Hg _ IH]; [reflexivity|]. cbn in *. destruct g; try discriminate. congruence. }
    split; [|split]; intros E; rewrite E in G.
    + destruct G as (G1 & G2 & G3). split; [rewrite <- G1; auto|auto].
    + destruct G as [(g & l & G1 & G2 & G3)|(G1 & _)]; [|discriminate]. exists g, l. split; [exact G1|]. intros ->. discriminate.
    + destruct G as (_ & G2 & G3). split; [exact G3|]. intros g Hg. rewrite (Hstop _ G2) in Hg. apply repeat_spec in Hg. exact Hg.
  - split; [|split].
    + intros E. rewrite E in G. tauto.
    + intros E. rewrite E in G. destruct G as [(g & l & _ & G & _)|(G & _)]; discriminate.
    + intros E. rewrite E in G. tauto.
  - split; [|split].
    + intros E. rewrite E in G. destruct G as (G1 & _ & G3). auto.
    + intros E. rewrite E in G. destruct G as [(g & l & _ & G & _)|(G & _)]; discriminate.
    + intros E. rewrite E in G. tauto.
  - split; [|split].
    + intros E. rewrite E in G. destruct G as (G1 & G2 & _). split; [exact G1|]. intros Hc.
      rewrite Forall_forall in G2. apply G2 in Hc. discriminate.
    + intros E. rewrite E in G. destruct G as ([G|G] & _); discriminate.
    + intros E. rewrite E in G. destruct G as [(g & l & G1 & G2 & _)|(_ & _ & G)]; [left|right; exact G].
      exists l. destruct g; try discriminate. exact G1.
Qed.
Print Assumptions close_verdicts.

(** ** When everybody sends Stop, all variants return Ok *)

Lemma calone_sends : forall v b a h g m f,
  NoDup (ts b) -> (forall t, In t (ts b) -> place1 (h t) = None /\ rx (h t) = true) ->
  exists h', calone v (a ++ b) (length b + 1 + f) (CState h (Sending (length a)) g m) =
             calone v (a ++ b) f (CState h' (Receiving 0) g (m + length b)) /\
    (forall t, In t (ts b) -> h' t = Chan (Some Stop) (tx (h t)) true) /\
    (forall c, ~ In c (ts b) -> h' c = h c).
Proof.
  induction b as [|[t r] b IH]; intros a h g m f N F.
  - exists h. rewrite app_nil_r, Nat.add_0_r. cbn [length Nat.add calone cstep]. rewrite (proj2 (nth_error_None a (length a)) (le_n _)).
    split; [reflexivity|]. split; [intros t []|auto].
  - cbn [ts map fst] in N. inversion N as [|? ? N1 N2]; subst.
    destruct (F t) as [F1 F2]; [left; reflexivity|].
    cbn [length Nat.add calone cstep]. rewrite nth_error_app2 by lia. rewrite Nat.sub_diag. cbn [nth_error]. rewrite F2, F1.
    replace (S (length a)) with (length (a ++ [(t, r)])) by (rewrite app_length; cbn; lia).
    set (h1 := set_chan h t (Chan (Some Stop) (tx (h t)) true)).
    assert (Hne : forall c, In c (ts b) -> (c =? t) = false) by (intros c Hc; apply Nat.eqb_neq; intros ->; contradiction).
    destruct (IH (a ++ [(t, r)]) h1 g (S m) f N2) as (h' & I1 & I2 & I3).
    { intros c Hc. unfold h1, set_chan. rewrite (Hne c Hc). apply F. right; exact Hc. }
    rewrite <- app_assoc in I1. cbn [app] in I1. exists h'. split; [rewrite I1; f_equal; f_equal; lia|]. split.
    + intros c [<-|Hc].
      * cbn [fst]. rewrite (I3 t N1). unfold h1, set_chan. cbn. rewrite Nat.eqb_refl. reflexivity.
      * rewrite (I2 c Hc). unfold h1, set_chan. rewrite (Hne c Hc). reflexivity.
    + intros c Hc. rewrite (I3 c) by (intros Hx; apply Hc; right; exact Hx). unfold h1, set_chan.
      destruct (Nat.eqb_spec c t) as [->|]; [exfalso; apply Hc; left; reflexivity|reflexivity].
Qed.
Lemma calone_recvs : forall v b a h g m f, accepts v Stop = true ->
  NoDup (rs b) -> (forall r, In r (rs b) -> place1 (h r) = Some Stop) ->
  exists h', calone v (a ++ b) (length b + 1 + f) (CState h (Receiving (length a)) g m) =
             CState h' (Ended Fine) (repeat Stop (length b) ++ g) m.
Proof.
  intros v b. induction b as [|[t r] b IH]; intros a h g m f Ha N F.
  - exists (drop_ends a h). rewrite app_nil_r. cbn [length Nat.add calone cstep]. rewrite (proj2 (nth_error_None a (length a)) (le_n _)).
    destruct f; reflexivity.
  - cbn [rs map snd] in N. inversion N as [|? ? N1 N2]; subst.
    cbn [length Nat.add calone cstep]. rewrite nth_error_app2 by lia. rewrite Nat.sub_diag. cbn [nth_error].
    rewrite (F r) by (left; reflexivity). rewrite Ha.
    replace (S (length a)) with (length (a ++ [(t, r)])) by (rewrite app_length; cbn; lia).
    destruct (IH (a ++ [(t, r)]) (set_chan h r (Chan None (tx (h r)) (rx (h r)))) (Stop :: g) m f Ha N2) as (h' & I1).
    { intros c Hc. unfold set_chan. destruct (Nat.eqb_spec c r) as [->|]; [contradiction|]. apply F. right; exact Hc. }
    rewrite <- app_assoc in I1. cbn [app] in I1. exists h'. rewrite I1. f_equal. clear. induction (length b) as [|k IH]; [reflexivity|]. cbn. rewrite IH. reflexivity.
Qed.
Lemma calone_fine : forall v es h f, In v variants -> NoDup (ts es) -> NoDup (rs es) ->
  (forall t, In t (ts es) -> place1 (h t) = None /\ rx (h t) = true) ->
  (forall r, In r (rs es) -> place1 (h r) = Some Stop \/ In r (ts es)) ->
  exists h', calone v es (2 * length es + 2 + f) (begin h) = CState h' (Ended Fine) (repeat Stop (length es)) (length es).
Proof.
  intros v es h f Hv N1 N2 F1 F2.
  assert (Ha : accepts v Stop = true) by (destruct Hv as [<-|[<-|[<-|[<-|[]]]]]; reflexivity).
  destruct (calone_sends v es [] h [] 0 (length es + 1 + f) N1 F1) as (h1 & C1 & C2 & C3).
  destruct (calone_recvs v es [] h1 [] (length es) f Ha N2) as (h2 & C4).
  { intros r Hr. destruct (in_dec Nat.eq_dec r (ts es)) as [Hi|Hi].
    - rewrite (C2 r Hi). reflexivity.
    - rewrite (C3 r Hi). destruct (F2 r Hr); [assumption|contradiction]. }
  exists h2. cbn [app length] in *. unfold begin. replace (2 * length es + 2 + f) with (length es + 1 + (length es + 1 + f)) by lia.
  rewrite C1. cbn [Nat.add]. rewrite C4, app_nil_r. reflexivity.
Qed.

(** All variants agree, and return [Ok], when every peer has sent Stop and is still there. *)
Theorem close_variants_agree_on_stop : forall v es h, In v variants -> apart es ->
  (forall t, In t (ts es) -> place1 (h t) = None /\ rx (h t) = true) ->
  (forall r, In r (rs es) -> place1 (h r) = Some Stop) ->
  exists fuel, pt (calone v es fuel (begin h)) = Ended Fine /\ seen (calone v es fuel (begin h)) = repeat Stop (length es) /\
    sent (calone v es fuel (begin h)) = length es.
Proof.
  intros v es h Hv (A1 & A2 & _) F1 F2. exists (2 * length es + 2 + 0).
  destruct (calone_fine v es h 0 Hv A1 A2 F1) as (h' & ->); [auto|]. cbn. auto.
Qed.
Print Assumptions close_variants_agree_on_stop.

(** ** They disagree on anything else *)

(** Three roles: the peers have put the signals x and y. *)
Definition ends2 : list ending := [(0, 1); (2, 3)].
Definition told2 (x y : bsig) : chans := fun c => match c with 1 => Chan (Some x) true true | 3 => Chan (Some y) true true | _ => Chan None true true end.
Lemma apart2 : apart ends2.
Proof. split; [|split]; cbn; [repeat constructor; cbn; intuition discriminate|repeat constructor; cbn; intuition discriminate|intros c [<-|[<-|[]]]; intuition discriminate]. Qed.

Lemma calone_run : forall v es h fuel, crun v es (begin h) (calone v es fuel (begin h)).
Proof.
  intros v es h fuel. assert (H : forall s, crun v es (begin h) s -> crun v es (begin h) (calone v es fuel s)); [|apply H, CRStart].
  induction fuel as [|f IH]; intros s R; [exact R|]. cbn. destruct (cstep v es s) eqn:E; [|exact R]. apply IH. eapply CROwn; eauto.
Qed.

(** C29 is false: with Cancel from one peer, [close_mpst!] and [close_mpst_cancel!] return [Ok], [close_mpst_check_cancel!] and the method panic;
    with an offer from one peer, [close_mpst_check_cancel!] returns [Ok] as well. *)
Theorem close_accepts_only_stop_refuted :
  (exists s, crun close_macro ends2 (begin (told2 Stop Cancel)) s /\ pt s = Ended Fine /\ In Cancel (seen s)) /\
  (exists s, crun close_macro_cancel ends2 (begin (told2 Stop Cancel)) s /\ pt s = Ended Fine /\ In Cancel (seen s)) /\
  (exists s, crun close_macro_check ends2 (begin (told2 Stop Cancel)) s /\ pt s = Ended Panic) /\
  (exists s, crun close_macro_check ends2 (begin (told2 Stop (Offer 7))) s /\ pt s = Ended Fine /\ In (Offer 7) (seen s)) /\
  (exists s, crun close_method ends2 (begin (told2 Stop Cancel)) s /\ pt s = Ended Panic) /\
  (exists s, crun close_method ends2 (begin (told2 Stop (Offer 7))) s /\ pt s = Ended Panic).
Proof.
  repeat split; eexists; (split; [apply (calone_run _ _ _ 10)|]); cbn; auto.
Qed.
Print Assumptions close_accepts_only_stop_refuted.

(** A peer that has left without a signal: an error, or a panic for [close_mpst_check_cancel!]. The first variant fails at
    the send and receives nothing. *)
Example close_after_a_death :
  let h : chans := fun c => match c with 0 => Chan None true false | 1 => Chan None false true | 3 => Chan (Some Stop) true true | _ => Chan None true true end in
  map (fun v => let s := calone v ends2 10 (begin h) in (pt s, seen s, sent s)) variants =
    [(Ended Error, [], 0); (Ended Error, [], 1); (Ended Error, [], 0); (Ended Panic, [], 1)].
Proof. reflexivity. Qed.

(** ** C30 *)

Lemma end_of_inj : forall e e', fst (end_of e) = fst (end_of e') -> e = e'.
Proof. intros [k b] [k' b'] H. destruct b, b'; cbn in H; f_equal; lia. Qed.
Lemma end_of_inj' : forall e e', snd (end_of e) = snd (end_of e') -> e = e'.
Proof. intros [k b] [k' b'] H. destruct b, b'; cbn in H; f_equal; lia. Qed.

Lemma other_end_present : forall n ms k b, 2 <= n -> connected n ms -> In (k, b) (concat ms) -> In (k, negb b) (concat ms).
Proof.
  intros n ms k b Hn C H. apply in_concat in H as (fs & Hfs & H). destruct (In_nth_error _ _ Hfs) as [i Ei]. destruct (In_nth_error _ _ H) as [j Ej].
  assert (Hi : i < n) by (rewrite <- (conn_len _ _ C); apply nth_error_Some; congruence).
  assert (Hj : j < n - 1) by (rewrite <- (conn_fields _ _ C fs Hfs); apply nth_error_Some; congruence).
  (* the peer of field j of role i+1 *)
  set (p := if j <? i then S j else S (S j)).
  assert (Hp : 1 <= p <= n /\ S i <> p /\ field_pos (S i) p = j).
  { unfold p, field_pos. destruct (Nat.ltb_spec j i) as [Hji|Hji]; (split; [lia|]); (split; [lia|]).
    - destruct (Nat.ltb_spec (S j) (S i)); lia.
    - destruct (Nat.ltb_spec (S (S j)) (S i)); lia. }
  destruct Hp as (P1 & P2 & P3). destruct (conn_pair _ _ C (S i) p ltac:(lia) P1 P2) as (k' & b' & S1 & S2).
  unfold session_with in S1, S2. cbn in S1. rewrite Nat.sub_0_r, Ei, P3, Ej in S1. injection S1 as <- <-.
  destruct (nth_error ms (p - 1)) as [gs|] eqn:Eg; [|discriminate]. apply in_concat. exists gs. split; eapply nth_error_In; eauto.
Qed.

(** One thread holding all n endpoints: [close_mpst_interleaved] never blocks and returns [Ok], having received one Stop on each of the
    n(n-1) ends; for both generated and three-role variant (and the others). *)
Theorem interleaved_close_returns : forall n v, 2 <= n -> In v variants ->
  exists ms, solo n = Some ms /\ length (concat ms) = n * (n - 1) /\
    forall fuel, 2 * (n * (n - 1)) + 2 <= fuel ->
      pt (close_interleaved v ms fuel all_free) = Ended Fine /\
      seen (close_interleaved v ms fuel all_free) = repeat Stop (n * (n - 1)).
Proof.
  intros n v Hn Hv. destruct (fork_connects_all_pairs n Hn) as (ms & E & C & _). unfold solo. rewrite E. cbn.
  exists (map (map end_of) ms). split; [reflexivity|].
  assert (Hc : concat (map (map end_of) ms) = map end_of (concat ms)) by (symmetry; apply concat_map).
  assert (Hl : length (map end_of (concat ms)) = n * (n - 1)).
  { rewrite map_length. destruct C as [C1 C2 _ _]. subst n. clear E Hn Hv Hc. revert C2. generalize (length ms - 1) as q. induction ms as [|m ms IH]; intros q C2; [reflexivity|].
    cbn. rewrite app_length, (C2 m) by (left; reflexivity). rewrite (IH q) by (intros; apply C2; right; assumption). reflexivity. }
  split; [rewrite Hc; exact Hl|]. intros fuel Hf. unfold close_interleaved. rewrite Hc.
  replace fuel with (2 * length (map end_of (concat ms)) + 2 + (fuel - (2 * (n * (n - 1)) + 2))) by (rewrite Hl; lia).
  destruct (calone_fine v (map end_of (concat ms)) all_free (fuel - (2 * (n * (n - 1)) + 2)) Hv) as (h' & ->).
  - unfold ts. rewrite map_map. apply NoDup_map_inj; [apply (conn_nodup _ _ C)|]. intros; apply end_of_inj; assumption.
  - unfold rs. rewrite map_map. apply NoDup_map_inj; [apply (conn_nodup _ _ C)|]. intros; apply end_of_inj'; assumption.
  - intros; cbn; auto.
  - intros r Hr. right. unfold rs, ts in *. rewrite map_map in *. apply in_map_iff in Hr as ([k b] & <- & Hin).
    apply in_map_iff. exists (k, negb b). split; [destruct b; reflexivity|]. apply (other_end_present n ms k b Hn C Hin).
  - rewrite Hl. cbn. auto.
Qed.
Print Assumptions interleaved_close_returns.

(** Closing the same endpoints one after the other with any of the ordinary variants blocks for ever: whatever
    the number of steps allowed, the first call waits for a signal that only the same thread could send. *)
Theorem close_in_turn_blocks : forall n v, 2 <= n -> In v variants ->
  exists ms es ms', solo n = Some ms /\ ms = es :: ms' /\
    forall fuel, n <= fuel ->
      let s := close_in_turn v ms fuel all_free in
      pt s = Receiving 0 /\ cstep v es s = None /\ seen s = [] /\ sent s = n - 1.
Proof.
  intros n v Hn Hv. destruct (fork_connects_all_pairs n Hn) as (ms & E & C & _). unfold solo. rewrite E. cbn.
  destruct ms as [|m ms]; [pose proof (conn_len _ _ C); cbn in *; lia|].
  exists (map (map end_of) (m :: ms)), (map end_of m), (map (map end_of) ms). split; [reflexivity|]. split; [reflexivity|].
  intros fuel Hf. cbn [map close_in_turn]. pose proof (conn_nodup _ _ C) as N. cbn in N.
  assert (Hl : length m = n - 1) by (apply (conn_fields _ _ C); left; reflexivity).
  assert (Nm : NoDup m) by (clear - N; induction m as [|x m IH]; [constructor|]; cbn in N; inversion N as [|? ? K1 K2]; constructor; [intros Hx; apply K1, in_or_app; auto|auto]).
  destruct (calone_sends v (map end_of m) [] all_free [] 0 (fuel - n)) as (h' & C1 & C2 & C3).
  { unfold ts. rewrite map_map. apply NoDup_map_inj; [exact Nm|]. intros; apply end_of_inj; assumption. }
  { intros; cbn; auto. }
  cbn [app length] in C1. rewrite map_length, Hl in C1. replace (n - 1 + 1 + (fuel - n)) with fuel in C1 by lia.
  unfold begin. rewrite C1. 
  (* the first reception *)
  destruct m as [|[k b] m]; [cbn in Hl; lia|].
  assert (Hr : h' (snd (end_of (k, b))) = Chan None true true).
  { apply C3. intros Hx. unfold ts in Hx. rewrite map_map in Hx. apply in_map_iff in Hx as ([k' b'] & Hx & Hin).
    assert (Hkb : (k', b') = (k, negb b)) by (destruct b, b'; cbn in Hx; f_equal; lia).
    rewrite Hkb in Hin. clear - N Hin C Hn E Hl.
    (* role 1 does not hold both ends of a channel *)
    destruct (In_nth_error _ _ Hin) as [j Ej].
    assert (Hj : j < n - 1) by (rewrite <- Hl; apply nth_error_Some; congruence).
    destruct (conn_pair _ _ C 1 (S (S j)) ltac:(lia) ltac:(lia) ltac:(lia)) as (k' & b' & S1 & S2).
    unfold session_with in S1, S2. cbn [Nat.sub nth_error] in S1, S2.
    assert (Hfp : field_pos 1 (S (S j)) = j) by (unfold field_pos; destruct (Nat.ltb_spec (S (S j)) 1); lia).
    rewrite Hfp, Ej in S1. injection S1 as <- <-. destruct (nth_error ms j) as [gs|] eqn:Eg; [|discriminate].
    rewrite negb_involutive in S2. apply nth_error_In in S2, Eg. inversion N as [|? ? K1 K2]. apply K1, in_or_app. right. apply in_concat. exists gs. auto. }
  cbv zeta. match goal with |- context [calone v ?es (fuel - n) ?s] =>
    assert (Hstep : cstep v es s = None); [|assert (Hc : calone v es (fuel - n) s = s)] end.
  { cbn [map cstep nth_error]. destruct (end_of (k, b)) as [t r] eqn:Ee. cbn [snd] in Hr. rewrite Hr. reflexivity. }
  { destruct (fuel - n); [reflexivity|]. cbn [calone]. rewrite Hstep. reflexivity. }
  rewrite Hc. cbn [pt seen sent]. auto.
Qed.
Print Assumptions close_in_turn_blocks.

Example interleaved_close_3 : exists ms, solo 3 = Some ms /\
  ms = [[(2, 3); (4, 5)]; [(3, 2); (6, 7)]; [(5, 4); (7, 6)]] /\
  pt (close_interleaved close_macro ms 14 all_free) = Ended Fine /\ pt (close_in_turn close_method ms 100 all_free) = Receiving 0.
Proof. eexists. split; [reflexivity|]. split; [reflexivity|]. split; reflexivity. Qed.
