(** * The construction of the graph: proofs for C32 *)

From Coq Require Import Ascii String ZArith Lia Bool List.
From Verif Require Import Checker CheckerSpec CheckerText CheckerClean CheckerGraph.
Import ListNotations.

Lemma at_some : forall {A} (v : list A) i x, nth_error v i = Some x -> at_ v i = Ok x.
Proof. intros A v i x E. unfold at_. now rewrite E. Qed.

Lemma hpc_short' : forall n args, tidy (Node [] n args) ->
  get_hpc (short (Node [] n args)) = n :: map short args.
Proof. intros n args T. apply hpc_short. now apply tidy_wordy. Qed.

Lemma either_short : forall d l r e,
  tidy (Node [] d [tEither l r; e]) ->
  either_of (short (Node [] d [tEither l r; e])) = Ok (short l, short r).
Proof.
  intros d l r e T. unfold either_of. rewrite (hpc_short' _ _ T).
  cbn [map]. rewrite (at_some _ 1 (short (tEither l r))) by reflexivity. cbn [bind].
  destruct (tidy_two _ _ _ _ T) as [T1 _]. unfold tEither in *. rewrite (hpc_short' _ _ T1).
  reflexivity.
Qed.

Lemma blocks_short : forall n args, tidy (Node [] n args) ->
  get_blocks (short (Node [] n args)) = map short args.
Proof.
  intros n args T. apply (get_blocks_type short_head false [] n).
  apply short_calm. now apply tidy_wordy.
Qed.

Lemma slot_code : forall a b, a <> b ->
  (if (a <? b)%nat then (b - 1)%nat else b) = slot a b.
Proof.
  intros a b D. unfold slot. destruct (a <? b)%nat eqn:E1; destruct (b <? a)%nat eqn:E2;
    rewrite ?Nat.ltb_lt, ?Nat.ltb_ge in *; lia.
Qed.

Section Run.
  Variable role : str.
  Variable roles : list str.
  Variable me : nat.
  Hypothesis Roles : NoDup roles.
  Hypothesis Me : nth_error roles me = Some role.
  Variable br : hmap (hmap (list str)).
  Variable bs : hmap (list str).
  Variable gb : hmap Z.

  Notation simple := (fun p => hget br (short p) = None).
  Notation local := (local_type roles me simple).
  Notation aux := (aux_get_graph role roles
    (repeat (lit "End") (length roles - 1) ++ [lit "RoleEnd"]) me br bs gb).

  Definition others : list nat := filter (fun i => negb (i =? me)%nat) (seq 0 (length roles)).

  Lemma me_lt : (me < length roles)%nat.
  Proof. apply nth_error_Some. rewrite Me. discriminate. Qed.

  Lemma others_length : length others = (length roles - 1)%nat.
  Proof.
    unfold others. pose proof me_lt as L. revert L. generalize (length roles), me. clear.
    assert (forall n s m, (m < s)%nat ->
              length (filter (fun i => negb (i =? m)%nat) (seq s n)) = n) as G.
    { induction n as [|n IH]; intros s m L; [reflexivity|]. cbn [seq filter].
      assert ((s =? m)%nat = false) as -> by (apply Nat.eqb_neq; lia). cbn [negb length].
      rewrite IH by lia. reflexivity. }
    assert (forall n s m, (s <= m < s + n)%nat ->
              length (filter (fun i => negb (i =? m)%nat) (seq s n)) = (n - 1)%nat) as K.
    { induction n as [|n IH]; intros s m L; [lia|]. cbn [seq filter].
      destruct (s =? m)%nat eqn:E; cbn [negb length].
      - apply Nat.eqb_eq in E. subst. rewrite G by lia. lia.
      - apply Nat.eqb_neq in E. rewrite IH by lia. lia. }
    intros n m L. apply K. lia.
  Qed.

  Lemma others_not_me : forall i, In i others -> i <> me /\ (i < length roles)%nat.
  Proof.
    intros i I. apply filter_In in I. destruct I as [I1 I2].
    apply negb_true_iff, Nat.eqb_neq in I2. apply in_seq in I1. lia.
  Qed.

  (** The loop of the one who chooses. *)
  Lemma scan_active : forall l dl dr,
    Forall2 (fun i_s d => exists l ls lst nm a rgt,
               snd i_s = tSend (tEither (Node [] l (ls ++ [lst; Node [] nm a])) rgt) tEnd /\
               nth_error roles (fst i_s) = Some nm /\
               exists s, nth_error ls (slot (fst i_s) me) = Some s /\ dual_of s d) l dl ->
    Forall2 (fun i_s d => exists lft r' rs rst rn,
               snd i_s = tSend (tEither lft (Node [] r' (rs ++ [rst; rn]))) tEnd /\
               exists s, nth_error rs (slot (fst i_s) me) = Some s /\ dual_of s d) l dr ->
    Forall (fun i_s => fst i_s <> me /\ tidy (snd i_s)) l ->
    forall pos pr cl cr,
    scan_choice roles me pos (map short (map snd l)) (Found pos 0 pr cl cr) =
    Ok (Found (pos + length l) 0 pr (cl ++ map short dl) (cr ++ map short dr)).
  Proof.
    induction l as [|[i s] l IH]; intros dl dr F1 F2 T pos pr cl cr.
    - inversion F1; subst. inversion F2; subst. cbn [map scan_choice length].
      now rewrite !app_nil_r, Nat.add_0_r.
    - inversion F1 as [|? d1 ? dl' H1 F1']; subst. inversion F2 as [|? d2 ? dr' H2 F2']; subst.
      inversion T as [|? ? [T1 T2] T3]; subst. cbn [fst snd] in *.
      destruct H1 as (ln & ls & lst & nm & a & rgt & Es & Nm & s1 & N1 & D1).
      destruct H2 as (lft & rn & rs & rst & rnm & Es2 & s2 & N2 & D2).
      rewrite Es in Es2. injection Es2 as <- ->. rewrite Es in T2 |- *. clear Es.
      assert (tidy (Node [] ln (ls ++ [lst; Node [] nm a])) /\
              tidy (Node [] rn (rs ++ [rst; rnm]))) as [TL TR].
      { apply tidy_two in T2. destruct T2 as [T2 _]. now apply tidy_two in T2. }
      cbn [map scan_choice snd]. unfold tSend in *. rewrite (hpc_short' _ _ T2). cbn [map].
      rewrite (at_some _ 0 (lit "Send")) by reflexivity. cbn [bind].
      rewrite seqb_refl. cbn [number_of_recv number_of_send]. rewrite !Nat.eqb_refl.
      cbn [Nat.eqb andb]. rewrite (either_short _ _ _ _ T2). cbn [bind].
      rewrite (blocks_short _ _ TL), (blocks_short _ _ TR).
      assert (rev (map short (ls ++ [lst; Node [] nm a])) =
              short (Node [] nm a) :: short lst :: rev (map short ls)) as ->.
      { rewrite map_app, rev_app_distr. reflexivity. }
      cbn [bind].
      destruct (tidy_node _ _ _ TL) as (_ & _ & _ & AL).
      destruct (tidy_node _ _ _ TR) as (_ & _ & _ & AR).
      pose proof (proj1 (Forall_app _ _ _) AL) as [AL1 AL2].
      pose proof (proj1 (Forall_app _ _ _) AR) as [AR1 AR2].
      assert (tidy (Node [] nm a)) as Tn.
      { inversion AL2 as [|? ? _ A3]; subst. now inversion A3. }
      rewrite (hpc_short' _ _ Tn), (at_some _ 0 nm) by reflexivity. cbn [bind].
      rewrite (position_nth roles i nm Roles Nm).
      rewrite (slot_code i me T1).
      assert (tidy s1 /\ tidy s2) as [Ts1 Ts2].
      { rewrite Forall_forall in AL1, AR1.
        split; [apply AL1|apply AR1]; eapply nth_error_In; eassumption. }
      rewrite (at_some _ (slot i me) (short s1)).
      2:{ rewrite map_app, nth_error_app1.
          - rewrite nth_error_map, N1. reflexivity.
          - rewrite map_length. apply nth_error_Some. rewrite N1. discriminate. }
      cbn [bind]. rewrite (build_dual_type s1 d1 D1 (tidy_wordy _ Ts1)) by lia. cbn [bind].
      rewrite (at_some _ (slot i me) (short s2)).
      2:{ rewrite map_app, nth_error_app1.
          - rewrite nth_error_map, N2. reflexivity.
          - rewrite map_length. apply nth_error_Some. rewrite N2. discriminate. }
      cbn [bind]. rewrite (build_dual_type s2 d2 D2 (tidy_wordy _ Ts2)) by lia. cbn [bind].
      cbn [pos_recv choice_left choice_right].
      rewrite (IH dl' dr' F1' F2' T3). cbn [length map].
      rewrite <- !app_assoc. cbn [app]. do 2 f_equal; lia.
  Qed.

  (** The loop of the one who offers. *)
  Lemma scan_ends : forall ss, Forall (eq tEnd) ss -> forall pos f,
    number_of_send f = 0%nat ->
    scan_choice roles me pos (map short ss) f = Ok f.
  Proof.
    intros ss E. induction E as [|s ss <- _ IH]; intros pos f F; [reflexivity|].
    cbn [map scan_choice]. unfold tEnd at 1. rewrite (hpc_short' _ _ tidy_end). cbn [map].
    rewrite (at_some _ 0 (lit "End")) by reflexivity. cbn [bind].
    change (seqb (lit "End") (lit "Send")) with false.
    change (seqb (lit "End") (lit "Recv")) with false. cbn [andb].
    rewrite seqb_refl, F. cbn [Nat.eqb andb]. apply IH, F.
  Qed.

  Lemma scan_passive : forall ss k p, Forall tidy ss ->
    nth_error ss k = Some (tRecv p tEnd) ->
    (forall j, j <> k -> forall s, nth_error ss j = Some s -> s = tEnd) ->
    forall pos, scan_choice roles me pos (map short ss) (Found 0 0 0 [] []) =
                Ok (Found 0 1 (pos + k) [] []).
  Proof.
    induction ss as [|s ss IH]; intros k p T N O pos; [destruct k; discriminate|].
    inversion T as [|? ? T1 T2]; subst. destruct k as [|k].
    - cbn in N. injection N as ->. cbn [map scan_choice]. unfold tRecv in *.
      rewrite (hpc_short' _ _ T1). cbn [map].
      rewrite (at_some _ 0 (lit "Recv")) by reflexivity. cbn [bind].
      change (seqb (lit "Recv") (lit "Send")) with false. cbn [andb].
      rewrite seqb_refl. cbn [number_of_send number_of_recv Nat.eqb andb].
      rewrite scan_ends; [now rewrite Nat.add_0_r| |reflexivity].
      apply Forall_forall. intros s S. apply In_nth_error in S. destruct S as [j J].
      symmetry. apply (O (S j)); [discriminate|exact J].
    - pose proof (O 0%nat ltac:(discriminate) s eq_refl) as ->.
      cbn [map scan_choice]. unfold tEnd at 1. rewrite (hpc_short' _ _ tidy_end). cbn [map].
      rewrite (at_some _ 0 (lit "End")) by reflexivity. cbn [bind].
      change (seqb (lit "End") (lit "Send")) with false.
      change (seqb (lit "End") (lit "Recv")) with false. cbn [andb].
      rewrite seqb_refl. cbn [number_of_send Nat.eqb andb].
      rewrite (IH k p T2 N).
      + do 2 f_equal. lia.
      + intros j D s0 N0. apply (O (S j)); [congruence|exact N0].
  Qed.

  (** What is produced for a type. *)
  Definition text_edge (e : nat * label * nat) : nat * nat * str :=
    (fst (fst e), snd e, edge_text role roles (snd (fst e))).

  Definition entry (e : nat * label * nat) : str * nat :=
    match snd (fst e) with
    | Out i p => (role ++ num (fst (fst e)) ++ lit " " ++ num i ++ lit " ! " ++ short p
                    ++ lit " " ++ role, snd e)
    | In_ i p => (role ++ num (fst (fst e)) ++ lit " " ++ num i ++ lit " ? " ++ short p
                    ++ lit " " ++ role, snd e)
    | Finish => ([], snd e)
    end.

  Definition acts (e : nat * label * nat) : bool :=
    match snd (fst e) with Finish => false | _ => true end.

  Definition built (ss : list ty) (st : ty) : Prop :=
    forall ix prev d seen g c,
    length ix = S d -> (prev < length (nodes g))%nat ->
    exists g' T N,
      (forall fuel, (N <= fuel)%nat ->
         aux fuel (map short ss ++ [short st]) ix prev d seen g c =
         Ok (g', c ++ map entry (filter acts T))) /\
      edges g' = edges g ++ map text_edge T /\
      grown prev (length (nodes g)) (length (nodes g')) T /\
      (forall tr, walk T prev tr <-> does roles me ss st tr).

  Lemma not_finished : forall (l : list str) n args a,
    (if list_eq_dec (list_eq_dec ascii_dec)
          (repeat (lit "End") (length roles - 1) ++ [lit "RoleEnd"])
          (l ++ [short (Node [] n (a :: args))]) then true else false) = false.
  Proof.
    intros l n args a. destruct (list_eq_dec _ _ _) as [E|E]; [|reflexivity].
    apply app_inj_tail in E. destruct E as [_ E]. exfalso.
    symmetry in E. revert E. apply text_has_angle; [discriminate|]. cbn. intuition discriminate.
  Qed.

  Lemma rev_app_one : forall {A} (l : list A) x, rev (l ++ [x]) = x :: rev l.
  Proof. intros A l x. rewrite rev_app_distr. reflexivity. Qed.

  Lemma nth_role : forall i r, nth_error roles i = Some r -> nth i roles [] = r.
  Proof. intros i r E. now apply nth_error_nth. Qed.

  Lemma slot_lt : forall (ss : list ty) i s, nth_error ss (slot me i) = Some s -> (slot me i < length ss)%nat.
  Proof. intros ss i s E. apply nth_error_Some. rewrite E. discriminate. Qed.

  (** *** End *)
  Lemma built_end : forall ss, Forall (eq tEnd) ss -> S (length ss) = length roles ->
    built ss tRoleEnd.
  Proof.
    intros ss E L ix prev d seen g c Lix Lp.
    assert (map short ss = repeat (lit "End") (length roles - 1)) as M.
    { rewrite <- L. cbn [Nat.sub]. rewrite Nat.sub_0_r. clear -E.
      induction E as [|s ss <- _ IH]; [reflexivity|]. cbn [map length repeat]. now rewrite IH. }
    destruct (nth_error ix d) as [k|] eqn:Ek.
    2:{ apply nth_error_None in Ek. lia. }
    assert (length (put ix d (S k)) = S d) as Lp' by (rewrite put_length; lia).
    destruct (extract_ok _ _ Lp') as [w Ew].
    exists (add_edge (fst (add_node g w)) prev (length (nodes g)) (lit "0")),
           [(prev, Finish, length (nodes g))], 1%nat.
    split; [|split; [|split]].
    - intros fuel F. destruct fuel as [|fuel]; [lia|]. cbn [aux_get_graph]. rewrite M.
      destruct (list_eq_dec _ _ _) as [_|D]; [|exfalso; now apply D].
      rewrite (at_some _ _ _ Ek). cbn [bind].
      rewrite set_at_put by lia. cbn [bind]. rewrite Ew. cbn [bind filter map acts].
      cbn. now rewrite app_nil_r.
    - reflexivity.
    - cbn [add_edge add_node fst nodes]. rewrite app_length. cbn [length]. split; [exact Lp|].
      split; [lia|]. intros a x b [X|[]]. injection X as <- <- <-. split; [now left|lia].
    - intros tr. split.
      + intros W. inversion W as [|? x b ls I W']; subst; [constructor|].
        destruct I as [X|[]]. injection X as <- <-.
        inversion W' as [|? y b' ls' I' _]; subst.
        * now constructor.
        * destruct I' as [X|[]]. injection X as X1 _ _. lia.
      + intros D. inversion D; subst; [constructor|].
        econstructor; [now left|constructor].
  Qed.

  (** *** A message *)

  (** The step common to both directions. *)
  Lemma message_step : forall ss st i r p s (out : bool) lab ix prev d seen g c k w fuel,
    nth_error roles i = Some r -> i <> me ->
    nth_error ss (slot me i) = Some (if out then tSend p s else tRecv p s) ->
    lab = (if out then Out i p else In_ i p) ->
    (out = false -> hget br (short p) = None) ->
    Forall tidy ss -> tidy (Node [] r [st]) ->
    length ix = S d -> nth_error ix d = Some k -> extract_index_node (put ix d (S k)) d = Ok w ->
    aux (S fuel) (map short ss ++ [short (Node [] r [st])]) ix prev d seen g c =
    aux fuel (map short (put ss (slot me i) s) ++ [short st]) (put ix d (S k)) (length (nodes g)) d seen
      (add_edge (fst (add_node g w)) prev (length (nodes g)) (edge_text role roles lab))
      (c ++ [entry (prev, lab, length (nodes g))]).
  Proof.
    intros ss st i r p s out lab ix prev d seen g c k w fuel Ni D Ns El Hbr Ts Tst Lix Ek Ew.
    cbn [aux_get_graph].
    rewrite not_finished, rev_app_one, (hpc_short' _ _ Tst). cbn [map].
    rewrite (position_nth roles i r Roles Ni).
    rewrite (slot_code me i) by congruence.
    rewrite (at_some _ (slot me i) (short (if out then tSend p s else tRecv p s))).
    2:{ rewrite nth_error_app1 by (rewrite map_length; eapply slot_lt; exact Ns).
        rewrite nth_error_map, Ns. reflexivity. }
    cbn [bind].
    assert (tidy (if out then tSend p s else tRecv p s)) as Trun.
    { rewrite Forall_forall in Ts. apply Ts. eapply nth_error_In, Ns. }
    assert (get_hpc (short (if out then tSend p s else tRecv p s)) =
            [if out then lit "Send" else lit "Recv"; short p; short s]) as Hr.
    { destruct out; unfold tSend, tRecv in *; now rewrite hpc_short'. }
    rewrite !Hr.
    rewrite (at_some _ 0 (if out then lit "Send" else lit "Recv")) by reflexivity.
    rewrite (at_some _ 1 (short p)) by reflexivity.
    rewrite (at_some _ 2 (short s)) by reflexivity. cbn [bind].
    assert (forall X, (k0 <- at_ ix d;; index_node' <- set_at ix d (S k0);;
             w0 <- extract_index_node index_node' d;; X k0 index_node' w0) =
             X k (put ix d (S k)) w :> res (graph * cfsm)) as St.
    { intros X. rewrite (at_some _ _ _ Ek). cbn [bind]. rewrite set_at_put by lia.
      cbn [bind]. rewrite Ew. reflexivity. }
    rewrite !St. cbn [add_node].
    assert (forall full (Y : list str -> res (graph * cfsm)),
             full = map short ss ++ [short (Node [] r [st])] ->
             (full1 <- set_at full (slot me i) (short s);;
              full2 <- set_at full1 (length full - 1) (short st);; Y full2) =
             Y (map short (put ss (slot me i) s) ++ [short st])) as Fu.
    { intros full Y ->. pose proof (slot_lt _ _ _ Ns) as SL.
      rewrite set_at_put by (rewrite app_length, map_length; lia). cbn [bind].
      rewrite put_app by (rewrite map_length; exact SL).
      rewrite set_at_put by (rewrite !app_length, put_length; rewrite map_length; cbn; lia).
      cbn [bind]. f_equal.
      replace (length (map short ss ++ [short (Node [] r [st])]) - 1)%nat
        with (length (put (map short ss) (slot me i) (short s)))
        by (rewrite put_length, app_length, map_length; [cbn; lia|rewrite map_length; lia]).
      now rewrite put_last, put_map. }
    rewrite !(Fu _ _ eq_refl). subst lab. unfold entry, edge_text. cbn [fst snd].
    destruct out.
    - rewrite seqb_refl. cbv iota. rewrite (nth_role i r Ni). reflexivity.
    - change (seqb (lit "Recv") (lit "Send")) with false. rewrite seqb_refl. cbv iota.
      rewrite (Hbr eq_refl), (nth_role i r Ni). reflexivity.
  Qed.

  Lemma built_message : forall ss st i r p s (out : bool) lab,
    nth_error roles i = Some r -> i <> me ->
    nth_error ss (slot me i) = Some (if out then tSend p s else tRecv p s) ->
    lab = (if out then Out i p else In_ i p) ->
    (out = false -> hget br (short p) = None) ->
    Forall tidy ss -> tidy (Node [] r [st]) ->
    built (put ss (slot me i) s) st ->
    (forall tr, does roles me ss (Node [] r [st]) tr <->
                tr = [] \/ exists tr', tr = lab :: tr' /\ does roles me (put ss (slot me i) s) st tr') ->
    built ss (Node [] r [st]).
  Proof.
    intros ss st i r p s out lab Ni D Ns El Hbr Ts Tst IH Inv ix prev d seen g c Lix Lp.
    destruct (nth_error ix d) as [k|] eqn:Ek.
    2:{ apply nth_error_None in Ek. lia. }
    assert (length (put ix d (S k)) = S d) as Lp' by (rewrite put_length; lia).
    destruct (extract_ok _ _ Lp') as [w Ew].
    set (g1 := fst (add_node g w)). set (n := length (nodes g)).
    set (g2 := add_edge g1 prev n (edge_text role roles lab)).
    set (c2 := c ++ [entry (prev, lab, n)]).
    assert (length (nodes g2) = S n) as Ln.
    { unfold g2, g1. cbn [add_edge add_node fst nodes]. rewrite app_length. cbn. lia. }
    destruct (IH (put ix d (S k)) n d seen g2 c2 Lp' ltac:(lia))
      as (g' & T & N & Run & Ed & Gr & Wk).
    exists g', ((prev, lab, n) :: T), (S N). split; [|split; [|split]].
    - intros fuel F. destruct fuel as [|fuel]; [lia|].
      rewrite (message_step ss st i r p s out lab ix prev d seen g c k w fuel); try assumption.
      fold n g1 g2 c2. rewrite Run by lia. unfold c2. rewrite <- app_assoc. f_equal. f_equal. f_equal.
      rewrite El. now destruct out.
    - rewrite Ed. unfold g2, g1. cbn [add_edge add_node fst edges map].
      rewrite <- app_assoc. reflexivity.
    - rewrite Ln in Gr. destruct Gr as (G1 & G2 & G3). split; [exact Lp|]. split; [fold n; lia|].
      fold n. intros a x b [X|I].
      + injection X as <- <- <-. split; [now left|lia].
      + destruct (G3 _ _ _ I) as [[->|A] B]; split; lia.
    - intros tr. rewrite Ln in Gr. fold n in Gr.
      rewrite (walk_cons prev n _ lab T Lp Gr tr), Inv.
      split; intros [->|(tr' & -> & W)]; (now left) || (right; exists tr'; split; [reflexivity|now apply Wk]).
  Qed.

  Lemma does_send : forall ss st i r p s,
    nth_error roles i = Some r -> i <> me -> nth_error ss (slot me i) = Some (tSend p s) ->
    forall tr, does roles me ss (Node [] r [st]) tr <->
      tr = [] \/ exists tr', tr = Out i p :: tr' /\ does roles me (put ss (slot me i) s) st tr'.
  Proof.
    intros ss st i r p s Ni D Ns tr. split.
    - intros X. inversion X as [|?|? ? i' ? p' s' tr' Ni' D' Ns' X'|? ? i' ? p' s' tr' Ni' D' Ns' X'| |]; subst.
      + now left.
      + right. assert (i' = i) as ->.
        { pose proof (position_nth _ _ _ Roles Ni). pose proof (position_nth _ _ _ Roles Ni'). congruence. }
        rewrite Ns in Ns'. injection Ns' as -> ->. now exists tr'.
      + exfalso. assert (i' = i) as ->.
        { pose proof (position_nth _ _ _ Roles Ni). pose proof (position_nth _ _ _ Roles Ni'). congruence. }
        rewrite Ns in Ns'. discriminate.
    - intros [->|(tr' & -> & X)]; [constructor|]. now apply do_send with (r := r) (s := s).
  Qed.

  Lemma does_recv : forall ss st i r p s,
    nth_error roles i = Some r -> i <> me -> nth_error ss (slot me i) = Some (tRecv p s) ->
    forall tr, does roles me ss (Node [] r [st]) tr <->
      tr = [] \/ exists tr', tr = In_ i p :: tr' /\ does roles me (put ss (slot me i) s) st tr'.
  Proof.
    intros ss st i r p s Ni D Ns tr. split.
    - intros X. inversion X as [|?|? ? i' ? p' s' tr' Ni' D' Ns' X'|? ? i' ? p' s' tr' Ni' D' Ns' X'| |]; subst.
      + now left.
      + exfalso. assert (i' = i) as ->.
        { pose proof (position_nth _ _ _ Roles Ni). pose proof (position_nth _ _ _ Roles Ni'). congruence. }
        rewrite Ns in Ns'. discriminate.
      + right. assert (i' = i) as ->.
        { pose proof (position_nth _ _ _ Roles Ni). pose proof (position_nth _ _ _ Roles Ni'). congruence. }
        rewrite Ns in Ns'. injection Ns' as -> ->. now exists tr'.
    - intros [->|(tr' & -> & X)]; [constructor|]. now apply do_recv with (r := r) (s := s).
  Qed.

  (** *** Choices *)

  Lemma built_choice : forall ss st l1 s1 l2 s2,
    built l1 s1 -> built l2 s2 ->
    (forall fuel ix prev d seen g c,
       aux (S fuel) (map short ss ++ [short st]) ix prev d seen g c =
       ('(g', c') <- aux fuel (map short l1 ++ [short s1]) (ix ++ [0%nat]) prev (S d) seen g c;;
        aux fuel (map short l2 ++ [short s2]) (ix ++ [0%nat]) prev (S d) seen g' c')) ->
    (forall tr, does roles me ss st tr <-> does roles me l1 s1 tr \/ does roles me l2 s2 tr) ->
    built ss st.
  Proof.
    intros ss st l1 s1 l2 s2 B1 B2 Step Inv ix prev d seen g c Lix Lp.
    assert (length (ix ++ [0%nat]) = S (S d)) as Lix' by (rewrite app_length; cbn; lia).
    destruct (B1 (ix ++ [0%nat]) prev (S d) seen g c Lix' Lp)
      as (g1 & T1 & N1 & R1 & E1 & G1 & W1).
    assert (prev < length (nodes g1))%nat as Lp1 by (destruct G1 as (? & ? & _); lia).
    destruct (B2 (ix ++ [0%nat]) prev (S d) seen g1 (c ++ map entry (filter acts T1)) Lix' Lp1)
      as (g2 & T2 & N2 & R2 & E2 & G2 & W2).
    exists g2, (T1 ++ T2), (S (N1 + N2)). split; [|split; [|split]].
    - intros fuel F. destruct fuel as [|fuel]; [lia|]. rewrite Step.
      rewrite R1 by lia. cbn [bind]. rewrite R2 by lia.
      now rewrite filter_app, map_app, app_assoc.
    - now rewrite E2, E1, map_app, app_assoc.
    - destruct G1 as (A1 & A2 & A3). destruct G2 as (C1 & C2 & C3).
      split; [exact A1|]. split; [lia|]. intros a x b I. apply in_app_or in I.
      destruct I as [I|I]; [destruct (A3 _ _ _ I) as [[->|?] ?]|destruct (C3 _ _ _ I) as [[->|?] ?]];
        split; lia.
    - intros tr. rewrite (walk_choice _ _ _ _ _ _ G1 G2), W1, W2. symmetry. apply Inv.
  Qed.

  Lemma offer_step : forall ss r stl str k l ls lst ln rgt rs rst rn,
    nth_error ss k = Some (tRecv (tEither (Node [] l (ls ++ [lst; ln]))
                                          (Node [] rgt (rs ++ [rst; rn]))) tEnd) ->
    (forall j, j <> k -> forall s, nth_error ss j = Some s -> s = tEnd) ->
    Forall tidy ss -> tidy (Node [] r [stl; str]) ->
    forall fuel ix prev d seen g c,
    aux (S fuel) (map short ss ++ [short (Node [] r [stl; str])]) ix prev d seen g c =
    ('(g', c') <- aux fuel (map short ls ++ [short lst]) (ix ++ [0%nat]) prev (S d) seen g c;;
     aux fuel (map short rs ++ [short rst]) (ix ++ [0%nat]) prev (S d) seen g' c').
  Proof.
    intros ss r stl str k l ls lst ln rgt rs rst rn N O T Ts fuel ix prev d seen g c.
    assert (tidy (tRecv (tEither (Node [] l (ls ++ [lst; ln]))
                                 (Node [] rgt (rs ++ [rst; rn]))) tEnd)) as Tk.
    { rewrite Forall_forall in T. apply T. eapply nth_error_In, N. }
    pose proof (tidy_two _ _ _ _ Tk) as [Te _]. pose proof (tidy_two _ _ _ _ Te) as [Tl Tr].
    destruct (tidy_offer _ _ _ _ Tl) as (fl & C1 & U1).
    destruct (tidy_offer _ _ _ _ Tr) as (fr & C2 & U2).
    cbn [aux_get_graph].
    rewrite not_finished, rev_app_one, (hpc_short' _ _ Ts). cbn [map].
    rewrite rev_involutive.
    rewrite (scan_passive ss k _ T N O 0). cbn [bind number_of_recv number_of_send Nat.eqb andb].
    cbn [pos_recv Nat.add]. rewrite (at_some _ k _ (map_nth_error short k ss N)). cbn [bind].
    unfold tRecv in Tk |- *. rewrite (either_short _ _ _ _ Tk). cbn [bind].
    rewrite C1. cbn [bind]. rewrite U1. cbn [bind].
    destruct (aux_get_graph _ _ _ _ _ _ _ _ _ _ _ _ _ _ _) as [[g' c']| |]; [|reflexivity|reflexivity].
    cbn [bind]. rewrite C2. cbn [bind]. rewrite U2. reflexivity.
  Qed.

  Lemma built_offer : forall ss r stl str k l ls lst ln rgt rs rst rn,
    S (length ss) = length roles ->
    nth_error ss k = Some (tRecv (tEither (Node [] l (ls ++ [lst; ln]))
                                          (Node [] rgt (rs ++ [rst; rn]))) tEnd) ->
    (forall j, j <> k -> forall s, nth_error ss j = Some s -> s = tEnd) ->
    Forall tidy ss -> tidy (Node [] r [stl; str]) ->
    built ls lst -> built rs rst -> built ss (Node [] r [stl; str]).
  Proof.
    intros ss r stl str k l ls lst ln rgt rs rst rn L N O T Ts B1 B2.
    apply (built_choice ss _ ls lst rs rst B1 B2).
    - now apply (offer_step ss r stl str k l ls lst ln rgt rs rst rn).
    - intros tr. split.
      + intros X. inversion X as [| | | |? ? ? ? k' l' ls' lst' ln' rgt' rs' rst' rn' ? N' X'
                                   |? ? ? ? dl dr ? F1 F2 X']; subst.
        * left. constructor.
        * assert (k' = k) as ->.
          { destruct (Nat.eq_dec k' k) as [E|E]; [exact E|].
            pose proof (O k' E _ N') as Z. discriminate. }
          rewrite N in N'. injection N' as _ E1 _ E2.
          assert (ls' = ls /\ lst' = lst) as [-> ->].
          { change [lst; ln] with ([lst] ++ [ln]) in E1.
            change [lst'; ln'] with ([lst'] ++ [ln']) in E1. rewrite !app_assoc in E1.
            apply app_inj_tail in E1. destruct E1 as [E1 _].
            apply app_inj_tail in E1. destruct E1. now split. }
          assert (rs' = rs /\ rst' = rst) as [-> ->].
          { change [rst; rn] with ([rst] ++ [rn]) in E2.
            change [rst'; rn'] with ([rst'] ++ [rn']) in E2. rewrite !app_assoc in E2.
            apply app_inj_tail in E2. destruct E2 as [E2 _].
            apply app_inj_tail in E2. destruct E2. now split. }
          exact X'.
        * exfalso. fold others in F1.
          assert (length others = length ss) as Lo by (rewrite others_length; lia).
          destruct (nth_error others k) as [i|] eqn:Ei.
          2:{ apply nth_error_None in Ei.
              assert (k < length ss)%nat by (apply nth_error_Some; rewrite N; discriminate). lia. }
          assert (In (i, tRecv (tEither (Node [] l (ls ++ [lst; ln]))
                           (Node [] rgt (rs ++ [rst; rn]))) tEnd) (combine others ss)) as I.
          { clear -Ei N. revert k Ei N. generalize others. intros o. revert ss.
            induction o as [|a o IH]; intros ss k Ei N; [destruct k; discriminate|].
            destruct ss as [|s ss]; [destruct k; discriminate|].
            destruct k as [|k]; cbn in Ei, N.
            - injection Ei as ->. injection N as ->. now left.
            - right. exact (IH ss k Ei N). }
          clear -F1 I. induction F1 as [|x d xs ds Hx _ IH]; [contradiction|].
          destruct I as [->|I]; [|exact (IH I)].
          destruct Hx as (? & ? & ? & ? & ? & E & _). cbn [snd] in E. discriminate.
      + intros X. eapply do_offer; [exact N|exact X].
  Qed.

  Lemma combine_snd : forall {A B} (a : list A) (b : list B), length a = length b ->
    map snd (combine a b) = b.
  Proof.
    intros A B a. induction a as [|x a IH]; intros [|y b] L; try discriminate; [reflexivity|].
    cbn [combine map snd]. f_equal. apply IH. now injection L.
  Qed.

  Lemma app_two : forall {A} (x y : list A) a b c d,
    x ++ [a; b] = y ++ [c; d] -> x = y /\ a = c /\ b = d.
  Proof.
    intros A x y a b c d E. change [a; b] with ([a] ++ [b]) in E.
    change [c; d] with ([c] ++ [d]) in E. rewrite !app_assoc in E.
    apply app_inj_tail in E. destruct E as [E1 E2]. apply app_inj_tail in E1.
    destruct E1. repeat split; assumption.
  Qed.

  Lemma choose_step : forall ss r stl str dl dr,
    ss <> [] -> S (length ss) = length roles ->
    Forall2 (fun i_s d => exists l ls lst nm a rgt,
               snd i_s = tSend (tEither (Node [] l (ls ++ [lst; Node [] nm a])) rgt) tEnd /\
               nth_error roles (fst i_s) = Some nm /\
               exists s, nth_error ls (slot (fst i_s) me) = Some s /\ dual_of s d)
      (combine others ss) dl ->
    Forall2 (fun i_s d => exists lft r' rs rst rn,
               snd i_s = tSend (tEither lft (Node [] r' (rs ++ [rst; rn]))) tEnd /\
               exists s, nth_error rs (slot (fst i_s) me) = Some s /\ dual_of s d)
      (combine others ss) dr ->
    Forall tidy ss -> tidy (Node [] r [stl; str]) ->
    forall fuel ix prev d seen g c,
    aux (S fuel) (map short ss ++ [short (Node [] r [stl; str])]) ix prev d seen g c =
    ('(g', c') <- aux fuel (map short dl ++ [short stl]) (ix ++ [0%nat]) prev (S d) seen g c;;
     aux fuel (map short dr ++ [short str]) (ix ++ [0%nat]) prev (S d) seen g' c').
  Proof.
    intros ss r stl str dl dr NE L F1 F2 T Ts fuel ix prev d seen g c.
    assert (length others = length ss) as Lo by (rewrite others_length; lia).
    assert (map snd (combine others ss) = ss) as Ms by now apply combine_snd.
    assert (length (combine others ss) = length ss) as Lc by (rewrite combine_length; lia).
    cbn [aux_get_graph].
    rewrite not_finished, rev_app_one, (hpc_short' _ _ Ts). cbn [map].
    rewrite rev_involutive.
    assert (scan_choice roles me 0 (map short ss) (Found 0 0 0 [] []) =
            Ok (Found (length ss) 0 0 (map short dl) (map short dr))) as ->.
    { rewrite <- Ms at 1. rewrite (scan_active _ dl dr F1 F2), Lc; [reflexivity|].
      apply Forall_forall. intros [i s] I. cbn [fst snd]. split.
      - apply in_combine_l in I. apply (others_not_me i I).
      - apply in_combine_r in I. rewrite Forall_forall in T. now apply T. }
    cbn [bind number_of_recv number_of_send Nat.eqb choice_left choice_right].
    assert ((length ss =? 0)%nat = false) as ->.
    { apply Nat.eqb_neq. destruct ss; [congruence|discriminate]. }
    reflexivity.
  Qed.

  Lemma built_choose : forall ss r stl str dl dr,
    ss <> [] -> S (length ss) = length roles ->
    Forall2 (fun i_s d => exists l ls lst nm a rgt,
               snd i_s = tSend (tEither (Node [] l (ls ++ [lst; Node [] nm a])) rgt) tEnd /\
               nth_error roles (fst i_s) = Some nm /\
               exists s, nth_error ls (slot (fst i_s) me) = Some s /\ dual_of s d)
      (combine others ss) dl ->
    Forall2 (fun i_s d => exists lft r' rs rst rn,
               snd i_s = tSend (tEither lft (Node [] r' (rs ++ [rst; rn]))) tEnd /\
               exists s, nth_error rs (slot (fst i_s) me) = Some s /\ dual_of s d)
      (combine others ss) dr ->
    Forall tidy ss -> tidy (Node [] r [stl; str]) ->
    built dl stl -> built dr str -> built ss (Node [] r [stl; str]).
  Proof.
    intros ss r stl str dl dr NE L F1 F2 T Ts B1 B2.
    assert (length others = length ss) as Lo by (rewrite others_length; lia).
    assert (map snd (combine others ss) = ss) as Ms by now apply combine_snd.
    assert (length (combine others ss) = length ss) as Lc by (rewrite combine_length; lia).
    apply (built_choice ss _ dl stl dr str B1 B2).
    - now apply choose_step.
    - intros tr. split.
      + intros X. inversion X as [| | | |? ? ? ? k' l' ls' lst' ln' rgt' rs' rst' rn' ? N' X'
                                   |? ? ? ? dl' dr' ? F1' F2' X']; subst.
        * left. constructor.
        * exfalso.
          assert (In (tRecv (tEither (Node [] l' (ls' ++ [lst'; ln']))
                       (Node [] rgt' (rs' ++ [rst'; rn']))) tEnd) (map snd (combine others ss))) as I.
          { rewrite Ms. eapply nth_error_In, N'. }
          clear -F1 I. induction F1 as [|x d xs ds Hx _ IH]; [contradiction|].
          destruct I as [E|I]; [|exact (IH I)].
          destruct Hx as (? & ? & ? & ? & ? & ? & E2 & _). rewrite E in E2. discriminate.
        * fold others in F1', F2'.
          assert (dl' = dl) as ->.
          { clear -F1 F1'. revert dl' F1'. induction F1 as [|x d xs ds Hx _ IH]; intros dl' F'.
            - now inversion F'.
            - inversion F' as [|? d' ? ds' Hx' F'']; subst. f_equal; [|now apply IH].
              destruct Hx as (? & ? & ? & ? & ? & ? & E1 & _ & s & N1 & D1).
              destruct Hx' as (? & ? & ? & ? & ? & E2 & s' & N2 & D2).
              rewrite E1 in E2. injection E2 as _ E2 _.
              apply app_two in E2. destruct E2 as (<- & _ & _).
              rewrite N1 in N2. injection N2 as <-. symmetry. exact (dual_unique _ _ D1 _ D2). }
          assert (dr' = dr) as ->.
          { clear -F2 F2'. revert dr' F2'. induction F2 as [|x d xs ds Hx _ IH]; intros dl' F'.
            - now inversion F'.
            - inversion F' as [|? d' ? ds' Hx' F'']; subst. f_equal; [|now apply IH].
              destruct Hx as (? & ? & ? & ? & ? & E1 & s & N1 & D1).
              destruct Hx' as (? & ? & ? & ? & ? & E2 & s' & N2 & D2).
              rewrite E1 in E2. injection E2 as _ _ E2.
              apply app_two in E2. destruct E2 as (<- & _ & _).
              rewrite N1 in N2. injection N2 as <-. symmetry. exact (dual_unique _ _ D1 _ D2). }
          exact X'.
      + intros X. apply (do_choose roles me ss r stl str dl dr tr); [|exact F2|exact X].
        fold others. clear -F1. induction F1 as [|x d xs ds Hx _ IH]; constructor; [|exact IH].
        destruct Hx as (l & ls & lst & nm & a & rgt & E1 & _ & E2).
        now exists l, ls, lst, (Node [] nm a), rgt.
  Qed.


  Lemma built_all : forall ss st, local ss st -> Forall tidy ss -> tidy st -> built ss st.
  Proof.
    intros ss st Lt. induction Lt as
      [ss E L|ss st i r p s Ni D Ns Lt IH|ss st i r p s Ni D Ns Pl Lt IH
      |ss r stl str k l ls lst ln rgt rs rst rn L N O Lt1 IH1 Lt2 IH2
      |ss r stl str dl dr NE L F1 F2 Lt1 IH1 Lt2 IH2]; intros T Ts.
    - now apply built_end.
    - apply (built_message ss st i r p s true (Out i p)); try assumption; try reflexivity.
      + discriminate.
      + assert (tidy s) as T1.
        { rewrite Forall_forall in T. pose proof (T _ (nth_error_In _ _ Ns)) as T1.
          now apply tidy_two in T1. }
        apply IH; [now apply put_In|]. now apply tidy_one in Ts.
      + now apply does_send.
    - apply (built_message ss st i r p s false (In_ i p)); try assumption; try reflexivity.
      + intros _. exact Pl.
      + assert (tidy s) as T1.
        { rewrite Forall_forall in T. pose proof (T _ (nth_error_In _ _ Ns)) as T1.
          now apply tidy_two in T1. }
        apply IH; [now apply put_In|]. now apply tidy_one in Ts.
      + now apply does_recv.
    - assert (tidy (tRecv (tEither (Node [] l (ls ++ [lst; ln]))
                                   (Node [] rgt (rs ++ [rst; rn]))) tEnd)) as Tk.
      { rewrite Forall_forall in T. apply T. eapply nth_error_In, N. }
      pose proof (tidy_two _ _ _ _ Tk) as [Te _]. pose proof (tidy_two _ _ _ _ Te) as [Tl Tr].
      destruct (tidy_node _ _ _ Tl) as (_ & _ & _ & Al). apply Forall_app in Al.
      destruct (tidy_node _ _ _ Tr) as (_ & _ & _ & Ar). apply Forall_app in Ar.
      eapply built_offer; try eassumption.
      + apply IH1; [apply Al|]. destruct Al as [_ Al]. now inversion Al.
      + apply IH2; [apply Ar|]. destruct Ar as [_ Ar]. now inversion Ar.
    - fold others in F1, F2.
      assert (forall i_s, In i_s (combine others ss) -> tidy (snd i_s)) as Tc.
      { intros [i s] I. apply in_combine_r in I. rewrite Forall_forall in T. now apply T. }
      pose proof (tidy_two _ _ _ _ Ts) as [Tl Tr].
      apply (built_choose ss r stl str dl dr NE L F1 F2 T Ts).
      + apply IH1; [|exact Tl]. clear -F1 Tc. revert Tc.
        induction F1 as [|x d xs ds Hx _ IH]; intros Tc; constructor.
        * destruct Hx as (? & ? & ? & ? & ? & ? & E & _ & s & N & D).
          specialize (Tc x (or_introl eq_refl)). rewrite E in Tc.
          apply tidy_two in Tc. destruct Tc as [Tc _]. apply tidy_two in Tc. destruct Tc as [Tc _].
          destruct (tidy_node _ _ _ Tc) as (_ & _ & _ & A). apply Forall_app in A.
          destruct A as [A _]. rewrite Forall_forall in A.
          exact (tidy_dual _ _ D (A _ (nth_error_In _ _ N))).
        * apply IH. intros y Y. apply Tc. now right.
      + apply IH2; [|exact Tr]. clear -F2 Tc. revert Tc.
        induction F2 as [|x d xs ds Hx _ IH]; intros Tc; constructor.
        * destruct Hx as (? & ? & ? & ? & ? & E & s & N & D).
          specialize (Tc x (or_introl eq_refl)). rewrite E in Tc.
          apply tidy_two in Tc. destruct Tc as [Tc _]. apply tidy_two in Tc. destruct Tc as [_ Tc].
          destruct (tidy_node _ _ _ Tc) as (_ & _ & _ & A). apply Forall_app in A.
          destruct A as [A _]. rewrite Forall_forall in A.
          exact (tidy_dual _ _ D (A _ (nth_error_In _ _ N))).
        * apply IH. intros y Y. apply Tc. now right.
  Qed.
End Run.
