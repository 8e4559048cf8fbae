(** Rounds: the links created by fork and by each choice, who holds which of their ends, and one chooser
    per round. For any pairwise dual types. *)
From Coq Require Import List Arith Bool Lia Permutation.
From Verif Require Import Types Diag DiagProofs Wiring WiringProofs Session Mesh MeshSpec Links LinksProofs Refine Sim
  MeshWire MeshInv MeshStep MeshKeep MeshSafe.
Import ListNotations.

(** ** Shapes of the operations *)

Lemma send_shape : forall l s v (c : list handle) t L y L', lk_send (l, s, true) v c t L = SentOk y L' ->
  l_open (lk L l) (negb s) = true /\
  L' = set_link L l (Link (upd (l_ty (lk L l)) s t) (l_q (lk L l) ++ [(v, c, co t)]) (negb s)
                          (l_open (lk L l)) (l_rx (lk L l)) (l_sig (lk L l))).
Proof.
  intros l s v c t L y L' H. unfold lk_send in H. cbn [andb] in H.
  destruct (is_snd (l_ty (lk L l) s)); [|discriminate].
  destruct (l_open (lk L l) (negb s)); [|discriminate]. injection H as _ <-. auto.
Qed.

Lemma lost_shape : forall l s v (c : list handle) t L y lost L', lk_send (l, s, true) v c t L = SentLost y lost L' ->
  l_open (lk L l) (negb s) = false /\ lost = c ++ [(l, negb s, true)] /\
  L' = set_link L l (Link (upd (upd (l_ty (lk L l)) s t) (negb s) (co t)) [] (negb s)
              (upd (l_open (lk L l)) (negb s) true) (upd (l_rx (lk L l)) (negb s) true) (l_sig (lk L l))).
Proof.
  intros l s v c t L y lost L' H. unfold lk_send in H. cbn [andb] in H.
  destruct (is_snd (l_ty (lk L l) s)); [|discriminate].
  destruct (l_open (lk L l) (negb s)); [discriminate|]. injection H as _ <- <-. auto.
Qed.

Lemma got_shape : forall l s L v c y L', lk_recv (l, s, true) L = Got v c y L' ->
  exists t, pending (lk L l) s = Some (v, c, t) /\ L' = set_link L l (popped (lk L l) s t).
Proof.
  intros l s L v c y L' H. unfold lk_recv in H. cbn [andb] in H.
  destruct (is_rcv (l_ty (lk L l) s)); [|discriminate].
  destruct (pending (lk L l) s) as [[[v' c'] t]|]; [|destruct (l_open (lk L l) (negb s)); discriminate].
  injection H as <- <- _ <-. eauto.
Qed.

Lemma goterr_shape : forall l s L L', lk_recv (l, s, true) L = GotErr L' ->
  pending (lk L l) s = None /\ l_open (lk L l) (negb s) = false /\ L' = set_link L l (closed (lk L l) s).
Proof.
  intros l s L L' H. unfold lk_recv in H. cbn [andb] in H.
  destruct (is_rcv (l_ty (lk L l) s)); [|discriminate].
  destruct (pending (lk L l) s) as [[[v' c'] t]|]; [discriminate|].
  destruct (l_open (lk L l) (negb s)); [discriminate|]. injection H as <-. auto.
Qed.

Lemma tell_shape : forall l s g L L', lk_tell (l, s, true) g L = TellOk L' ->
  L' = set_link L l (Link (l_ty (lk L l)) (l_q (lk L l)) (l_to (lk L l)) (l_open (lk L l)) (l_rx (lk L l))
                          (upd (l_sig (lk L l)) s (Some g))).
Proof.
  intros l s g L L' H. unfold lk_tell in H. cbn [andb] in H.
  destruct (is_fin (l_ty (lk L l) s)); [|discriminate].
  destruct (l_rx (lk L l) (negb s)); [|discriminate].
  destruct (l_sig (lk L l) s); [discriminate|]. injection H as <-. reflexivity.
Qed.

Lemma hear_shape : forall l s g L L', lk_hear (l, s, true) L = Heard g L' ->
  l_sig (lk L l) (negb s) = Some g /\
  L' = set_link L l (Link (l_ty (lk L l)) (l_q (lk L l)) (l_to (lk L l)) (l_open (lk L l)) (l_rx (lk L l))
                          (upd (l_sig (lk L l)) (negb s) None)).
Proof.
  intros l s g L L' H. unfold lk_hear in H. cbn [andb] in H.
  destruct (is_fin (l_ty (lk L l) s)); [|discriminate].
  destruct (l_sig (lk L l) (negb s)); [|destruct (l_open (lk L l) (negb s)); discriminate].
  injection H as <- <-. auto.
Qed.

(** If one side only has sends or nothing left, the other side cannot have a send next. *)
Lemma snd_dual : forall k s, wf_link k -> is_snd (l_ty k s) = true -> is_rcv (l_ty k (negb s)) = true.
Proof.
  intros k s W H. destruct (bool_cases s (l_to k)) as [E|E].
  - pose proof (snd_not_behind k s W H E) as Hq. rewrite (sync_dual k s W Hq).
    destruct (l_ty k s); try discriminate. reflexivity.
  - pose proof (wf_ty k W) as Ht. rewrite E, negb_involutive in Ht.
    destruct (l_q k) as [|[[v c] t] q]; cbn in Ht.
    + rewrite Ht. destruct (l_ty k s); try discriminate. reflexivity.
    + apply Ht.
Qed.

Section Rounds.
  Variable n : nat.
  Variable branch : nat -> nat -> nat -> mty.
  Variable labels : nat -> nat.
  Variable strict : bool.
  Hypothesis branch_dual : forall b l, l < labels b -> dual_mesh n (branch b l).

  Notation lthread := (@thread handle).
  Notation tcase := (tcase n branch labels strict).
  Notation tinv := (tinv n branch labels).
  Notation prog_ok := (prog_ok n branch labels).
  Notation inv := (inv n branch labels).
  Notation peer_role := (peer_role n).
  Notation N := (npairs n).

  (** The link between p and q in round g, the end of p, and all the ends of p. *)
  Definition lnk (g p q : nat) : nat := g * N + (idx n (min p q) (max p q) - 1).
  Definition hnd (g p q : nat) : handle := (lnk g p q, p <? q, true).
  Definition mesh (g p : nat) : list handle := meshb n (g * N) p.

  Lemma hnd_eq : forall g p q, hndb n (g * N) p q = hnd g p q.
  Proof. reflexivity. Qed.

  Lemma lnk_sym : forall g p q, lnk g p q = lnk g q p.
  Proof. intros. unfold lnk. rewrite Nat.min_comm, Nat.max_comm. reflexivity. Qed.

  Lemma side_other : forall p q, p <> q -> (q <? p) = negb (p <? q).
  Proof. intros. destruct (Nat.ltb_spec q p), (Nat.ltb_spec p q); try lia; reflexivity. Qed.

  Lemma lnk_range : forall g p q, 1 <= p <= n -> peer_role p q -> g * N <= lnk g p q < S g * N.
  Proof.
    intros g p q Hp [H1 H2]. unfold lnk.
    pose proof (idx_range n (min p q) (max p q) ltac:(lia) ltac:(lia) ltac:(lia)) as Hi.
    rewrite <- npairs_tri in Hi. lia.
  Qed.

  Lemma lnk_inj : forall g p q g' p' q', 1 <= p <= n -> peer_role p q -> 1 <= p' <= n -> peer_role p' q' ->
    lnk g p q = lnk g' p' q' -> g = g' /\ ((p = p' /\ q = q') \/ (p = q' /\ q = p')).
  Proof.
    intros g p q g' p' q' Hp [H1 H2] Hp' [H1' H2'] E. unfold lnk in E.
    pose proof (idx_range n (min p q) (max p q) ltac:(lia) ltac:(lia) ltac:(lia)) as Hi.
    pose proof (idx_range n (min p' q') (max p' q') ltac:(lia) ltac:(lia) ltac:(lia)) as Hi'.
    rewrite <- npairs_tri in Hi, Hi'.
    assert (g = g').
    { destruct (lt_eq_lt_dec g g') as [[H|H]|H]; [exfalso; nia|exact H|exfalso; nia]. }
    subst g'. split; [reflexivity|].
    assert (E2 : idx n (min p q) (max p q) = idx n (min p' q') (max p' q')) by lia.
    apply idx_inj in E2; lia.
  Qed.

  Lemma hnd_inj : forall g p q g' p' q', 1 <= p <= n -> peer_role p q -> 1 <= p' <= n -> peer_role p' q' ->
    lnk g p q = lnk g' p' q' -> (p <? q) = (p' <? q') -> g = g' /\ p = p' /\ q = q'.
  Proof.
    intros g p q g' p' q' Hp Hq Hp' Hq' E Es. destruct (lnk_inj g p q g' p' q' Hp Hq Hp' Hq' E) as [-> [H|[-> ->]]]; [tauto|].
    exfalso. rewrite (side_other p' q') in Es by (destruct Hq'; lia). destruct (p' <? q'); discriminate.
  Qed.

  Lemma peer_sym : forall p q, 1 <= p <= n -> peer_role p q -> 1 <= q <= n /\ peer_role q p.
  Proof. intros p q Hp [H1 H2]. unfold MeshStep.peer_role. lia. Qed.

  Lemma mesh_in : forall g p y, 1 <= p <= n -> In y (mesh g p) -> exists q, peer_role p q /\ y = hnd g p q.
  Proof.
    intros g p y Hp Hy. apply meshb_in in Hy; [|exact Hp]. destruct Hy as (q & H1 & H2 & ->).
    exists q. split; [split; assumption|reflexivity].
  Qed.

  Lemma in_mesh : forall g p q, 1 <= p <= n -> peer_role p q -> In (hnd g p q) (mesh g p).
  Proof. intros g p q Hp [H1 H2]. apply hndb_in; auto. Qed.

  Lemma mesh_nth : forall g p q, 1 <= p <= n -> peer_role p q -> nth_error (mesh g p) (field_pos p q) = Some (hnd g p q).
  Proof. intros g p q Hp [H1 H2]. apply meshb_nth; auto. Qed.

  Lemma mesh_own : forall g p g' p' q', 1 <= p <= n -> 1 <= p' <= n -> peer_role p' q' ->
    In (hnd g' p' q') (mesh g p) -> g = g' /\ p = p'.
  Proof.
    intros g p g' p' q' Hp Hp' Hq' Hin. apply mesh_in in Hin; [|exact Hp]. destruct Hin as (q & Hq & E).
    injection E as E1 E2. apply hnd_inj in E1; auto. destruct E1 as (-> & -> & _). auto.
  Qed.

  (** Each field of a mesh faces one role. *)
  Lemma mesh_field : forall g p k h, 1 <= p <= n -> nth_error (mesh g p) k = Some h ->
    exists q, peer_role p q /\ h = hnd g p q /\ k = field_pos p q.
  Proof.
    intros g p k h Hp H. pose proof (nth_error_len _ _ _ _ H) as Hk. unfold mesh in *.
    rewrite meshb_length in Hk. unfold meshb in H. rewrite nth_error_map, nth_error_seq' in H by exact Hk.
    cbn in H. injection H as <-. exists (peer p (S k)). split; [|split].
    - split; [apply peer_neq|apply peer_range; lia].
    - reflexivity.
    - rewrite field_pos_peer by lia. lia.
  Qed.

  (** The choices made so far: chooser, choice, label. *)
  Definition history := list (nat * nat * nat).

  Record lok (hist : history) (logs : nat -> list event) (m : nat) (k : link) : Prop := LOk {
    lo_q : forall v c t, In (v, c, t) (l_q k) ->
      match v with
      | VData _ _ => c = []
      | VLabel b l j => exists g p, nth_error hist g = Some (p, b, l) /\ 1 <= p <= n /\ peer_role p j /\
          m = lnk g p j /\ l_to k = (j <? p) /\ c = mesh (S g) j
      end;
    lo_ty : forall g c b l q, nth_error hist g = Some (c, b, l) -> 1 <= c <= n -> peer_role c q -> m = lnk g c q ->
      l_ty k (c <? q) = Snd (PChoice b q) End \/ l_ty k (c <? q) = End;
    lo_sig : forall g p q s, 1 <= p <= n -> peer_role p q -> m = lnk g p q -> l_sig k (p <? q) = Some s ->
      s = Stop /\ In EvClose (logs p)
  }.

  Lemma lok_mono : forall hist logs logs' m k, (forall p, In EvClose (logs p) -> In EvClose (logs' p)) ->
    lok hist logs m k -> lok hist logs' m k.
  Proof.
    intros hist logs logs' m k H [Q T G]. constructor; auto.
    intros g p q s H1 H2 H3 H4. destruct (G g p q s H1 H2 H3 H4). auto.
  Qed.

  Lemma lok_same : forall hist logs m k k', l_q k' = l_q k -> l_to k' = l_to k -> l_ty k' = l_ty k ->
    (forall s, l_sig k' s = None \/ l_sig k' s = l_sig k s) -> lok hist logs m k -> lok hist logs m k'.
  Proof.
    intros hist logs m k k' E1 E2 E3 E4 [Q T G]. constructor.
    - intros v c t. rewrite E1, E2. apply Q.
    - intros g c b l q. rewrite E3. apply T.
    - intros g p q s H1 H2 H3 H4. destruct (E4 (p <? q)) as [E|E]; [congruence|].
      rewrite E in H4. eapply G; eauto.
  Qed.

  Lemma lok_popped : forall hist logs m k s v c t, wf_link k -> pending k s = Some (v, c, t) ->
    lok hist logs m k -> lok hist logs m (popped k s t).
  Proof.
    intros hist logs m k s v c t W Hp [Q T G]. apply pending_some in Hp. destruct Hp as [Hto Hq].
    constructor.
    - intros v' c' t' Hin. cbn [popped l_q l_to] in *. apply (Q v' c' t'). rewrite Hq in *. right; exact Hin.
    - intros g c' b l q H1 H2 H3 H4. cbn [popped l_ty]. pose proof (T g c' b l q H1 H2 H3 H4) as HT.
      destruct (bool_cases s (c' <? q)) as [E|E].
      + exfalso. pose proof (wf_ty k W) as Hw. rewrite Hq, Hto in Hw. cbn in Hw. rewrite E in HT.
        destruct HT as [HT|HT]; rewrite HT in Hw; destruct Hw as [Hw _]; discriminate Hw.
      + rewrite E, upd_neg, <- E. exact HT.
    - intros g p q s' H1 H2 H3 H4. eapply G; eauto.
  Qed.

  Lemma lok_drop : forall hist logs l s f L out L', wf_links L -> l < lnext L ->
    lk_drop (l, s, f) L = (out, L') -> lok hist logs l (lk L l) ->
    exists k', L' = set_link L l k' /\ lok hist logs l k'.
  Proof.
    intros hist logs l s f L out L' W Hl H HL. unfold lk_drop in H. destruct f.
    - destruct (is_fin (l_ty (lk L l) s)).
      + injection H as _ <-. eexists. split; [reflexivity|]. eapply lok_same; [..|exact HL]; auto.
      + destruct (pending (lk L l) s) as [[[v c] t]|] eqn:Ep; injection H as _ <-; eexists; (split; [reflexivity|]).
        * eapply lok_popped; eauto.
        * eapply lok_same; [..|exact HL]; auto.
    - injection H as _ <-. eexists. split; [reflexivity|]. eapply lok_same; [..|exact HL]; auto.
      intros s'. cbn [l_sig]. destruct (bool_cases (negb s) s') as [E|E]; [left; rewrite E; apply upd_same|].
      right. rewrite E, negb_involutive. apply upd_neg'.
  Qed.

  Lemma lok_send : forall hist logs m k s v (c : list handle) t, wf_link k -> is_snd (l_ty k s) = true ->
    lok hist logs m k ->
    (forall g c0 b l q, nth_error hist g = Some (c0, b, l) -> 1 <= c0 <= n -> peer_role c0 q -> m = lnk g c0 q ->
       (c0 <? q) = s -> t = End) ->
    match v with
    | VData _ _ => c = []
    | VLabel b l j => exists g p, nth_error hist g = Some (p, b, l) /\ 1 <= p <= n /\ peer_role p j /\
        m = lnk g p j /\ negb s = (j <? p) /\ c = mesh (S g) j
    end ->
    lok hist logs m (Link (upd (l_ty k) s t) (l_q k ++ [(v, c, co t)]) (negb s) (l_open k) (l_rx k) (l_sig k)).
  Proof.
    intros hist logs m k s v c t W Hs [Q T G] Ht Hv. constructor.
    - cbn [l_q l_to]. intros v' c' t' Hin. apply in_app_or in Hin. destruct Hin as [Hin|[E|[]]].
      + specialize (Q v' c' t' Hin). destruct v' as [|b l j]; [exact Q|].
        destruct (bool_cases s (l_to k)) as [E|E].
        * rewrite (snd_not_behind k s W Hs E) in Hin. contradiction.
        * rewrite E in Q. exact Q.
      + injection E as <- <- _. exact Hv.
    - intros g c' b l q H1 H2 H3 H4. cbn [l_ty]. destruct (bool_cases s (c' <? q)) as [E|E].
      + rewrite E, upd_same. right. exact (Ht g c' b l q H1 H2 H3 H4 E).
      + rewrite E, upd_neg, <- E. eapply T; eauto.
    - exact G.
  Qed.

  Lemma lok_lost : forall hist logs m k s t op rx, wf_link k -> is_snd (l_ty k s) = true ->
    lok hist logs m k ->
    (forall g c0 b l q, nth_error hist g = Some (c0, b, l) -> 1 <= c0 <= n -> peer_role c0 q -> m = lnk g c0 q ->
       (c0 <? q) = s -> t = End) ->
    lok hist logs m (Link (upd (upd (l_ty k) s t) (negb s) (co t)) [] (negb s) op rx (l_sig k)).
  Proof.
    intros hist logs m k s t op rx W Hs [Q T G] Ht. constructor.
    - intros v' c' t' [].
    - intros g c' b l q H1 H2 H3 H4. cbn [l_ty]. destruct (bool_cases s (c' <? q)) as [E|E].
      + rewrite E, upd_neg', upd_same. right. exact (Ht g c' b l q H1 H2 H3 H4 E).
      + exfalso. pose proof (snd_dual k s W Hs) as Hr. rewrite <- E in Hr.
        destruct (T g c' b l q H1 H2 H3 H4) as [HT|HT]; rewrite HT in Hr; discriminate.
    - exact G.
  Qed.

  (** What a thread holds. *)
  Definition rthr (hist : history) (logs : nat -> list event) (p : nat) (th : lthread) : Prop :=
    t_round th <= length hist /\
    match t_prog th with
    | PRun ss r hs => hs = mesh (t_round th) p /\ (forall b l, nth_error hist (t_round th) <> Some (p, b, l))
    | PChoose b l pend own =>
        nth_error hist (t_round th) = Some (p, b, l) /\ own = mesh (S (t_round th)) p /\
        exists qs, pend = map (fun q => (q, hnd (t_round th) p q, mesh (S (t_round th)) q)) qs /\ Forall (peer_role p) qs
    | PClose a r hs => hs = mesh (t_round th) p /\ (forall b l, nth_error hist (t_round th) <> Some (p, b, l)) /\
        In EvClose (logs p) /\ forall q, peer_role p q -> field_pos p q < r -> In EvClose (logs q)
    | PFin ROk => In EvClose (logs p) /\ forall q, peer_role p q -> In EvClose (logs q)
    | PFin _ => True
    | PStuck _ => False
    end.

  Definition logs_of (thr : nat -> lthread) (p : nat) : list event := t_log (thr p).

  Record rinv (hist : history) (L : links) (thr : nat -> lthread) : Prop := RInv {
    r_next : lnext L = S (length hist) * N;
    r_link : forall m, m < lnext L -> lok hist (logs_of thr) m (lk L m);
    r_thr : forall p, 1 <= p <= n -> rthr hist (logs_of thr) p (thr p);
    r_past : forall g c b l, nth_error hist g = Some (c, b, l) -> 1 <= c <= n /\ l < labels b /\ g <= t_round (thr c)
  }.

  (** The choice recorded by a step. *)
  Definition record (p : nat) (i : inp) (th : lthread) (hist : history) : history :=
    match i, t_trash th, t_prog th with
    | ILabel l, [], PRun ss _ _ => match choice_of p ss with Some b => hist ++ [(p, b, l)] | None => hist end
    | _, _, _ => hist
    end.

  Lemma rthr_mono : forall hist logs logs' p th, (forall p, In EvClose (logs p) -> In EvClose (logs' p)) ->
    rthr hist logs p th -> rthr hist logs' p th.
  Proof.
    intros hist logs logs' p th H [H1 H2]. split; [exact H1|].
    destruct (t_prog th) as [| |a r hs|[]|]; auto.
    - destruct H2 as (A & B & C & D). repeat (split; auto).
    - destruct H2 as [A B]. split; auto.
  Qed.

  Lemma logs_set : forall thr p th' q, (forall e, In e (t_log (thr p)) -> In e (t_log th')) ->
    In EvClose (logs_of thr q) -> In EvClose (logs_of (set_thr thr p th') q).
  Proof.
    intros thr p th' q H. unfold logs_of, set_thr. destruct (Nat.eqb_spec q p) as [->|]; auto.
  Qed.

  (** A step that changes one link and not the history. *)
  Lemma rinv_set : forall hist L thr p th' l k', 1 <= p <= n -> rinv hist L thr -> l < lnext L ->
    (forall e, In e (t_log (thr p)) -> In e (t_log th')) -> t_round (thr p) <= t_round th' ->
    lok hist (logs_of (set_thr thr p th')) l k' ->
    rthr hist (logs_of (set_thr thr p th')) p th' ->
    rinv hist (set_link L l k') (set_thr thr p th').
  Proof.
    intros hist L thr p th' l k' Hp R Hl Hlog Hround Hk Ht. constructor.
    - cbn. apply R.
    - intros m Hm. cbn [lnext set_link] in Hm. destruct (Nat.eq_dec m l) as [->|Hne].
      + rewrite lk_set_same. exact Hk.
      + rewrite lk_set_other by exact Hne. eapply lok_mono; [|apply R, Hm]. intros q. apply logs_set, Hlog.
    - intros q Hq. destruct (Nat.eq_dec q p) as [->|Hne].
      + unfold set_thr at 2. rewrite Nat.eqb_refl. exact Ht.
      + unfold set_thr at 2. destruct (Nat.eqb_spec q p) as [|_]; [contradiction|].
        eapply rthr_mono; [|apply R, Hq]. intros q'. apply logs_set, Hlog.
    - intros g c b l0 H. destruct (r_past _ _ _ R g c b l0 H) as (H1 & H2 & H3). split; [exact H1|]. split; [exact H2|].
      unfold set_thr. destruct (Nat.eqb_spec c p) as [->|]; [lia|exact H3].
  Qed.

  Lemma set_link_id : forall L l, l < lnext L -> forall m, lk (set_link L l (lk L l)) m = lk L m.
  Proof. intros L l Hl m. cbn. destruct (Nat.eqb_spec m l); congruence. Qed.

  (** A step that changes no link. *)
  Lemma rinv_same : forall hist L thr p th', 1 <= p <= n -> rinv hist L thr ->
    (forall e, In e (t_log (thr p)) -> In e (t_log th')) -> t_round (thr p) <= t_round th' ->
    rthr hist (logs_of (set_thr thr p th')) p th' ->
    rinv hist L (set_thr thr p th').
  Proof.
    intros hist L thr p th' Hp R Hlog Hround Ht. constructor.
    - apply R.
    - intros m Hm. eapply lok_mono; [|apply R, Hm]. intros q. apply logs_set, Hlog.
    - intros q Hq. destruct (Nat.eq_dec q p) as [->|Hne].
      + unfold set_thr at 2. rewrite Nat.eqb_refl. exact Ht.
      + unfold set_thr at 2. destruct (Nat.eqb_spec q p) as [|_]; [contradiction|].
        eapply rthr_mono; [|apply R, Hq]. intros q'. apply logs_set, Hlog.
    - intros g c b l0 H. destruct (r_past _ _ _ R g c b l0 H) as (H1 & H2 & H3). split; [exact H1|]. split; [exact H2|].
      unfold set_thr. destruct (Nat.eqb_spec c p) as [->|]; [lia|exact H3].
  Qed.
End Rounds.
