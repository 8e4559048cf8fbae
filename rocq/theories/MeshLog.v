(** The logs: what is received is what was sent, in order, and follows the session types. *)
From Coq Require Import List Arith Bool Lia Permutation.
From Verif Require Import Types Diag DiagProofs Wiring WiringProofs Session Mesh MeshSpec Links LinksProofs Refine Sim
  MeshWire MeshInv MeshStep MeshKeep MeshSafe MeshRounds MeshRun.
Import ListNotations.

(** ** Logs *)

Lemma evs_app : forall g x a b, evs g x (a ++ b) = evs g x a ++ evs g x b.
Proof. intros. apply flat_map_app. Qed.

Lemma outs_app : forall a b, outs (a ++ b) = outs a ++ outs b.
Proof. intros. unfold outs. rewrite filter_app, map_app. reflexivity. Qed.
Lemma ins_app : forall a b, ins (a ++ b) = ins a ++ ins b.
Proof. intros. unfold ins. rewrite filter_app, map_app. reflexivity. Qed.

Lemma after_app : forall labels a s b, after labels s (a ++ b) =
  match after labels s a with Some s' => after labels s' b | None => None end.
Proof.
  induction a as [|[d v] a IH]; intros s b; [reflexivity|]. cbn. destruct s as [|P s|P s]; [reflexivity| |].
  - destruct (d && has labels v P); [apply IH|reflexivity].
  - destruct (negb d && has labels v P); [apply IH|reflexivity].
Qed.

Lemma prefix_app : forall a b c, is_prefix a b -> is_prefix a (b ++ c).
Proof. intros a b c [d ->]. exists (d ++ c). rewrite app_assoc. reflexivity. Qed.

(** The values on their way to side s. *)
Definition tow (k : link) (s : bool) : list value :=
  if Bool.eqb (l_to k) s then map (fun '(v, _, _) => v) (l_q k) else [].

Lemma tow_here : forall k s, l_to k = s -> tow k s = map (fun '(v, _, _) => v) (l_q k).
Proof. intros k s <-. unfold tow. rewrite Bool.eqb_reflx. reflexivity. Qed.
Lemma tow_there : forall k s, l_to k = negb s -> tow k s = [].
Proof. intros k s E. unfold tow. rewrite E. destruct s; reflexivity. Qed.
Lemma tow_nil : forall k s, l_q k = [] -> tow k s = [].
Proof. intros k s E. unfold tow. rewrite E. destruct (Bool.eqb (l_to k) s); reflexivity. Qed.

Lemma full_avail : forall m s L, avail (m, s, true) L = 1 <-> m < lnext L /\ l_open (lk L m) s = true.
Proof.
  intros m s L. unfold avail. destruct (Nat.ltb_spec m (lnext L)).
  - unfold b2n. destruct (l_open (lk L m) s); split; intros; try lia; destruct H0; congruence || auto.
  - split; intros; lia.
Qed.

Section Log.
  Variable n : nat.
  Variable branch : nat -> nat -> nat -> mty.
  Variable labels : nat -> nat.
  Variable strict : bool.
  Hypothesis branch_dual : forall b l, l < labels b -> dual_mesh n (branch b l).

  Notation lthread := (@thread handle).
  Notation tcase := (tcase n branch labels strict).
  Notation tinv := (tinv n branch labels).
  Notation prog_ok := (prog_ok n branch labels).
  Notation inv := (inv n branch labels).
  Notation peer_role := (peer_role n).
  Notation N := (npairs n).
  Notation lnk := (lnk n).
  Notation hnd := (hnd n).
  Notation mesh := (mesh n).
  Notation lok := (lok n).
  Notation rthr := (rthr n).
  Notation rinv := (rinv n labels).
  Notation after := (after labels).
  Notation has := (has labels).

  (** The end is neither dropped nor about to be. *)
  Definition kept (L : links) (thr : nat -> lthread) (y : handle) : Prop :=
    avail y L = 1 /\ forall p, 1 <= p <= n -> ~ In y (t_trash (thr p)).

  Lemma held_kept : forall L thr p y, 1 <= p <= n -> inv L thr -> In y (held (t_prog (thr p))) -> kept L thr y.
  Proof.
    intros L thr p y Hp I Hy. pose proof (i_lin _ _ _ _ _ I y) as HL. rewrite (everyone_split n thr p y Hp) in HL.
    pose proof (avail_le1 y L). pose proof (proj2 (cnt_in y _) Hy) as Hc.
    unfold all_of in HL. rewrite cnt_app in HL. split; [lia|].
    intros q Hq Hin. pose proof (proj2 (cnt_in y _) Hin) as Hc'. destruct (Nat.eq_dec q p) as [->|Hne]; [lia|].
    assert (Ho : In y (others n thr p)).
    { eapply others_in; eauto. unfold all_of. apply in_or_app. right; exact Hin. }
    apply cnt_in in Ho. lia.
  Qed.

  (** What a step does to the logs and to the ends that are kept. *)
  Definition same_act (L : links) (th th' : lthread) (L' : links) : Prop :=
    (forall g x, evs g x (t_log th') = evs g x (t_log th)) /\
    forall m s, m < lnext L -> avail (m, s, true) L' = 1 -> ~ In (m, s, true) (t_trash th') ->
      l_ty (lk L' m) s = l_ty (lk L m) s /\ tow (lk L' m) s = tow (lk L m) s.

  Definition send_act (hist : history) (p : nat) (L : links) (th th' : lthread) (L' : links) : Prop :=
    exists x v P k, let m := lnk (t_round th) p x in let s := p <? x in
      peer_role p x /\ In (m, s, true) (held (t_prog th)) /\ l_ty (lk L m) s = Snd P k /\ has v P = true /\
      t_log th' = t_log th ++ [EvSend (t_round th) x v] /\
      (match v with VLabel b l j => j = x /\ nth_error hist (t_round th) = Some (p, b, l) | _ => True end) /\
      ((exists (c : list handle), L' = set_link L m (Link (upd (l_ty (lk L m)) s k) (l_q (lk L m) ++ [(v, c, co k)]) (negb s)
                          (l_open (lk L m)) (l_rx (lk L m)) (l_sig (lk L m)))) \/
       (In (m, negb s, true) (t_trash th') /\
        L' = set_link L m (Link (upd (upd (l_ty (lk L m)) s k) (negb s) (co k)) [] (negb s)
              (upd (l_open (lk L m)) (negb s) true) (upd (l_rx (lk L m)) (negb s) true) (l_sig (lk L m))))).

  Definition recv_act (hist : history) (p : nat) (L : links) (th th' : lthread) (L' : links) : Prop :=
    exists x v P k (c : list handle), let m := lnk (t_round th) p x in let s := p <? x in
      peer_role p x /\ In (m, s, true) (held (t_prog th)) /\ l_ty (lk L m) s = Rcv P k /\ has v P = true /\
      t_log th' = t_log th ++ [EvRecv (t_round th) x v] /\
      (match v with VLabel b l j => j = p /\ nth_error hist (t_round th) = Some (x, b, l) | _ => True end) /\
      pending (lk L m) s = Some (v, c, k) /\ L' = set_link L m (popped (lk L m) s k).

  Record effect (hist : history) (p : nat) (L : links) (th th' : lthread) (L' : links) : Prop := Effect {
    e_round : t_round th <= t_round th';
    e_next : lnext L <= lnext L';
    e_back : forall m s, m < lnext L -> avail (m, s, true) L' = 1 -> ~ In (m, s, true) (t_trash th') ->
      avail (m, s, true) L = 1 /\ ~ In (m, s, true) (t_trash th);
    e_act : same_act L th th' L' \/ send_act hist p L th th' L' \/ recv_act hist p L th th' L'
  }.

  Lemma evs_close : forall g x log, evs g x (log ++ [EvClose]) = evs g x log.
  Proof. intros. rewrite evs_app. cbn. apply app_nil_r. Qed.

  (** Changing only signals, or closing ends. *)
  Lemma act_weaker : forall (L : links) (th th' : lthread) m k', m < lnext L -> t_trash th = [] ->
    (forall g x, evs g x (t_log th') = evs g x (t_log th)) ->
    l_ty k' = l_ty (lk L m) -> l_q k' = l_q (lk L m) -> l_to k' = l_to (lk L m) ->
    (forall s, l_open k' s = true -> l_open (lk L m) s = true) ->
    (forall m0 s, m0 < lnext L -> avail (m0, s, true) (set_link L m k') = 1 -> ~ In (m0, s, true) (t_trash th') ->
      avail (m0, s, true) L = 1 /\ ~ In (m0, s, true) (t_trash th)) /\
    same_act L th th' (set_link L m k').
  Proof.
    intros L th th' m k' Hm Et Hev E1 E2 E3 E4. split; [|split; [exact Hev|]].
    - intros m0 s H1 H2 _. rewrite Et. split; [|intros []]. apply full_avail in H2. destruct H2 as [_ H2].
      apply full_avail. split; [exact H1|]. destruct (Nat.eq_dec m0 m) as [->|Hne].
      + rewrite lk_set_same in H2. auto.
      + rewrite lk_set_other in H2 by exact Hne. exact H2.
    - intros m0 s _ _ _. destruct (Nat.eq_dec m0 m) as [->|Hne].
      + rewrite lk_set_same. unfold tow. rewrite E1, E2, E3. auto.
      + rewrite lk_set_other by exact Hne. auto.
  Qed.

  Lemma act_refl : forall (L : links) (th th' : lthread), t_trash th = [] ->
    (forall g x, evs g x (t_log th') = evs g x (t_log th)) ->
    (forall m0 s, m0 < lnext L -> avail (m0, s, true) L = 1 -> ~ In (m0, s, true) (t_trash th') ->
      avail (m0, s, true) L = 1 /\ ~ In (m0, s, true) (t_trash th)) /\
    same_act L th th' L.
  Proof.
    intros L th th' Et Hev. split; [|split; [exact Hev|auto]]. intros m0 s H1 H2 _. rewrite Et. split; [exact H2|intros []].
  Qed.

  Lemma open_sent : forall (L : links) m ty q to rx sig m0 s, m < lnext L -> m0 < lnext L ->
    avail (m0, s, true) (set_link L m (Link ty q to (l_open (lk L m)) rx sig)) = 1 -> avail (m0, s, true) L = 1.
  Proof.
    intros L m ty q to rx sig m0 s Hm H1 H2. apply full_avail in H2. apply full_avail. split; [exact H1|].
    destruct H2 as [_ H2]. destruct (Nat.eq_dec m0 m) as [->|Hne].
    - rewrite lk_set_same in H2. exact H2.
    - rewrite lk_set_other in H2 by exact Hne. exact H2.
  Qed.

  Lemma open_lost : forall (L : links) m s ty q to rx sig m0 s0, m < lnext L -> m0 < lnext L ->
    avail (m0, s0, true) (set_link L m (Link ty q to (upd (l_open (lk L m)) (negb s) true) rx sig)) = 1 ->
    (m0, s0, true) <> (m, negb s, true) -> avail (m0, s0, true) L = 1.
  Proof.
    intros L m s ty q to rx sig m0 s0 Hm H1 H2 Hne. apply full_avail in H2. apply full_avail. split; [exact H1|].
    destruct H2 as [_ H2]. destruct (Nat.eq_dec m0 m) as [->|Hn].
    - rewrite lk_set_same in H2. cbn [l_open] in H2. destruct (bool_cases s s0) as [-> | ->].
      + rewrite upd_neg' in H2. exact H2.
      + congruence.
    - rewrite lk_set_other in H2 by exact Hn. exact H2.
  Qed.

  Lemma recv_typed : forall (L : links) m s P k v c t, m < lnext L -> queues_ok n branch labels L ->
    l_ty (lk L m) s = Rcv P k -> pending (lk L m) s = Some (v, c, t) -> t = k /\ has v P = true.
  Proof.
    intros L m s P k v c t Hm Q Ht Hp. apply pending_some in Hp. destruct Hp as [Hto Hq].
    specialize (Q m Hm). rewrite Hq, Hto, Ht in Q. cbn in Q. destruct Q as (P' & E & Hv & _).
    injection E as <- <-. split; [reflexivity|]. destruct P, v; cbn in Hv; try contradiction; cbn.
    - destruct Hv as [-> _]. apply Nat.eqb_refl.
    - destruct Hv as (-> & -> & Hl & _). rewrite !Nat.eqb_refl. cbn. apply Nat.ltb_lt. exact Hl.
  Qed.

  Lemma effect_case : forall hist L thr p i th' L', 1 <= p <= n -> inv L thr -> rinv hist L thr ->
    tcase p (thr p) L i th' L' -> effect hist p L (thr p) th' L'.
  Proof.
    intros hist L thr p i th' L' Hp I R C.
    pose proof (r_thr _ _ _ _ _ R p Hp) as [Hle HR].
    pose proof (i_wf _ _ _ _ _ I) as W. pose proof (i_q _ _ _ _ _ I) as Q.
    destruct C as [x rest out L1 Et Ed|Et Hnf
      |v x ss r hs t k h L1 Et Ep Hx Es Eh El|v x ss r hs t k h lost L1 Et Ep Hx Es Eh El Est
      |v x ss r hs t k h lost L1 Et Ep Hx Es Eh El Est
      |v x ss r hs t k h L1 Et Ep Hx Es Eh El|b l m x ss r hs h L1 Et Ep Hx Es Eh El Hl
      |x ss r hs P0 k h L1 Et Ep Hx Es Eh El
      |b l ss hs pl L1 Et Ep Ec Hl Ea
      |b l x h m pend own L1 Et Ep El|b l x h m pend own lost L1 Et Ep El Est
      |b l x h m pend own lost L1 Et Ep El Est
      |b l own Et Ep|ss hs Et Ep Ee
      |a r hs h L1 Et Ep Ea El|a r hs h Et Ep Ea El
      |a r hs h L1 Et Ep Ea Er El|a r hs h Et Ep Ea Er El|a r hs h L1 Et Ep Ea Er El
      |a r hs Et Ep Ea Er]; try (rewrite Ep in HR).
    - (* drop *)
      assert (Hlv : live L x).
      { apply (live_link n branch labels L thr p x Hp I). unfold all_of. rewrite Et. apply in_or_app. right; left; reflexivity. }
      destruct x as [[l s] f]. pose proof Hlv as [Hl Ho]. unfold lk_drop in Ed. destruct f.
      + destruct (is_fin (l_ty (lk L l) s)) eqn:Ef; [|destruct (pending (lk L l) s) as [[[v c] t]|] eqn:Hpe];
          injection Ed as <- <-; cbn [t_log t_round t_trash].
        * constructor; cbn [t_log t_round t_trash]; [lia|cbn; lia| |left; split; [reflexivity|]].
          -- intros m0 s0 H1 H2 H3. apply full_avail in H2. destruct H2 as [_ H2].
             destruct (Nat.eq_dec m0 l) as [->|Hne].
             ++ rewrite lk_set_same in H2. cbn [l_open] in H2. destruct (bool_cases s s0) as [-> | ->];
                  [rewrite upd_same in H2; discriminate|]. rewrite upd_neg in H2. split; [apply full_avail; auto|].
                rewrite Et. intros [E|Hin]; [injection E as E; destruct s; discriminate|].
                apply H3. right; exact Hin.
             ++ rewrite lk_set_other in H2 by exact Hne. split; [apply full_avail; auto|].
                rewrite Et. intros [E|Hin]; [congruence|]. apply H3. right; exact Hin.
          -- intros m0 s0 _ _ _. destruct (Nat.eq_dec m0 l) as [->|Hne].
             ++ rewrite lk_set_same. auto.
             ++ rewrite lk_set_other by exact Hne. auto.
        * constructor; cbn [t_log t_round t_trash]; [lia|cbn; lia| |left; split; [reflexivity|]].
          -- intros m0 s0 H1 H2 H3. apply full_avail in H2. destruct H2 as [_ H2]. split.
             ++ apply full_avail. split; [exact H1|]. destruct (Nat.eq_dec m0 l) as [->|Hne].
                ** rewrite lk_set_same in H2. exact H2.
                ** rewrite lk_set_other in H2 by exact Hne. exact H2.
             ++ rewrite Et. intros Hin. apply H3. rewrite <- app_assoc. apply in_or_app. right. exact Hin.
          -- intros m0 s0 _ _ H3. destruct (Nat.eq_dec m0 l) as [->|Hne].
             ++ rewrite lk_set_same. destruct (bool_cases s s0) as [-> | ->].
                ** exfalso. apply H3. apply in_or_app. left. apply in_or_app. right. left; reflexivity.
                ** apply pending_some in Hpe. destruct Hpe as [Hto _]. unfold popped. cbn [l_ty]. rewrite upd_neg.
                   split; [reflexivity|]. rewrite !tow_there; [reflexivity| |]; cbn [l_to]; rewrite negb_involutive; exact Hto.
             ++ rewrite lk_set_other by exact Hne. auto.
        * constructor; cbn [t_log t_round t_trash]; [lia|cbn; lia| |left; split; [reflexivity|]].
          -- intros m0 s0 H1 H2 H3. apply full_avail in H2. destruct H2 as [_ H2].
             destruct (Nat.eq_dec m0 l) as [->|Hne].
             ++ rewrite lk_set_same in H2. cbn [closed l_open] in H2. destruct (bool_cases s s0) as [-> | ->];
                  [rewrite upd_same in H2; discriminate|]. rewrite upd_neg in H2. split; [apply full_avail; auto|].
                rewrite Et. intros [E|Hin]; [injection E as E; destruct s; discriminate|].
                apply H3. exact Hin.
             ++ rewrite lk_set_other in H2 by exact Hne. split; [apply full_avail; auto|].
                rewrite Et. intros [E|Hin]; [congruence|]. apply H3. exact Hin.
          -- intros m0 s0 _ _ _. destruct (Nat.eq_dec m0 l) as [->|Hne].
             ++ rewrite lk_set_same. auto.
             ++ rewrite lk_set_other by exact Hne. auto.
      + injection Ed as <- <-. constructor; cbn [t_log t_round t_trash]; [lia|cbn; lia| |left; split; [reflexivity|]].
        * intros m0 s0 H1 H2 H3. apply full_avail in H2. destruct H2 as [_ H2]. split.
          -- apply full_avail. split; [exact H1|]. destruct (Nat.eq_dec m0 l) as [->|Hne].
             ++ rewrite lk_set_same in H2. exact H2.
             ++ rewrite lk_set_other in H2 by exact Hne. exact H2.
          -- rewrite Et. intros [E|Hin]; [discriminate|]. apply H3. exact Hin.
        * intros m0 s0 _ _ _. destruct (Nat.eq_dec m0 l) as [->|Hne].
          -- rewrite lk_set_same. auto.
          -- rewrite lk_set_other by exact Hne. auto.
    - (* crash *)
      destruct (act_refl L (thr p) (fin (thr p) RCrash (held (t_prog (thr p)))) Et (fun _ _ => eq_refl)).
      constructor; auto.
    - (* send *)
      destruct (run_field n branch labels hist L thr p ss _ hs x _ h Hp I R Ep Hx Es Eh) as (-> & Hl & Ht & _).
      destruct (send_shape _ _ _ _ _ _ _ _ El) as (_ & ->).
      constructor; cbn [t_log t_round t_trash]; [lia|cbn; lia| |right; left].
      + intros m0 s0 H1 H2 _. split; [eapply open_sent; [exact Hl|exact H1|exact H2]|]. rewrite Et. intros [].
      + exists x, (VData t v), (PVal t), k. cbn zeta. split; [exact Hx|]. rewrite Ep. cbn [held].
        split; [eapply nth_error_In; exact Eh|]. split; [exact Ht|]. split; [cbn; apply Nat.eqb_refl|].
        split; [reflexivity|]. split; [exact Logic.I|]. left. exists []. reflexivity.
    - (* send lost *)
      destruct (run_field n branch labels hist L thr p ss _ hs x _ h Hp I R Ep Hx Es Eh) as (-> & Hl & Ht & _).
      destruct (lost_shape _ _ _ _ _ _ _ _ _ El) as (Ho & -> & ->).
      constructor; cbn [t_log t_round t_trash]; [lia|cbn; lia| |right; left].
      + intros m0 s0 H1 H2 H3. split; [|rewrite Et; intros []]. eapply open_lost; [exact Hl|exact H1|exact H2|].
        intros E. apply H3. left. symmetry. exact E.
      + exists x, (VData t v), (PVal t), k. cbn zeta. split; [exact Hx|]. rewrite Ep. cbn [held].
        split; [eapply nth_error_In; exact Eh|]. split; [exact Ht|]. split; [cbn; apply Nat.eqb_refl|].
        split; [reflexivity|]. split; [exact Logic.I|]. right. split; [left; reflexivity|reflexivity].
    - (* send error *)
      destruct (run_field n branch labels hist L thr p ss _ hs x _ h Hp I R Ep Hx Es Eh) as (-> & Hl & Ht & _).
      destruct (lost_shape _ _ _ _ _ _ _ _ _ El) as (Ho & -> & ->).
      constructor; cbn [fin t_log t_round t_trash]; [lia|cbn; lia| |left; split; [reflexivity|]].
      + intros m0 s0 H1 H2 H3. split; [|rewrite Et; intros []]. eapply open_lost; [exact Hl|exact H1|exact H2|].
        intros E. apply H3. left. symmetry. exact E.
      + intros m0 s0 _ _ H3. cbn [fin t_trash] in H3. destruct (Nat.eq_dec m0 (lnk (t_round (thr p)) p x)) as [->|Hne].
        * exfalso. apply H3. destruct (bool_cases (p <? x) s0) as [-> | ->].
          -- right. eapply nth_error_In; exact Eh.
          -- left; reflexivity.
        * rewrite lk_set_other by exact Hne. auto.
    - (* recv *)
      destruct (run_field n branch labels hist L thr p ss _ hs x _ h Hp I R Ep Hx Es Eh) as (-> & Hl & Ht & _).
      destruct (got_shape _ _ _ _ _ _ _ El) as (t' & Hpend & ->).
      destruct (recv_typed L _ _ _ _ _ _ _ Hl Q Ht Hpend) as [-> Hv].
      constructor; cbn [t_log t_round t_trash]; [lia|cbn; lia| |right; right].
      + intros m0 s0 H1 H2 _. split; [eapply open_sent; [exact Hl|exact H1|exact H2]|]. rewrite Et. intros [].
      + exists x, (VData t v), (PVal t), k, []. cbn zeta. split; [exact Hx|]. rewrite Ep. cbn [held].
        split; [eapply nth_error_In; exact Eh|]. split; [exact Ht|]. split; [exact Hv|].
        split; [reflexivity|]. split; [exact Logic.I|]. split; [exact Hpend|reflexivity].
    - (* offer *)
      destruct (run_field n branch labels hist L thr p ss _ hs x _ h Hp I R Ep Hx Es Eh) as (-> & Hl' & Ht & _).
      destruct (got_shape _ _ _ _ _ _ _ El) as (t' & Hpend & ->).
      destruct (recv_typed L _ _ _ _ _ _ _ Hl' Q Ht Hpend) as [-> Hv].
      pose proof Hpend as Hpend'. apply pending_some in Hpend'. destruct Hpend' as [Hto Hq].
      pose proof (lo_q _ _ _ _ _ (r_link _ _ _ _ _ R _ Hl') (VLabel b l p) m End) as HQ. rewrite Hq in HQ.
      destruct (HQ (or_introl eq_refl)) as (g & c & Hg & Hc & Hcp & Em & Es' & _). rewrite Hto in Es'.
      destruct (peer_sym n c p Hc Hcp) as [_ Hpc].
      assert (E : t_round (thr p) = g /\ p = p /\ x = c).
      { apply (hnd_inj n); auto. rewrite Em. apply lnk_sym. }
      destruct E as (E & _ & ->). subst g.
      constructor; cbn [t_log t_round t_trash]; [lia|cbn; lia| |right; right].
      + intros m0 s0 H1 H2 _. split; [eapply open_sent; [exact Hl'|exact H1|exact H2]|]. rewrite Et. intros [].
      + exists c, (VLabel b l p), (PChoice b p), End, m. cbn zeta. split; [exact Hx|]. rewrite Ep. cbn [held].
        split; [eapply nth_error_In; exact Eh|]. split; [exact Ht|]. split; [exact Hv|].
        split; [reflexivity|]. split; [auto|]. split; [exact Hpend|reflexivity].
    - (* recv error *)
      destruct (run_field n branch labels hist L thr p ss _ hs x _ h Hp I R Ep Hx Es Eh) as (-> & Hl & Ht & _).
      destruct (goterr_shape _ _ _ _ El) as (_ & _ & ->).
      destruct (act_weaker L (thr p) (fin (thr p) RErr (without (field_pos p x) hs)) _
                  (closed (lk L (lnk (t_round (thr p)) p x)) (p <? x)) Hl Et (fun _ _ => eq_refl) eq_refl eq_refl eq_refl).
      + intros s0. cbn [closed l_open]. destruct (bool_cases (p <? x) s0) as [-> | ->];
          [rewrite upd_same; discriminate|rewrite upd_neg; auto].
      + constructor; auto.
    - (* choose *)
      destruct (new_mesh n (choose_vars n) (branch b l) L pl L1 (choose_vars_spec n) (branch_dual b l Hl) Ea)
        as (_ & Hn & Hold & _ & _).
      constructor; cbn [t_log t_round t_trash]; [lia|lia| |left; split; [reflexivity|]].
      + intros m0 s0 H1 H2 _. rewrite Et. split; [|intros []]. apply full_avail in H2. apply full_avail.
        rewrite Hold in H2 by exact H1. tauto.
      + intros m0 s0 H1 _ _. rewrite Hold by exact H1. auto.
    - (* choice send *)
      destruct HR as (Hg & -> & qs & Epend & Hqs). destruct qs as [|q qs]; [discriminate|].
      cbn [map] in Epend. injection Epend as -> -> -> ->. inversion Hqs as [|? ? Hq Hqs']; subst.
      assert (Hin : In (hnd (t_round (thr p)) p q) (held (t_prog (thr p)))) by (rewrite Ep; left; reflexivity).
      destruct (live_link n branch labels L thr p (hnd (t_round (thr p)) p q) Hp I) as [Hl _].
      { unfold all_of. apply in_or_app. left. exact Hin. }
      pose proof (i_prog _ _ _ _ _ I p Hp) as P. rewrite Ep in P. cbn in P. destruct P as (Hlb & _ & P).
      apply Forall_inv in P. destruct P as (_ & Ht & _). unfold lty, MeshRounds.hnd in Ht.
      destruct (send_shape _ _ _ _ _ _ _ _ El) as (_ & ->).
      constructor; cbn [t_log t_round t_trash]; [lia|cbn; lia| |right; left].
      + intros m0 s0 H1 H2 _. split; [eapply open_sent; [exact Hl|exact H1|exact H2]|]. rewrite Et. intros [].
      + exists q, (VLabel b l q), (PChoice b q), End. cbn zeta. split; [exact Hq|].
        split; [exact Hin|]. split; [exact Ht|].
        split; [cbn; rewrite !Nat.eqb_refl; apply Nat.ltb_lt; exact Hlb|].
        split; [reflexivity|]. split; [auto|]. left. eexists. reflexivity.
    - (* choice send lost *)
      destruct HR as (Hg & -> & qs & Epend & Hqs). destruct qs as [|q qs]; [discriminate|].
      cbn [map] in Epend. injection Epend as -> -> -> ->. inversion Hqs as [|? ? Hq Hqs']; subst.
      assert (Hin : In (hnd (t_round (thr p)) p q) (held (t_prog (thr p)))) by (rewrite Ep; left; reflexivity).
      destruct (live_link n branch labels L thr p (hnd (t_round (thr p)) p q) Hp I) as [Hl _].
      { unfold all_of. apply in_or_app. left. exact Hin. }
      pose proof (i_prog _ _ _ _ _ I p Hp) as P. rewrite Ep in P. cbn in P. destruct P as (Hlb & _ & P).
      apply Forall_inv in P. destruct P as (_ & Ht & _). unfold lty, MeshRounds.hnd in Ht.
      destruct (lost_shape _ _ _ _ _ _ _ _ _ El) as (_ & -> & ->).
      constructor; cbn [t_log t_round t_trash]; [lia|cbn; lia| |right; left].
      + intros m0 s0 H1 H2 H3. split; [|rewrite Et; intros []]. eapply open_lost; [exact Hl|exact H1|exact H2|].
        intros E. apply H3. apply in_or_app. left. apply in_or_app. right. left. symmetry. exact E.
      + exists q, (VLabel b l q), (PChoice b q), End. cbn zeta. split; [exact Hq|].
        split; [exact Hin|]. split; [exact Ht|].
        split; [cbn; rewrite !Nat.eqb_refl; apply Nat.ltb_lt; exact Hlb|].
        split; [reflexivity|]. split; [auto|]. right. split; [|reflexivity].
        apply in_or_app. left. apply in_or_app. right. left. reflexivity.
    - (* choice send error *)
      destruct HR as (Hg & -> & qs & Epend & Hqs). destruct qs as [|q qs]; [discriminate|].
      cbn [map] in Epend. injection Epend as -> -> -> ->. inversion Hqs as [|? ? Hq Hqs']; subst.
      destruct (live_link n branch labels L thr p (hnd (t_round (thr p)) p q) Hp I) as [Hl _].
      { unfold all_of. rewrite Ep. left. reflexivity. }
      destruct (lost_shape _ _ _ _ _ _ _ _ _ El) as (_ & -> & ->).
      constructor; cbn [fin t_log t_round t_trash]; [lia|cbn; lia| |left; split; [reflexivity|]].
      + intros m0 s0 H1 H2 H3. split; [|rewrite Et; intros []]. eapply open_lost; [exact Hl|exact H1|exact H2|].
        intros E. apply H3. apply in_or_app. left. apply in_or_app. right. left. symmetry. exact E.
      + intros m0 s0 _ _ H3. cbn [fin t_trash] in H3. destruct (Nat.eq_dec m0 (lnk (t_round (thr p)) p q)) as [->|Hne].
        * exfalso. apply H3. destruct (bool_cases (p <? q) s0) as [-> | ->].
          -- apply in_or_app. right. left; reflexivity.
          -- apply in_or_app. left. apply in_or_app. right. left. reflexivity.
        * rewrite lk_set_other by exact Hne. auto.
    - (* enter *)
      destruct (act_refl L (thr p) (Thread (PRun (fst (branch b l p)) (snd (branch b l p)) own) [] (S (t_round (thr p)))
                  (t_log (thr p))) Et (fun _ _ => eq_refl)).
      constructor; auto; cbn; lia.
    - (* close *)
      destruct (act_refl L (thr p) (Thread (PClose 0 0 hs) [] (t_round (thr p)) (t_log (thr p) ++ [EvClose])) Et
                  (fun g x => evs_close g x _)).
      constructor; auto.
    - (* tell *)
      destruct HR as (-> & _).
      destruct (mesh_field n _ p a h Hp Ea) as (q & Hq & -> & _).
      destruct (live_link n branch labels L thr p (hnd (t_round (thr p)) p q) Hp I) as [Hl _].
      { unfold all_of. rewrite Ep. apply in_or_app. left. apply in_mesh; assumption. }
      rewrite (tell_shape _ _ _ _ _ El).
      match goal with |- effect _ _ _ _ ?th (set_link _ ?m ?k) =>
        destruct (act_weaker L (thr p) th m k Hl Et (fun _ _ => eq_refl) eq_refl eq_refl eq_refl) end; auto.
      constructor; auto.
    - (* tell error *)
      destruct (act_refl L (thr p) (fin (thr p) RErr hs) Et (fun _ _ => eq_refl)). constructor; auto.
    - (* hear *)
      destruct HR as (-> & _).
      destruct (mesh_field n _ p r h Hp Er) as (q & Hq & -> & _).
      destruct (live_link n branch labels L thr p (hnd (t_round (thr p)) p q) Hp I) as [Hl _].
      { unfold all_of. rewrite Ep. apply in_or_app. left. apply in_mesh; assumption. }
      destruct (hear_shape _ _ _ _ _ El) as [_ ->].
      match goal with |- effect _ _ _ _ ?th (set_link _ ?m ?k) =>
        destruct (act_weaker L (thr p) th m k Hl Et (fun _ _ => eq_refl) eq_refl eq_refl eq_refl) end; auto.
      constructor; auto.
    - (* hear error *)
      destruct (act_refl L (thr p) (fin (thr p) RErr hs) Et (fun _ _ => eq_refl)). constructor; auto.
    - (* cancel *)
      destruct HR as (-> & _).
      destruct (mesh_field n _ p r h Hp Er) as (q & Hq & -> & _).
      destruct (live_link n branch labels L thr p (hnd (t_round (thr p)) p q) Hp I) as [Hl _].
      { unfold all_of. rewrite Ep. apply in_or_app. left. apply in_mesh; assumption. }
      destruct (hear_shape _ _ _ _ _ El) as [_ ->].
      match goal with |- effect _ _ _ _ ?th (set_link _ ?m ?k) =>
        destruct (act_weaker L (thr p) th m k Hl Et (fun _ _ => eq_refl) eq_refl eq_refl eq_refl) end; auto.
      constructor; auto.
    - (* done *)
      destruct (act_refl L (thr p) (fin (thr p) ROk hs) Et (fun _ _ => eq_refl)). constructor; auto.
  Qed.
  (** ** The invariant *)

  Variable T : nat -> mty.
  Hypothesis T_dual : dual_mesh n T.

  Definition decl (hist : history) (g p q : nat) : sty := sess (round_types branch T hist g) p q.

  Record dinv (hist : history) (L : links) (thr : nat -> lthread) : Prop := DInv {
    d_late : forall p g x, 1 <= p <= n -> t_round (thr p) < g -> evs g x (t_log (thr p)) = [];
    d_sync : forall g p q, 1 <= p <= n -> peer_role p q -> kept L thr (hnd g p q) ->
      outs (evs g p (t_log (thr q))) = ins (evs g q (t_log (thr p))) ++ tow (lk L (lnk g p q)) (p <? q) /\
      after (decl hist g p q) (evs g q (t_log (thr p))) = Some (l_ty (lk L (lnk g p q)) (p <? q));
    d_pre : forall g p q, 1 <= p <= n -> peer_role p q ->
      is_prefix (ins (evs g q (t_log (thr p)))) (outs (evs g p (t_log (thr q))));
    d_typ : forall g p q, 1 <= p <= n -> peer_role p q -> after (decl hist g p q) (evs g q (t_log (thr p))) <> None;
    d_lab : forall g p x d b l j, 1 <= p <= n -> In (d, VLabel b l j) (evs g x (t_log (thr p))) ->
      if d : bool then j = x /\ nth_error hist g = Some (p, b, l) else j = p /\ nth_error hist g = Some (x, b, l)
  }.

  Lemma evs_one : forall g x g' x' (d : bool) v, evs g x [if d then EvSend g' x' v else EvRecv g' x' v] =
    if (g' =? g) && (x' =? x) then [(d, v)] else [].
  Proof. intros. destruct d; cbn; destruct ((g' =? g) && (x' =? x)); reflexivity. Qed.

  Lemma evs_hit : forall g x log (d : bool) v, evs g x (log ++ [if d then EvSend g x v else EvRecv g x v]) =
    evs g x log ++ [(d, v)].
  Proof. intros. rewrite evs_app, evs_one, !Nat.eqb_refl. reflexivity. Qed.

  Lemma evs_miss : forall g x g' x' log (d : bool) v, (g, x) <> (g', x') ->
    evs g x (log ++ [if d then EvSend g' x' v else EvRecv g' x' v]) = evs g x log.
  Proof.
    intros. rewrite evs_app, evs_one.
    destruct (Nat.eqb_spec g' g), (Nat.eqb_spec x' x); cbn; try apply app_nil_r. congruence.
  Qed.

  Lemma kept_back : forall hist L thr p th' L' m s, effect hist p L (thr p) th' L' -> 1 <= p <= n -> m < lnext L ->
    kept L' (set_thr thr p th') (m, s, true) -> kept L thr (m, s, true) /\ ~ In (m, s, true) (t_trash th').
  Proof.
    intros hist L thr p th' L' m s E Hp Hm [H1 H2].
    assert (H3 : ~ In (m, s, true) (t_trash th')).
    { specialize (H2 p Hp). unfold set_thr in H2. rewrite Nat.eqb_refl in H2. exact H2. }
    destruct (e_back _ _ _ _ _ _ E m s Hm H1 H3) as [H4 H5]. split; [|exact H3]. split; [exact H4|].
    intros q Hq. specialize (H2 q Hq). unfold set_thr in H2. destruct (Nat.eqb_spec q p) as [E0|]; [rewrite E0|]; assumption.
  Qed.

  Lemma set_here : forall (thr : nat -> lthread) p th, set_thr thr p th p = th.
  Proof. intros. unfold set_thr. rewrite Nat.eqb_refl. reflexivity. Qed.
  Lemma set_there : forall (thr : nat -> lthread) p q th, q <> p -> set_thr thr p th q = thr q.
  Proof. intros. unfold set_thr. destruct (Nat.eqb_spec q p); [contradiction|reflexivity]. Qed.

  (** What has to be shown of each pair. *)
  Definition pair_ok (hist : history) (L : links) (thr : nat -> lthread) (g p q : nat) : Prop :=
    (lnk g p q < lnext L -> kept L thr (hnd g p q) ->
      outs (evs g p (t_log (thr q))) = ins (evs g q (t_log (thr p))) ++ tow (lk L (lnk g p q)) (p <? q) /\
      after (decl hist g p q) (evs g q (t_log (thr p))) = Some (l_ty (lk L (lnk g p q)) (p <? q))) /\
    is_prefix (ins (evs g q (t_log (thr p)))) (outs (evs g p (t_log (thr q)))) /\
    after (decl hist g p q) (evs g q (t_log (thr p))) <> None.

  Lemma dinv_pair : forall hist L thr g p q, dinv hist L thr -> 1 <= p <= n -> peer_role p q -> pair_ok hist L thr g p q.
  Proof.
    intros hist L thr g p q D Hp Hq. split; [intros _; apply (d_sync _ _ _ D); assumption|].
    split; [apply (d_pre _ _ _ D)|apply (d_typ _ _ _ D)]; assumption.
  Qed.

  (** A pair whose logs and link the step does not touch. *)
  Lemma pair_same : forall hist L thr p th' L' g a q, effect hist p L (thr p) th' L' -> 1 <= p <= n ->
    1 <= a <= n -> peer_role a q -> dinv hist L thr ->
    evs g q (t_log (set_thr thr p th' a)) = evs g q (t_log (thr a)) ->
    evs g a (t_log (set_thr thr p th' q)) = evs g a (t_log (thr q)) ->
    (lnk g a q < lnext L -> kept L' (set_thr thr p th') (hnd g a q) ->
      l_ty (lk L' (lnk g a q)) (a <? q) = l_ty (lk L (lnk g a q)) (a <? q) /\
      tow (lk L' (lnk g a q)) (a <? q) = tow (lk L (lnk g a q)) (a <? q)) ->
    (lnk g a q < lnext L -> kept L' (set_thr thr p th') (hnd g a q) ->
      outs (evs g a (t_log (set_thr thr p th' q))) =
        ins (evs g q (t_log (set_thr thr p th' a))) ++ tow (lk L' (lnk g a q)) (a <? q) /\
      after (decl hist g a q) (evs g q (t_log (set_thr thr p th' a))) = Some (l_ty (lk L' (lnk g a q)) (a <? q))) /\
    is_prefix (ins (evs g q (t_log (set_thr thr p th' a)))) (outs (evs g a (t_log (set_thr thr p th' q)))) /\
    after (decl hist g a q) (evs g q (t_log (set_thr thr p th' a))) <> None.
  Proof.
    intros hist L thr p th' L' g a q E Hp Ha Hq D E1 E2 HL. rewrite E1, E2.
    destruct (dinv_pair hist L thr g a q D Ha Hq) as (H1 & H2 & H3). split; [|auto].
    intros Hm Hk. destruct (HL Hm Hk) as [-> ->].
    destruct (kept_back hist L thr p th' L' _ _ E Hp Hm Hk) as [Hk' _]. apply H1; assumption.
  Qed.

  Lemma effect_pair : forall hist L thr p th' L' g a q, inv L thr -> dinv hist L thr ->
    effect hist p L (thr p) th' L' -> 1 <= p <= n -> 1 <= a <= n -> peer_role a q ->
    (lnk g a q < lnext L -> kept L' (set_thr thr p th') (hnd g a q) ->
      outs (evs g a (t_log (set_thr thr p th' q))) =
        ins (evs g q (t_log (set_thr thr p th' a))) ++ tow (lk L' (lnk g a q)) (a <? q) /\
      after (decl hist g a q) (evs g q (t_log (set_thr thr p th' a))) = Some (l_ty (lk L' (lnk g a q)) (a <? q))) /\
    is_prefix (ins (evs g q (t_log (set_thr thr p th' a)))) (outs (evs g a (t_log (set_thr thr p th' q)))) /\
    after (decl hist g a q) (evs g q (t_log (set_thr thr p th' a))) <> None.
  Proof.
    intros hist L thr p th' L' g a q I D E Hp Ha Hq.
    pose proof (i_wf _ _ _ _ _ I) as W.
    destruct (e_act _ _ _ _ _ _ E) as [[HS1 HS2]|[HS|HR]].
    - apply pair_same; auto.
      + unfold set_thr. destruct (Nat.eqb_spec a p) as [->|]; auto.
      + unfold set_thr. destruct (Nat.eqb_spec q p) as [->|]; auto.
      + intros Hm Hk. destruct (kept_back hist L thr p th' L' _ _ E Hp Hm Hk) as [_ Hn].
        apply HS2; [exact Hm|apply Hk|exact Hn].
    - destruct HS as (x & v & P & k & HS). cbn zeta in HS. destruct HS as (Hx & Hin & Ht & Hv & Hlog & _ & Hsh).
      set (g0 := t_round (thr p)) in *. set (m := lnk g0 p x) in *. set (s := p <? x) in *.
      destruct (live_link n branch labels L thr p (m, s, true) Hp I) as [Hm _].
      { unfold all_of. apply in_or_app. left; exact Hin. }
      destruct (peer_sym n p x Hp Hx) as [Hx' Hpx].
      assert (Hhit : evs g0 x (t_log th') = evs g0 x (t_log (thr p)) ++ [(true, v)])
        by (rewrite Hlog; exact (evs_hit g0 x (t_log (thr p)) true v)).
      assert (Hmiss : forall g' x', (g', x') <> (g0, x) -> evs g' x' (t_log th') = evs g' x' (t_log (thr p)))
        by (intros g' x' Hd; rewrite Hlog; exact (evs_miss g' x' g0 x (t_log (thr p)) true v Hd)).
      destruct (Nat.eq_dec (lnk g a q) m) as [Em|Hne].
      + destruct (lnk_inj n g a q g0 p x Ha Hq Hp Hx Em) as [-> [[-> ->]|[-> ->]]].
        * (* the sender's own side *)
          rewrite !(set_here thr p th'), !(set_there thr p x th') by (destruct Hx; congruence).
          rewrite Hhit. destruct (dinv_pair hist L thr g0 p x D Hp Hx) as (H1 & H2 & H3).
          destruct (H1 Hm (held_kept L thr p _ Hp I Hin)) as [H4 H5]. fold m s in H4, H5.
          rewrite ins_app. cbn [ins filter map fst negb]. rewrite app_nil_r. rewrite after_app, H5. cbn [MeshSpec.after].
          rewrite Ht. cbn [andb]. rewrite Hv. split; [|split; [exact H2|discriminate]]. intros _ _. fold m s.
          assert (Ht0 : tow (lk L m) s = []).
          { destruct (bool_cases s (l_to (lk L m))) as [Eto|Eto]; [|apply tow_there; exact Eto].
            apply tow_nil. eapply snd_not_behind; [apply W; exact Hm| |exact Eto]. rewrite Ht. reflexivity. }
          rewrite Ht0 in H4.
          destruct Hsh as [[c ->]|[_ ->]]; rewrite lk_set_same; cbn [l_ty].
          -- rewrite upd_same, tow_there by reflexivity. auto.
          -- rewrite upd_neg', upd_same, tow_there by reflexivity. auto.
        * (* the receiver's side *)
          rewrite !(set_here thr p th'), !(set_there thr p x th') by (destruct Hx; congruence).
          rewrite Hhit. destruct (dinv_pair hist L thr g0 x p D Hx' Hpx) as (H1 & H2 & H3).
          rewrite outs_app. cbn [outs filter map fst snd]. split; [|split; [apply prefix_app; exact H2|exact H3]].
          intros Hm' Hk. destruct (kept_back hist L thr p th' L' _ _ E Hp Hm' Hk) as [Hk' Hn].
          destruct (H1 Hm' Hk') as [H4 H5]. rewrite (lnk_sym n g0 x p) in H4, H5, Hn |- *. fold m in H4, H5, Hn |- *.
          assert (Es : (x <? p) = negb s) by (apply side_other; destruct Hx; congruence).
          rewrite Es in H4, H5, Hn |- *.
          destruct Hsh as [[c ->]|[Hbad _]]; [|contradiction]. rewrite lk_set_same. cbn [l_ty]. rewrite upd_neg.
          split; [|exact H5]. rewrite H4, <- app_assoc. f_equal.
          rewrite (tow_here (Link _ _ _ _ _ _)) by reflexivity. cbn [l_q]. rewrite map_app. f_equal.
          destruct (bool_cases s (l_to (lk L m))) as [Eto|Eto].
          -- rewrite (snd_not_behind _ s (W m Hm)); [|rewrite Ht; reflexivity|exact Eto].
             rewrite tow_there; [reflexivity|]. rewrite negb_involutive. exact Eto.
          -- apply tow_here. exact Eto.
      + apply pair_same; auto.
        * unfold set_thr. destruct (Nat.eqb_spec a p) as [->|]; [|reflexivity]. apply Hmiss.
          intros E0. injection E0 as -> ->. apply Hne. reflexivity.
        * unfold set_thr. destruct (Nat.eqb_spec q p) as [->|]; [|reflexivity]. apply Hmiss.
          intros E0. injection E0 as -> ->. apply Hne. apply lnk_sym.
        * intros Hm' Hk. destruct Hsh as [[c ->]|[_ ->]]; rewrite lk_set_other by exact Hne; auto.
    - destruct HR as (x & v & P & k & c & HS). cbn zeta in HS. destruct HS as (Hx & Hin & Ht & Hv & Hlog & _ & Hpe & ->).
      set (g0 := t_round (thr p)) in *. set (m := lnk g0 p x) in *. set (s := p <? x) in *.
      destruct (live_link n branch labels L thr p (m, s, true) Hp I) as [Hm _].
      { unfold all_of. apply in_or_app. left; exact Hin. }
      destruct (peer_sym n p x Hp Hx) as [Hx' Hpx].
      pose proof Hpe as Hpe'. apply pending_some in Hpe'. destruct Hpe' as [Hto Hq0].
      assert (Hhit : evs g0 x (t_log th') = evs g0 x (t_log (thr p)) ++ [(false, v)])
        by (rewrite Hlog; exact (evs_hit g0 x (t_log (thr p)) false v)).
      assert (Hmiss : forall g' x', (g', x') <> (g0, x) -> evs g' x' (t_log th') = evs g' x' (t_log (thr p)))
        by (intros g' x' Hd; rewrite Hlog; exact (evs_miss g' x' g0 x (t_log (thr p)) false v Hd)).
      destruct (Nat.eq_dec (lnk g a q) m) as [Em|Hne].
      + destruct (lnk_inj n g a q g0 p x Ha Hq Hp Hx Em) as [-> [[-> ->]|[-> ->]]].
        * (* the receiver's own side *)
          rewrite !(set_here thr p th'), !(set_there thr p x th') by (destruct Hx; congruence).
          rewrite Hhit. destruct (dinv_pair hist L thr g0 p x D Hp Hx) as (H1 & H2 & H3).
          destruct (H1 Hm (held_kept L thr p _ Hp I Hin)) as [H4 H5]. fold m s in H4, H5.
          rewrite ins_app. cbn [ins filter map fst snd negb]. rewrite after_app, H5. cbn [MeshSpec.after].
          rewrite Ht. cbn [andb negb]. rewrite Hv.
          rewrite (tow_here _ _ Hto), Hq0 in H4. cbn [map] in H4.
          split; [|split; [|discriminate]].
          -- intros _ _. fold m s. rewrite lk_set_same. unfold popped. cbn [l_ty]. rewrite upd_same. split; [|reflexivity].
             rewrite (tow_here (Link _ _ _ _ _ _)) by exact Hto. cbn [l_q]. rewrite H4, <- app_assoc. reflexivity.
          -- exists (map (fun '(v, _, _) => v) (tl (l_q (lk L m)))). rewrite H4, <- app_assoc. reflexivity.
        * (* the sender's side *)
          rewrite !(set_here thr p th'), !(set_there thr p x th') by (destruct Hx; congruence).
          rewrite Hhit. destruct (dinv_pair hist L thr g0 x p D Hx' Hpx) as (H1 & H2 & H3).
          rewrite outs_app. cbn [outs filter map fst snd]. rewrite app_nil_r. split; [|split; [exact H2|exact H3]].
          intros Hm' Hk. destruct (kept_back hist L thr p th' _ _ _ E Hp Hm' Hk) as [Hk' Hn].
          destruct (H1 Hm' Hk') as [H4 H5]. rewrite (lnk_sym n g0 x p) in H4, H5, Hn |- *. fold m in H4, H5, Hn |- *.
          assert (Es : (x <? p) = negb s) by (apply side_other; destruct Hx; congruence).
          rewrite Es in H4, H5, Hn |- *.
          rewrite lk_set_same. unfold popped. cbn [l_ty]. rewrite upd_neg. split; [|exact H5].
          rewrite tow_there in H4 by (rewrite negb_involutive; exact Hto).
          rewrite tow_there by (rewrite negb_involutive; exact Hto). exact H4.
      + apply pair_same; auto.
        * unfold set_thr. destruct (Nat.eqb_spec a p) as [->|]; [|reflexivity]. apply Hmiss.
          intros E0. injection E0 as -> ->. apply Hne. reflexivity.
        * unfold set_thr. destruct (Nat.eqb_spec q p) as [->|]; [|reflexivity]. apply Hmiss.
          intros E0. injection E0 as -> ->. apply Hne. apply lnk_sym.
        * intros Hm' Hk. rewrite lk_set_other by exact Hne; auto.
  Qed.

  Lemma effect_late : forall hist L thr p th' L' q g x, dinv hist L thr -> effect hist p L (thr p) th' L' ->
    1 <= p <= n -> 1 <= q <= n -> t_round (set_thr thr p th' q) < g -> evs g x (t_log (set_thr thr p th' q)) = [].
  Proof.
    intros hist L thr p th' L' q g x D E Hp Hq Hg. unfold set_thr in *.
    destruct (Nat.eqb_spec q p) as [->|]; [|apply (d_late _ _ _ D); assumption].
    pose proof (e_round _ _ _ _ _ _ E) as Hr.
    assert (H0 : evs g x (t_log (thr p)) = []) by (apply (d_late _ _ _ D); [exact Hp|lia]).
    destruct (e_act _ _ _ _ _ _ E) as [[HS1 _]|[(x0 & v & P & k & HS)|(x0 & v & P & k & c & HS)]].
    - rewrite HS1. exact H0.
    - cbn zeta in HS. destruct HS as (_ & _ & _ & _ & Hlog & _). rewrite Hlog.
      rewrite (evs_miss g x _ x0 (t_log (thr p)) true v); [exact H0|]. intros E0. injection E0 as -> ->. lia.
    - cbn zeta in HS. destruct HS as (_ & _ & _ & _ & Hlog & _). rewrite Hlog.
      rewrite (evs_miss g x _ x0 (t_log (thr p)) false v); [exact H0|]. intros E0. injection E0 as -> ->. lia.
  Qed.

  Lemma effect_lab : forall hist L thr p th' L' g q x d b l j, dinv hist L thr -> effect hist p L (thr p) th' L' ->
    1 <= p <= n -> 1 <= q <= n -> In (d, VLabel b l j) (evs g x (t_log (set_thr thr p th' q))) ->
    if d : bool then j = x /\ nth_error hist g = Some (q, b, l) else j = q /\ nth_error hist g = Some (x, b, l).
  Proof.
    intros hist L thr p th' L' g q x d b l j D E Hp Hq Hin. unfold set_thr in *.
    destruct (Nat.eqb_spec q p) as [->|]; [|eapply (d_lab _ _ _ D); eassumption].
    destruct (e_act _ _ _ _ _ _ E) as [[HS1 _]|[(x0 & v & P & k & HS)|(x0 & v & P & k & c & HS)]].
    - rewrite HS1 in Hin. eapply (d_lab _ _ _ D); eassumption.
    - cbn zeta in HS. destruct HS as (_ & _ & _ & _ & Hlog & Hlab & _). rewrite Hlog, evs_app in Hin.
      apply in_app_or in Hin. destruct Hin as [Hin|Hin]; [eapply (d_lab _ _ _ D); eassumption|].
      rewrite (evs_one g x _ x0 true v) in Hin. destruct (Nat.eqb_spec (t_round (thr p)) g) as [<-|]; [|contradiction].
      destruct (Nat.eqb_spec x0 x) as [<-|]; [|contradiction]. destruct Hin as [Hin|[]]. injection Hin as <- ->. exact Hlab.
    - cbn zeta in HS. destruct HS as (_ & _ & _ & _ & Hlog & Hlab & _). rewrite Hlog, evs_app in Hin.
      apply in_app_or in Hin. destruct Hin as [Hin|Hin]; [eapply (d_lab _ _ _ D); eassumption|].
      rewrite (evs_one g x _ x0 false v) in Hin. destruct (Nat.eqb_spec (t_round (thr p)) g) as [<-|]; [|contradiction].
      destruct (Nat.eqb_spec x0 x) as [<-|]; [|contradiction]. destruct Hin as [Hin|[]]. injection Hin as <- ->. exact Hlab.
  Qed.

  (** The ghost history only grows, and only when a choice is made. *)
  Lemma record_case : forall L p i (th th' : lthread) L' hist, tcase p th L i th' L' ->
    record p i th hist = hist \/
    exists b l ss hs pl, record p i th hist = hist ++ [(p, b, l)] /\ l < labels b /\ i = ILabel l /\
      t_trash th = [] /\ t_prog th = PRun ss SBroadcast hs /\ choice_of p ss = Some b /\
      alloc link_ops (pair_types n (choose_vars n) (branch b l)) L = (pl, L').
  Proof.
    intros L p i th th' L' hist C. destruct C; try (left; reflexivity).
    right. exists b, l, ss, hs, pl. unfold record. rewrite H, H0, H1. repeat split; assumption.
  Qed.

  Lemma dinv_case : forall hist L thr p i th' L', 1 <= p <= n -> inv L thr -> rinv hist L thr -> dinv hist L thr ->
    tcase p (thr p) L i th' L' -> dinv (record p i (thr p) hist) L' (set_thr thr p th').
  Proof.
    intros hist L thr p i th' L' Hp I R D C.
    pose proof (effect_case hist L thr p i th' L' Hp I R C) as E.
    pose proof (rinv_case n branch labels strict branch_dual hist L thr p i th' L' Hp I R C) as R'.
    pose proof (r_next _ _ _ _ _ R) as Hn. pose proof (r_next _ _ _ _ _ R') as Hn'.
    assert (Hlate : forall q g x, 1 <= q <= n -> length hist < g -> evs g x (t_log (thr q)) = []).
    { intros q g x Hq Hg. apply (d_late _ _ _ D); [exact Hq|]. destruct (r_thr _ _ _ _ _ R q Hq). lia. }
    destruct (record_case L p i (thr p) th' L' hist C) as [Hr|(b & l & ss & hs & pl & Hr & Hl & -> & Et & Ep & Ec & Ea)];
      rewrite Hr in *.
    - constructor.
      + intros q g x Hq Hg. eapply effect_late; eauto.
      + intros g a q Ha Hq Hk. apply (effect_pair hist L thr p th' L' g a q I D E Hp Ha Hq); [|exact Hk].
        destruct Hk as [Hk _]. apply full_avail in Hk. rewrite Hn, <- Hn'. apply Hk.
      + intros g a q Ha Hq. apply (effect_pair hist L thr p th' L' g a q I D E Hp Ha Hq).
      + intros g a q Ha Hq. apply (effect_pair hist L thr p th' L' g a q I D E Hp Ha Hq).
      + intros g a x d b l j Ha Hin. eapply effect_lab; eauto.
    - assert (Hdecl : forall g a q, g <= length hist -> decl (hist ++ [(p, b, l)]) g a q = decl hist g a q).
      { intros g a q Hg. unfold decl, round_types. destruct g as [|g]; [reflexivity|].
        rewrite nth_error_app1 by lia. reflexivity. }
      assert (Elog : forall q, t_log (set_thr thr p th' q) = t_log (thr q)).
      { intros q. unfold set_thr. destruct (Nat.eqb_spec q p) as [->|]; [|reflexivity].
        inversion C; subst; cbn [fin t_log]; try reflexivity; congruence. }
      constructor.
      + intros q g x Hq Hg. eapply effect_late; eauto.
      + intros g a q Ha Hq Hk. destruct (le_lt_dec g (length hist)) as [Hg|Hg].
        * rewrite Hdecl by exact Hg. apply (effect_pair hist L thr p th' L' g a q I D E Hp Ha Hq); [|exact Hk].
          pose proof (lnk_range n g a q Ha Hq). nia.
        * destruct (peer_sym n a q Ha Hq) as [Hq' _]. rewrite !Elog, !Hlate by assumption.
          pose proof Hk as [Hk' _]. apply full_avail in Hk'. destruct Hk' as [Hm _].
          pose proof (lnk_range n g a q Ha Hq). rewrite Hn', app_length in Hm. cbn [length] in Hm.
          assert (g = S (length hist)) by nia. subst g.
          destruct (new_mesh n (choose_vars n) (branch b l) L pl L' (choose_vars_spec n) (branch_dual b l Hl) Ea)
            as (_ & _ & _ & Hnew & Hty). unfold decl, round_types.
          rewrite nth_error_app2, Nat.sub_diag by lia. cbn [nth_error MeshSpec.after ins outs filter map app].
          destruct (Hnew (lnk (S (length hist)) a q)) as [t Ht]; [rewrite Hn, Hn', app_length; cbn [length]; lia|].
          split; [rewrite Ht; symmetry; apply tow_nil; reflexivity|].
          rewrite <- (Hty a q Ha Hq') by (destruct Hq; congruence). rewrite Hn.
          reflexivity.
      + intros g a q Ha Hq. apply (effect_pair hist L thr p th' L' g a q I D E Hp Ha Hq).
      + intros g a q Ha Hq. destruct (le_lt_dec g (length hist)) as [Hg|Hg].
        * rewrite Hdecl by exact Hg. apply (effect_pair hist L thr p th' L' g a q I D E Hp Ha Hq).
        * rewrite Elog, Hlate by assumption. discriminate.
      + intros g a x d b' l' j Ha Hin. pose proof (effect_lab _ _ _ _ _ _ _ _ _ _ _ _ _ D E Hp Ha Hin) as H.
        assert (Hx' : forall y, nth_error hist g = Some y -> nth_error (hist ++ [(p, b, l)]) g = Some y).
        { intros y Hy. rewrite nth_error_app1; [exact Hy|]. apply nth_error_Some. congruence. }
        destruct d; destruct H; auto.
  Qed.
End Log.
