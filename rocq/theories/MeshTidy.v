(** Runs without crashes for pairwise dual types that are tidy: nothing fails. *)
From Coq Require Import List Arith Bool Lia Permutation.
From Verif Require Import Types Diag DiagProofs Wiring WiringProofs Session Mesh MeshSpec Links LinksProofs Refine Sim
  MeshWire MeshInv MeshStep MeshKeep MeshSafe MeshRounds MeshRun MeshLog MeshReach MeshSignal MeshClean TidySpec.
Import ListNotations.

(** The last payload of a session. *)
Fixpoint last_payload (s : sty) : option pty :=
  match s with
  | End => None
  | Snd P k | Rcv P k => match last_payload k with Some Q => Some Q | None => Some P end
  end.

Lemma last_co : forall s, last_payload (co s) = last_payload s.
Proof. induction s as [|P s IH|P s IH]; cbn; [reflexivity| |]; rewrite IH; reflexivity. Qed.

Lemma last_after : forall labels evl s t, after labels s evl = Some t -> t <> End -> last_payload s = last_payload t.
Proof.
  induction evl as [|[d v] evl IH]; intros s t H Ht; cbn in H; [congruence|]. destruct s as [|P k|P k]; [discriminate| |].
  - destruct (d && has labels v P); [|discriminate]. cbn. rewrite (IH k t H Ht). destruct t; [congruence| |]; cbn;
      destruct (last_payload t); reflexivity.
  - destruct (negb d && has labels v P); [|discriminate]. cbn. rewrite (IH k t H Ht). destruct t; [congruence| |]; cbn;
      destruct (last_payload t); reflexivity.
Qed.

Lemma after_last : forall labels evl s P, after labels s evl = Some End -> last_payload s = Some P ->
  exists d v, In (d, v) evl /\ has labels v P = true.
Proof.
  induction evl as [|[d v] evl IH]; intros s P H Hl; cbn in H; [injection H as ->; discriminate|]. destruct s as [|Q k|Q k]; [discriminate| |].
  - destruct (d && has labels v Q) eqn:E; [|discriminate]. apply andb_true_iff in E. cbn in Hl. destruct (last_payload k) as [Q'|] eqn:El.
    + injection Hl as ->. destruct (IH k P H El) as (d' & v' & H1 & H2). exists d', v'. split; [right; exact H1|exact H2].
    + injection Hl as ->. exists d, v. split; [left; reflexivity|apply E].
  - destruct (negb d && has labels v Q) eqn:E; [|discriminate]. apply andb_true_iff in E. cbn in Hl. destruct (last_payload k) as [Q'|] eqn:El.
    + injection Hl as ->. destruct (IH k P H El) as (d' & v' & H1 & H2). exists d', v'. split; [right; exact H1|exact H2].
    + injection Hl as ->. exists d, v. split; [left; reflexivity|apply E].
Qed.

Section Tidy.
  Variable n : nat.
  Variable branch : nat -> nat -> nat -> mty.
  Variable labels : nat -> nat.
  Variable strict : bool.
  Hypothesis branch_dual : forall b l, l < labels b -> dual_mesh n (branch b l).
  Hypothesis branch_tidy : forall b l, l < labels b -> tidy_mesh n (branch b l).
  Variable T : nat -> mty.
  Hypothesis T_dual : dual_mesh n T.
  Hypothesis T_tidy : tidy_mesh n T.

  Notation lthread := (@thread handle).
  Notation tcase := (tcase n branch labels strict).
  Notation inv := (inv n branch labels).
  Notation rinv := (rinv n labels).
  Notation dinv := (dinv n branch labels T).
  Notation decl := (decl branch T).
  Notation sinv := (sinv n).
  Notation cinv := (cinv n).
  Notation peer_role := (peer_role n).
  Notation lnk := (lnk n).
  Notation hnd := (hnd n).
  Notation mesh := (mesh n).
  Notation kept := (kept n).

  Record uinv (hist : history) (thr : nat -> lthread) : Prop := UInv {
    u_tidy : forall p ss r hs, 1 <= p <= n -> t_prog (thr p) = PRun ss r hs -> tidy p ss r;
    u_early : forall p g x b l j, 1 <= p <= n -> In (EvRecv g x (VLabel b l j)) (t_log (thr p)) -> g < t_round (thr p);
    u_last : forall g c b l q, nth_error hist g = Some (c, b, l) -> peer_role c q -> last_payload (decl hist g c q) = Some (PChoice b q)
  }.

  Lemma decl_snoc : forall hist e g p q, g <= length hist -> decl (hist ++ [e]) g p q = decl hist g p q.
  Proof.
    intros hist e g p q Hg. unfold MeshLog.decl, round_types. destruct g as [|g]; [reflexivity|].
    rewrite nth_error_app1 by lia. reflexivity.
  Qed.

  Lemma all_send_nth : forall p b ss i k s, all_send_choice p b i ss = true -> nth_error ss k = Some s ->
    s = Snd (PChoice b (other p (i + k))) End.
  Proof.
    intros p b. induction ss as [|t ss IH]; intros i k s H Hn; [destruct k; discriminate|].
    destruct t as [|P [| |]|]; try discriminate. cbn in H. apply andb_true_iff in H. destruct H as [H1 H2].
    destruct k as [|k].
    - cbn in Hn. injection Hn as <-. destruct P as [|b' j]; [discriminate|]. cbn in H1. apply andb_true_iff in H1.
      rewrite !Nat.eqb_eq in H1. destruct H1 as [-> ->]. rewrite Nat.add_0_r. reflexivity.
    - cbn in Hn. rewrite (IH (S i) k s H2 Hn). f_equal. f_equal. f_equal. lia.
  Qed.

  Lemma choice_field : forall p ss b x s, choice_of p ss = Some b -> 1 <= p <= n -> peer_role p x ->
    nth_error ss (field_pos p x) = Some s -> s = Snd (PChoice b x) End.
  Proof.
    intros p ss b x s H Hp [H1 H2] Hn. unfold choice_of in H.
    destruct ss as [|[|[|b' j] [| |]|] rest]; try discriminate.
    destruct (all_send_choice p b' 1 (Snd (PChoice b' j) End :: rest)) eqn:E; [|discriminate]. injection H as ->.
    rewrite (all_send_nth p b _ 1 _ s E Hn). f_equal. f_equal. unfold field_pos, other.
    destruct (Nat.ltb_spec x p).
    - destruct (Nat.leb_spec p (1 + (x - 1))); lia.
    - destruct (Nat.leb_spec p (1 + (x - 2))); lia.
  Qed.

  (** Who takes an offer has only this session left. *)
  Lemma tidy_offer : forall hist thr p x ss r hs b q, uinv hist thr -> 1 <= p <= n -> t_prog (thr p) = PRun ss (SRole x r) hs ->
    length ss = n - 1 -> peer_role p x -> nth_error ss (field_pos p x) = Some (Rcv (PChoice b p) End) -> peer_role p q -> q <> x ->
    nth_error ss (field_pos p q) = Some End.
  Proof.
    intros hist thr p x ss r hs b q U Hp Ep Hlen Hx Es Hq Hqx. pose proof (u_tidy _ _ U p _ _ _ Hp Ep) as H. cbn in H. rewrite Es in H.
    destruct Hx as [Hx1 Hx2], Hq as [Hq1 Hq2].
    destruct (nth_error ss (field_pos p q)) as [s|] eqn:E.
    - f_equal. apply (H (field_pos p q)); [|exact E]. intros E'. apply Hqx. unfold field_pos in E'.
      destruct (Nat.ltb_spec q p), (Nat.ltb_spec x p); lia.
    - exfalso. apply nth_error_None in E. unfold field_pos in E. destruct (Nat.ltb_spec q p); lia.
  Qed.

  (** Who has left the round in which a role closes has closed too. *)
  Lemma tidy_left : forall hist L thr p x a r hs, inv L thr -> rinv hist L thr -> dinv hist L thr -> uinv hist thr ->
    1 <= p <= n -> t_prog (thr p) = PClose a r hs -> peer_role p x -> left_end (thr x) p (t_round (thr p)) ->
    t_round (thr x) = t_round (thr p) /\ t_prog (thr x) = PFin ROk.
  Proof.
    intros hist L thr p x a r hs I R D U Hp Ep Hx Hl. destruct (peer_sym n p x Hp Hx) as [Hx' Hpx].
    pose proof (r_thr _ _ _ _ _ R p Hp) as [Hle HR]. rewrite Ep in HR. destruct HR as (-> & Hno & _).
    pose proof (r_thr _ _ _ _ _ R x Hx') as [Hle' HR'].
    assert (K : nth_error hist (t_round (thr p)) = None).
    { destruct (nth_error hist (t_round (thr p))) as [[[c b] l]|] eqn:E; [|reflexivity]. exfalso.
      assert (Hc : 1 <= c <= n) by (eapply r_past; eauto).
      assert (Hcp : peer_role p c) by (split; [intros ->; apply (Hno b l eq_refl)|exact Hc]).
      destruct (peer_sym n p c Hp Hcp) as [_ Hpc].
      pose proof (u_last _ _ U _ _ _ _ p E Hpc) as HL.
      assert (Hin : In (hnd (t_round (thr p)) p c) (held (t_prog (thr p)))) by (rewrite Ep; apply in_mesh; assumption).
      destruct (d_sync _ _ _ _ _ _ _ D (t_round (thr p)) p c Hp Hcp (held_kept n branch labels L thr p _ Hp I Hin)) as [_ HA].
      pose proof (i_prog _ _ _ _ _ I p Hp) as PO. rewrite Ep in PO. cbn in PO. destruct PO as (_ & _ & PO & _).
      rewrite Forall_forall in PO. specialize (PO _ (in_mesh n (t_round (thr p)) p c Hp Hcp)). unfold lty, MeshRounds.hnd in PO. rewrite PO in HA.
      assert (HL' : last_payload (decl hist (t_round (thr p)) p c) = Some (PChoice b p)).
      { rewrite <- HL. unfold MeshLog.decl. rewrite <- last_co. f_equal.
        assert (HD : dual_mesh n (round_types branch T hist (t_round (thr p)))).
        { unfold round_types. destruct (t_round (thr p)) as [|g]; [exact T_dual|].
          destruct (nth_error hist g) as [[[c' b'] l']|] eqn:E'; [|exact T_dual]. apply branch_dual. eapply r_past; eauto. }
        rewrite (proj2 HD p c Hp Hc) by (destruct Hcp; congruence). apply co_co. }
      destruct (after_last labels _ _ _ HA HL') as (d & v & Hv & Hh).
      destruct v as [|b' l' j']; [discriminate|]. cbn in Hh.
      pose proof (d_lab _ _ _ _ _ _ _ D _ _ _ _ _ _ _ Hp Hv) as HLb.
      destruct d.
      - destruct HLb as [_ HLb]. exact (Hno b' l' (eq_trans (eq_sym E) HLb)).
      - unfold evs in Hv. apply in_flat_map in Hv. destruct Hv as (e & He & Hv).
        destruct e as [g' y w|g' y w|]; cbn in Hv; [| |contradiction].
        + destruct ((g' =? t_round (thr p)) && (y =? c)); [|contradiction]. destruct Hv as [Hv|[]]. discriminate.
        + destruct ((g' =? t_round (thr p)) && (y =? c)) eqn:Eg; [|contradiction]. destruct Hv as [Hv|[]]. injection Hv as ->.
          apply andb_true_iff in Eg. rewrite !Nat.eqb_eq in Eg. destruct Eg as [-> ->].
          pose proof (u_early _ _ U p _ _ _ _ _ Hp He). lia. }
    destruct Hl as [Hl|[Hl Hm]].
    - exfalso. apply nth_error_None in K. lia.
    - split; [exact Hl|]. destruct (t_prog (thr x)) as [|b l pend own| |[]|]; try contradiction; [|reflexivity].
      exfalso. destruct HR' as (E & _). rewrite Hl in E. congruence.
  Qed.

  Lemma uinv_step : forall hist L thr p i th' L', 1 <= p <= n -> inv L thr -> rinv hist L thr -> dinv hist L thr ->
    uinv hist thr -> tcase p (thr p) L i th' L' -> uinv (record p i (thr p) hist) (set_thr thr p th').
  Proof.
    intros hist L thr p i th' L' Hp I R D U C. constructor.
    - intros q ss0 r0 hs0 Hq E. unfold set_thr in E. destruct (Nat.eqb_spec q p) as [->|]; [|eapply u_tidy; eauto].
      destruct C; cbn [t_prog fin] in E; try discriminate; try (eapply u_tidy; eauto; fail);
        try (injection E as <- <- <-;
             match goal with Ep : t_prog (thr p) = PRun _ (SRole _ _) _ |- _ =>
               pose proof (u_tidy _ _ U p _ _ _ Hp Ep) as K; cbn in K end;
             match goal with Es : nth_error _ _ = Some _ |- _ => rewrite Es in K; exact K end; fail).
      + injection E as <- <- <-. apply branch_tidy; assumption.
      + injection E as <- <- <-. apply branch_tidy; [|exact Hp].
        pose proof (i_prog _ _ _ _ _ I p Hp) as PO. rewrite H0 in PO. cbn in PO. apply PO.
    - intros q g x b l j Hq E. unfold set_thr in *. destruct (Nat.eqb_spec q p) as [->|]; [|eapply u_early; eauto].
      destruct C; cbn [t_log t_round fin] in *; try (eapply u_early; eauto; fail);
        try (apply in_app_or in E; destruct E as [E|[E|[]]]; [apply (u_early _ _ U p _ _ _ _ _ Hp) in E; lia|try discriminate; injection E as <- _ _; lia]; fail).
      apply (u_early _ _ U p _ _ _ _ _ Hp) in E. lia.
    - intros g c b l q E Hq. destruct (record_case n branch labels strict L p i (thr p) th' L' hist C)
        as [E0|(b0 & l0 & ss & hs & pl & E0 & Hl0 & Ei & Et & Ep & Ec & Ea)]; rewrite E0 in E |- *; [eapply u_last; eauto|].
      destruct (Nat.eq_dec g (length hist)) as [->|Hg].
      + rewrite nth_error_app2, Nat.sub_diag in E by lia. cbn in E. injection E as <- <- <-.
        pose proof (chooser_last n branch labels hist L thr p ss hs b0 Hp I R Ep Ec) as Hr.
        pose proof (r_thr _ _ _ _ _ R p Hp) as [_ HR]. rewrite Ep in HR. destruct HR as [Ehs _].
        pose proof (i_prog _ _ _ _ _ I p Hp) as PO. rewrite Ep in PO. cbn in PO. destruct PO as (P1 & _ & P3).
        assert (Hlen : length ss = n - 1) by (rewrite <- (Forall2_len _ _ _ _ _ P3); exact P1).
        destruct (nth_error ss (field_pos p q)) as [s|] eqn:Es.
        2: { exfalso. apply nth_error_None in Es. destruct Hq. unfold field_pos in Es. destruct (Nat.ltb_spec q p); lia. }
        pose proof (choice_field p ss b0 q s Ec Hp Hq Es) as ->.
        pose proof (mesh_nth n (t_round (thr p)) p q Hp Hq) as Hm. rewrite <- Ehs in Hm.
        destruct (run_field n branch labels hist L thr p ss _ hs q _ _ Hp I R Ep Hq Es Hm) as (_ & _ & Ht & _).
        assert (Hin : In (hnd (t_round (thr p)) p q) (held (t_prog (thr p)))) by (rewrite Ep; cbn; rewrite Ehs; apply in_mesh; assumption).
        destruct (d_sync _ _ _ _ _ _ _ D (t_round (thr p)) p q Hp Hq (held_kept n branch labels L thr p _ Hp I Hin)) as [_ HA].
        rewrite Ht in HA. rewrite decl_snoc, <- Hr by lia. rewrite (last_after labels _ _ _ HA) by discriminate. reflexivity.
      + assert (Hlt : g < length hist).
        { assert (g < length (hist ++ [(p, b0, l0)])) by (apply nth_error_Some; congruence). rewrite app_length in H. cbn in H. lia. }
        rewrite nth_error_app1 in E by exact Hlt. rewrite decl_snoc by lia. eapply u_last; eauto.
  Qed.

  Lemma uinv_init : uinv [] (st_thr (init link_ops n T empty_links)).
  Proof.
    destruct (init_form n T T_dual) as (L & _ & Hn & Hnew & Hty & _ & Hthr). constructor.
    - intros p ss r hs Hp E. rewrite Hthr in E by exact Hp. injection E as <- <- _. apply T_tidy, Hp.
    - intros p g x b l j Hp E. rewrite Hthr in E by exact Hp. contradiction.
    - intros g c b l q E. destruct g; discriminate.
  Qed.
End Tidy.
