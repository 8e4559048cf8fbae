(** The windows of a thread of the timed machine stay in step with its sessions: proofs for C48. *)
From Coq Require Import List Arith ZArith Bool Lia.
From Verif Require Import Types Wiring Session Mesh Timed TimedMesh TimedMeshProofs.
Import ListNotations.
Open Scope nat_scope.

Section Windows.
  Context {S H : Type}.
  Variable O : ops S H.
  Variable n : nat.
  Variable branch : nat -> nat -> nat -> mty.
  Variable branchw : nat -> nat -> nat -> list (list window).
  Variable labels : nat -> nat.
  Variable now : nat -> nat -> Z.
  (** What the windows of messages of type t that role p sends (d = true) or receives on its field f satisfy; those
      of choices are free. *)
  Variable Q : nat -> nat -> bool -> nat -> window -> Prop.

  Fixpoint covers (p f : nat) (s : sty) (ws : list window) : Prop :=
    match s, ws with
    | End, [] => True
    | Snd (PVal t) k, w :: ws => Q p f true t w /\ covers p f k ws
    | Rcv (PVal t) k, w :: ws => Q p f false t w /\ covers p f k ws
    | Snd (PChoice _ _) k, w :: ws | Rcv (PChoice _ _) k, w :: ws => w = free_window /\ covers p f k ws
    | _, _ => False
    end.
  (** From field f. *)
  Inductive covered (p : nat) : nat -> list sty -> list (list window) -> Prop :=
  | covered_nil : forall f, covered p f [] []
  | covered_cons : forall f s w ss ws, covers p f s w -> covered p (Datatypes.S f) ss ws -> covered p f (s :: ss) (w :: ws).

  Hypothesis HB : forall b l p, l < labels b -> 1 <= p <= n -> covered p 0 (fst (branch b l p)) (branchw b l p).

  Definition free_first (ws : list window) : Prop := hd free_window ws = free_window.

  (** The label of a choice in progress exists. *)
  Definition aligned (p : nat) (tt : @tthread H) : Prop :=
    match t_prog (tm_thr tt) with
    | PRun ss _ _ => covered p 0 ss (tm_wins tt)
    | PChoose b l _ _ => l < labels b /\ Forall free_first (tm_wins tt)
    | _ => True
    end.

  Lemma covered_set : forall p ss ws f g s, covered p g ss ws ->
    (nth_error ss f <> None -> covers p (g + f) s (tl (nth f ws []))) -> covered p g (set_nth f s ss) (pop_window f ws).
  Proof.
    unfold pop_window. intros p ss ws f g s F. revert f. induction F as [g|g x w ss ws Hx F IH]; intros f Hs.
    - destruct f; constructor.
    - destruct f as [|f]; cbn in *.
      + constructor; [rewrite <- (Nat.add_0_r g); apply Hs; discriminate|exact F].
      + constructor; [exact Hx|apply IH]. now rewrite <- Nat.add_succ_r.
  Qed.
  Lemma covered_nth : forall p g ss ws f s, covered p g ss ws -> nth_error ss f = Some s -> covers p (g + f) s (nth f ws []).
  Proof.
    intros p g ss ws f s F. revert f. induction F as [g|g x w ss ws Hx F IH]; intros [|f] E; cbn in *; try discriminate.
    - injection E as <-. rewrite Nat.add_0_r. exact Hx.
    - rewrite Nat.add_succ_r. apply (IH f), E.
  Qed.
  Lemma send_choice_free : forall p q b ss k g ws, all_send_choice p b k ss = true -> covered q g ss ws -> Forall free_first ws.
  Proof.
    intros p q b ss k g ws E F. revert k E. induction F as [g|g x w ss ws Hx F IH]; intros k E; constructor.
    - cbn in E. destruct x as [|[t|b' j] [|? ?|? ?]|? ?]; try discriminate. destruct w; [contradiction|]. destruct Hx as [-> _]. reflexivity.
    - cbn in E. destruct x as [|[t|b' j] [|? ?|? ?]|? ?]; try discriminate. apply andb_prop in E as [_ E]. exact (IH _ E).
  Qed.
  Lemma choice_free : forall p ss b q g ws, choice_of p ss = Some b -> covered q g ss ws -> Forall free_first ws.
  Proof.
    intros p ss b q g ws E F. unfold choice_of in E. destruct ss as [|[|[t|b' j] [|? ?|? ?]|? ?] ss]; try discriminate.
    destruct (all_send_choice _ _ _ _) eqn:Ea; [|discriminate]. exact (send_choice_free _ _ _ _ _ _ _ Ea F).
  Qed.

  Lemma lift_aligned : forall p tt (r : option (@thread H * S)) tt' s', lift tt r = Some (tt', s') ->
    (match t_prog (tm_thr tt') with PRun _ _ _ | PChoose _ _ _ _ => False | _ => True end) -> aligned p tt'.
  Proof. intros p tt r tt' s' _ K. unfold aligned. destruct (t_prog (tm_thr tt')); easy. Qed.

  Lemma timed_op_aligned : forall r p i tt s wins todo tt' s',
    timed_op O n branch labels r p i tt s wins todo = Some (tt', s') -> t_trash (tm_thr tt) = [] ->
    (forall th s1, mesh O n branch labels p i tt s = Some (th, s1) ->
       match t_prog th with
       | PRun ss _ _ => covered p 0 ss wins
       | PChoose b l _ _ => l < labels b /\ Forall free_first wins
       | _ => True
       end) -> aligned p tt'.
  Proof.
    intros r p i tt s wins todo tt' s' E Et K. unfold timed_op in E. destruct (r_handed r).
    - destruct (mesh O n branch labels p i tt s) as [[th s1]|] eqn:Em; [|discriminate]. specialize (K th s1 eq_refl).
      unfold aligned. destruct (t_prog th) eqn:Ep;
        [destruct (r_out r); injection E as <- <-; cbn; rewrite Ep; exact K..| |]; injection E as <- <-; cbn; rewrite Ep; exact Logic.I.
    - unfold mesh, tstep in E. rewrite Et in E. unfold aligned.
      destruct (t_prog (tm_thr tt)); cbn in E; try discriminate; injection E as <- <-; exact Logic.I.
  Qed.

  Lemma pop_covers : forall p ss ws f q k, covered p 0 ss ws ->
    (nth_error ss f = Some (Snd q k) \/ nth_error ss f = Some (Rcv q k)) ->
    covered p 0 (set_nth f k ss) (pop_window f ws).
  Proof.
    intros p ss ws f q k F E. apply covered_set; [exact F|]. intros _.
    destruct E as [E|E]; pose proof (covered_nth _ _ _ _ _ _ F E) as K; cbn in K; destruct q as [t|b j];
      destruct (nth f ws []) as [|w ws']; try contradiction; exact (proj2 K).
  Qed.

  Lemma ttstep_aligned : forall p i tt s tt' s', 1 <= p <= n -> aligned p tt ->
    ttstep O n branch branchw labels now p i tt s = Some (tt', s') -> aligned p tt'.
  Proof.
    intros p i tt s tt' s' Hp A E. unfold ttstep in E. cbv zeta in E.
    assert (CR : t_trash (tm_thr tt) = [] -> lift tt (mesh O n branch labels p ICrash tt s) = Some (tt', s') -> aligned p tt').
    { intros Et El. unfold mesh, tstep in El. rewrite Et in El. unfold aligned.
      destruct (t_prog (tm_thr tt)); cbn in El; try discriminate; injection El as <- <-; exact Logic.I. }
    destruct (t_trash (tm_thr tt)) as [|y ys] eqn:Et.
    2:{ destruct i as [[]| |]; try discriminate. unfold mesh, tstep in E. rewrite Et in E.
        destruct (op_drop O y s) as [out s1]. injection E as <- <-. exact A. }
    specialize (CR eq_refl).
    destruct (tm_dead tt).
    { destruct i as [[]| |]; try discriminate. exact (CR E). }
    assert (CL : forall c, match t_prog (tm_thr tt) with
              | PFin _ | PStuck _ => None
              | _ => Some (TThread (tm_thr tt) (tm_wins tt) (set_clock (tm_clocks tt) c (now p (tm_next tt))) (Datatypes.S (tm_next tt)) (tm_todo tt) false, s)
              end = Some (tt', s') -> aligned p tt').
    { intros c El. unfold aligned in *. destruct (t_prog (tm_thr tt)) eqn:Ep; try discriminate; injection El as <- <-; cbn; rewrite Ep; exact A. }
    destruct i as [i| |c]; [| |exact (CL c E)].
    2:{ destruct (t_prog (tm_thr tt)) as [ss [| |x r'|? ?|? ? ?|? ? ?] hs|b l0 [|[[x h] ms] pend] own|a r hs|res|hs] eqn:Ep; try discriminate.
        destruct (callable n p x); [|discriminate]. destruct (nth_error ss (comm_field p x - 1)) as [[|q k|q k]|]; try discriminate.
        - destruct q; discriminate.
        - destruct q as [t|b j]; [|destruct k];
            (match type of E with (if ?c then _ else _) = _ => destruct c end; [|discriminate E];
             destruct (mesh O n branch labels p ITau tt s); [discriminate E|]; exact (CR E)). }
    destruct (t_prog (tm_thr tt)) as [ss r hs|b l0 pend own|a r hs|res|hs] eqn:Ep; unfold aligned in A; rewrite Ep in A.
    - assert (MP : forall j th s1, mesh O n branch labels p j tt s = Some (th, s1) -> 
          forall x r', r = SRole x r' -> callable n p x = true ->
          match j with
          | IVal v => forall t k, nth_error ss (comm_field p x - 1) = Some (Snd (PVal t) k) ->
              match t_prog th with PRun ss' _ _ => ss' = set_nth (comm_field p x - 1) k ss | PChoose _ _ _ _ => False | _ => True end
          | ITau => (forall t k, nth_error ss (comm_field p x - 1) = Some (Rcv (PVal t) k) ->
              match t_prog th with PRun ss' _ _ => ss' = set_nth (comm_field p x - 1) k ss | PChoose _ _ _ _ => False | _ => True end) /\
              (forall b, nth_error ss (comm_field p x - 1) = Some (Rcv (PChoice b p) End) ->
              match t_prog th with PRun ss' _ _ => ss' = fst (branch b (label_of O hs (comm_field p x - 1) s) p) /\
                  label_of O hs (comm_field p x - 1) s < labels b | PChoose _ _ _ _ => False | _ => True end)
          | _ => True end).
      { intros j th s1 E1 x r' -> Ec. unfold mesh, tstep in E1. rewrite Et, Ep, Ec in E1. destruct j; try exact Logic.I.
        - split.
          + intros t k En. rewrite En in E1. destruct (nth_error hs _); [|discriminate E1]. unfold do_recv in E1.
            destruct (op_recv O h s) as [[t' v|? ? ?] [|? ?] h' s2|s2| |]; try discriminate E1; try (injection E1 as <- <-; exact Logic.I).
            destruct (t' =? t); injection E1 as <- <-; [reflexivity|exact Logic.I].
          + intros b En. rewrite En, Nat.eqb_refl in E1. unfold label_of. destruct (nth_error hs _); [|discriminate E1]. unfold do_offer in E1.
            destruct (op_recv O h s) as [[t' v|b' l j] m h' s2|s2| |]; try discriminate E1; try (injection E1 as <- <-; exact Logic.I).
            destruct ((b' =? b) && (j =? p) && (l <? labels b)) eqn:Eb; injection E1 as <- <-; [|exact Logic.I].
            split; [reflexivity|]. apply andb_prop in Eb as [_ Eb]. now apply Nat.ltb_lt.
        - intros t k En. rewrite En in E1. destruct (nth_error hs _); [|discriminate E1]. unfold do_send in E1.
          destruct (op_send O h (VData t x0) [] k s) as [h' s2|h' lo s2| |]; try discriminate E1; injection E1 as <- <-; [reflexivity|exact Logic.I..]. }
      destruct r as [| |x r'|? ?|? ? ?|? ? ?]; try (destruct i; try discriminate; exact (CR E)).
      + (* close *)
        destruct i; try discriminate; [|exact (CR E)]. apply lift_some in E as [Em _]. unfold mesh, tstep in Em. rewrite Et, Ep in Em.
        destruct (forallb is_end ss); [|discriminate]. injection Em as Em _. unfold aligned. rewrite <- Em. exact Logic.I.
      + (* broadcast *)
        destruct i as [|v|l|]; try discriminate; [|exact (CR E)]. apply lift_some in E as (Em & _ & _ & _ & _ & Ew).
        unfold mesh, tstep in Em. rewrite Et, Ep in Em. destruct (choice_of p ss) as [b|] eqn:Eb; [|discriminate].
        destruct (Nat.ltb_spec l (labels b)); [|discriminate].
        destruct (make_choice O n branch p b l hs s) as [[pr s1]|] eqn:Ek; injection Em as Em _; unfold aligned; rewrite <- Em; cbn; [|exact Logic.I].
        unfold make_choice in Ek.
        destruct (alloc O _ s) as [pairs s2]. destruct (choose_sends n p); [|discriminate]. destruct (choose_own n p); [|discriminate].
        destruct (all_some _); [|discriminate]. destruct (pick_all _ _); [|discriminate]. injection Ek as <- _.
        split; [assumption|]. rewrite Ew. exact (choice_free _ _ _ _ _ _ Eb A).
      + destruct i as [|v|l|]; [| | |exact (CR E)]; (destruct (callable n p x) eqn:Ec; [|discriminate]).
        * destruct (nth_error ss (comm_field p x - 1)) as [[|q k|[t|b j] k]|] eqn:En; try discriminate.
          -- destruct q; discriminate.
          -- apply (timed_op_aligned _ _ _ _ _ _ _ _ _ E Et). intros th s1 E1.
             pose proof (proj1 (MP _ _ _ E1 x r' eq_refl Ec) t k En) as K. destruct (t_prog th); try exact Logic.I; [|contradiction].
             subst. apply (pop_covers _ _ _ _ (PVal t)); [exact A|now right].
          -- destruct k; try discriminate. destruct (Nat.eqb_spec j p) as [->|]; [|discriminate].
             apply (timed_op_aligned _ _ _ _ _ _ _ _ _ E Et). intros th s1 E1.
             pose proof (proj2 (MP _ _ _ E1 x r' eq_refl Ec) b En) as K. destruct (t_prog th); try exact Logic.I; [|contradiction].
             destruct K as [-> K]. apply HB; assumption.
        * destruct (nth_error ss (comm_field p x - 1)) as [[|[t|b j] k|[t|b j] k]|] eqn:En; try discriminate.
          -- apply (timed_op_aligned _ _ _ _ _ _ _ _ _ E Et). intros th s1 E1.
             pose proof (MP _ _ _ E1 x r' eq_refl Ec t k En) as K. cbn in K. destruct (t_prog th); try exact Logic.I; [|contradiction].
             subst. apply (pop_covers _ _ _ _ (PVal t)); [exact A|now left].
          -- destruct k; discriminate.
        * destruct (nth_error ss (comm_field p x - 1)) as [[|[t|b j] [|? ?|? ?]|[t|b j] [|? ?|? ?]]|]; discriminate.
    - destruct A as [Hl A]. destruct pend as [|[[x h] ms] pend].
      + destruct i; try discriminate; [|exact (CR E)].
        destruct (reset_all (now p) (tm_todo tt) (tm_clocks tt) (tm_next tt)) as [[o m'] k']. destruct o; try exact (CR E).
        destruct (mesh O n branch labels p ITau tt s) as [[th s1]|] eqn:Em; [|discriminate]. injection E as <- <-.
        unfold mesh, tstep in Em. rewrite Et, Ep in Em. injection Em as <- <-. unfold aligned. cbn. now apply HB.
      + destruct i; try discriminate; [|exact (CR E)].
        apply (timed_op_aligned _ _ _ _ _ _ _ _ _ E Et). intros th s1 Em. unfold mesh, tstep in Em. rewrite Et, Ep in Em.
        unfold do_choose_send in Em. destruct (op_send O h _ ms End s) as [h' s2|h' lo s2| |]; try discriminate Em; injection Em as <- <-; cbn; try exact Logic.I.
        split; [exact Hl|]. destruct (tm_wins tt); [constructor|]. inversion A; assumption.
    - destruct i; try discriminate; [|exact (CR E)]. apply lift_some in E as [Em _]. unfold mesh, tstep in Em. rewrite Et, Ep in Em.
      unfold do_close in Em. unfold aligned. destruct (nth_error hs a).
      + destruct (op_tell O h Stop s); try discriminate Em; injection Em as Em _; rewrite <- Em; exact Logic.I.
      + destruct (nth_error hs r); [|injection Em as Em _; rewrite <- Em; exact Logic.I].
        destruct (op_hear O h s) as [[|] ?| | |]; try discriminate Em; injection Em as Em _; rewrite <- Em; exact Logic.I.
    - destruct i; try discriminate. exact (CR E).
    - destruct i; try discriminate. exact (CR E).
  Qed.

  Lemma tsteps_aligned : forall st tr st', tsteps O n branch branchw labels now st tr st' ->
    (forall p, 1 <= p <= n -> aligned p (ts_thr st p)) -> forall p, 1 <= p <= n -> aligned p (ts_thr st' p).
  Proof.
    induction 1 as [st|st q i st1 tr st2 E Hs IH]; intros A; [exact A|].
    apply IH. intros p Hp. destruct (texec_inv O n branch branchw labels now q i st st1 E) as (Hq & tt & s & Et & ->). cbn.
    destruct (Nat.eqb_spec p q) as [->|]; [|auto]. eapply ttstep_aligned; [exact Hq| |exact Et]. auto.
  Qed.

  Lemma tinit_aligned : forall T W s, (forall p, 1 <= p <= n -> covered p 0 (fst (T p)) (W p)) ->
    forall p, 1 <= p <= n -> aligned p (ts_thr (tinit O n T W s) p).
  Proof.
    intros T W s HW p Hp. unfold tinit, init, aligned. destruct (alloc O _ s) as [pairs s1]. cbn.
    destruct (fork_mesh n p); [|exact Logic.I]. destruct (pick_all pairs l); [|exact Logic.I]. cbn. apply HW, Hp.
  Qed.
End Windows.
