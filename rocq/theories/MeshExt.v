(** The machine of Mesh.v only looks at the types of the roles 1..n and of the labels that exist:
    systems whose types agree there have the same executions. *)
From Coq Require Import List Arith Bool Lia.
From Verif Require Import Types Diag DiagProofs Wiring WiringProofs Session Mesh MeshWire.
Import ListNotations.

Section Ext.
  Context {S H : Type}.
  Variable O : ops S H.
  Variable n : nat.
  Variables B B' : nat -> nat -> nat -> mty.
  Variable labels : nat -> nat.
  Variable strict : bool.
  Hypothesis HB : forall b l p, l < labels b -> 1 <= p <= n -> B b l p = B' b l p.

  Definition same_on (T T' : nat -> mty) : Prop := forall p, 1 <= p <= n -> T p = T' p.

  Lemma pair_types_ext : forall vars T T', 
    (forall p q, 1 <= p -> p < q -> q <= n -> vars (idx n p q) = Some ((p, q), (q, p))) ->
    same_on T T' -> pair_types n vars T = pair_types n vars T'.
  Proof.
    intros vars T T' Hv HT. unfold pair_types. apply map_ext_in. intros k Hk. apply in_seq in Hk.
    rewrite npairs_tri in Hk. destruct (idx_surj n k) as (p & q & H1 & H2 & H3 & E); [lia|].
    rewrite <- E, Hv by assumption. rewrite HT by lia. reflexivity.
  Qed.

  (** Whoever is inside a choice has chosen a label that exists. *)
  Definition chosen_ok (th : @thread H) : Prop :=
    match t_prog th with PChoose b l _ _ => l < labels b | _ => True end.

  Lemma make_choice_ext : forall p b l hs s, l < labels b ->
    make_choice O n B p b l hs s = make_choice O n B' p b l hs s.
  Proof.
    intros p b l hs s Hl. unfold make_choice.
    rewrite (pair_types_ext (choose_vars n) (B b l) (B' b l)); [reflexivity|apply choose_vars_spec|].
    intros q Hq. apply HB; assumption.
  Qed.
  Lemma make_choice_prog : forall p b l hs s pr s1, make_choice O n B' p b l hs s = Some (pr, s1) ->
    exists pend own, pr = PChoose b l pend own.
  Proof.
    intros p b l hs s pr s1 E. unfold make_choice in E.
    destruct (alloc O (pair_types n (choose_vars n) (B' b l)) s) as [pairs s2].
    destruct (choose_sends n p); [|discriminate]. destruct (choose_own n p); [|discriminate].
    destruct (all_some _); [|discriminate]. destruct (pick_all _ _); [|discriminate].
    injection E as <- _. eauto.
  Qed.

  Lemma tstep_ext : forall p i th s, 1 <= p <= n -> chosen_ok th ->
    tstep O n B labels strict p i th s = tstep O n B' labels strict p i th s.
  Proof.
    intros p i [pr trash rd lg] s Hp C. unfold tstep. cbn [t_trash t_prog]. destruct trash; [|reflexivity].
    destruct pr as [ss r hs|b l pend own|a r hs|res|hs]; try reflexivity.
    - destruct i; try reflexivity.
      + destruct r; try reflexivity. destruct (callable n p x); [|reflexivity].
        destruct (nth_error ss (comm_field p x - 1)) as [[|? ?|[t|b j] k]|]; try reflexivity.
        destruct k; try reflexivity. destruct (nth_error hs _); [|reflexivity]. destruct (j =? p); [|reflexivity].
        unfold do_offer. destruct (op_recv O h s); try reflexivity. destruct v; try reflexivity.
        destruct ((b0 =? b) && (j0 =? p) && (l <? labels b)) eqn:E; [|reflexivity].
        apply andb_prop in E as [_ E]. apply Nat.ltb_lt in E. rewrite HB by assumption. reflexivity.
      + destruct r; try reflexivity. destruct (choice_of p ss); [|reflexivity].
        destruct (l <? labels n0) eqn:E; [|reflexivity]. apply Nat.ltb_lt in E.
        rewrite make_choice_ext by assumption. reflexivity.
    - destruct i; try reflexivity. destruct pend as [|[[x h] m] pend]; [|reflexivity].
      cbn in C. rewrite HB by assumption. reflexivity.
  Qed.

  Lemma tstep_chosen : forall p i th s th' s', chosen_ok th ->
    tstep O n B' labels strict p i th s = Some (th', s') -> chosen_ok th'.
  Proof.
    intros p i [pr trash rd lg] s th' s' C E. unfold tstep in E. cbn [t_trash t_prog t_round t_log] in E.
    destruct trash.
    2:{ destruct i; try discriminate. destruct (op_drop O h s). injection E as <- _. exact C. }
    destruct pr as [ss r hs|b l pend own|a r hs|res|hs]; try discriminate.
    - destruct i.
      + destruct r; try discriminate.
        * destruct (forallb is_end ss); [|discriminate]. injection E as <- _. exact Logic.I.
        * destruct (callable n p x); [|discriminate].
          destruct (nth_error ss (comm_field p x - 1)) as [[|? ?|[t|b j] k]|]; try discriminate;
            destruct (nth_error hs _); try discriminate.
          -- unfold do_recv in E. destruct (op_recv O h s) as [v m h1 s1|s1| |]; try discriminate;
               [destruct v; [destruct m; [destruct (t0 =? t)|]|]| |]; injection E as <- _; exact Logic.I.
          -- destruct k; try discriminate. destruct (j =? p); [|discriminate].
             unfold do_offer in E. destruct (op_recv O h s) as [v m h1 s1|s1| |]; try discriminate;
               [destruct v; [|destruct ((b0 =? b) && (j0 =? p) && (l <? labels b))]| |]; injection E as <- _; exact Logic.I.
          -- destruct k; discriminate.
      + destruct r; try discriminate. destruct (callable n p x0); [|discriminate].
        destruct (nth_error ss (comm_field p x0 - 1)) as [[|[t|? ?] k|? ?]|]; try discriminate.
        destruct (nth_error hs _); try discriminate. unfold do_send in E.
        destruct (op_send O h (VData t x) [] k s); try discriminate; [|destruct strict|]; injection E as <- _; exact Logic.I.
      + destruct r; try discriminate. destruct (choice_of p ss) as [b|]; [|discriminate].
        destruct (l <? labels b) eqn:El; [|discriminate]. apply Nat.ltb_lt in El.
        destruct (make_choice O n B' p b l hs s) as [[pr s1]|] eqn:Em; injection E as <- _; [|exact Logic.I].
        destruct (make_choice_prog _ _ _ _ _ _ _ Em) as (pend & own & ->). exact El.
      + injection E as <- _. exact Logic.I.
    - cbn in C. destruct i; try (destruct pend; discriminate).
      + destruct pend as [|[[x h] m] pend]; [injection E as <- _; exact Logic.I|].
        unfold do_choose_send in E. destruct (op_send O h (VLabel b l x) m End s); try discriminate;
          [|destruct strict|]; injection E as <- _; first [exact C|exact Logic.I].
      + injection E as <- _. exact Logic.I.
    - destruct i; try discriminate; [|injection E as <- _; exact Logic.I].
      unfold do_close in E. destruct (nth_error hs a).
      + destruct (op_tell O h Stop s); try discriminate; injection E as <- _; exact Logic.I.
      + destruct (nth_error hs r); [|injection E as <- _; exact Logic.I].
        destruct (op_hear O h s); try discriminate; [destruct g| |]; injection E as <- _; exact Logic.I.
  Qed.

  (** States that agree on the roles. *)
  Definition same (st st' : @state S H) : Prop :=
    st_store st = st_store st' /\ forall p, 1 <= p <= n -> st_thr st p = st_thr st' p.
  Definition all_chosen_ok (st : @state S H) : Prop := forall p, 1 <= p <= n -> chosen_ok (st_thr st p).

  Lemma same_init : forall T T' s, same_on T T' -> same (init O n T s) (init O n T' s).
  Proof.
    intros T T' s HT. unfold init. rewrite (pair_types_ext (fork_vars n) T T' (fork_vars_spec n) HT).
    destruct (alloc O (pair_types n (fork_vars n) T') s) as [pairs s1]. split; [reflexivity|].
    intros p Hp. cbn. rewrite HT by assumption. reflexivity.
  Qed.
  Lemma init_chosen : forall T s, all_chosen_ok (init O n T s).
  Proof.
    intros T s p Hp. unfold init. destruct (alloc O (pair_types n (fork_vars n) T) s) as [pairs s1]. cbn.
    destruct (fork_mesh n p); [destruct (pick_all pairs l)|]; exact Logic.I.
  Qed.

  Lemma exec_same : forall p i st st' st1, same st st' -> all_chosen_ok st ->
    exec O n B labels strict p i st = Some st1 ->
    exists st1', exec O n B' labels strict p i st' = Some st1' /\ same st1 st1' /\ all_chosen_ok st1.
  Proof.
    intros p i st st' st1 [Es Et] C E. unfold exec in *. destruct ((1 <=? p) && (p <=? n)) eqn:Ep; [|discriminate].
    apply andb_prop in Ep as [E1 E2]. apply Nat.leb_le in E1, E2. assert (1 <= p <= n) as Hp by lia.
    rewrite (tstep_ext p i _ _ Hp (C p Hp)) in E. rewrite Es, (Et p Hp) in E.
    destruct (tstep O n B' labels strict p i (st_thr st' p) (st_store st')) as [[th s1]|] eqn:Eth; [|discriminate].
    injection E as <-. eexists. split; [reflexivity|]. split.
    - split; [reflexivity|]. intros q Hq. cbn. unfold set_thr. destruct (q =? p); auto.
    - intros q Hq. cbn. unfold set_thr. destruct (q =? p); auto.
      eapply tstep_chosen; [|exact Eth]. rewrite <- (Et p Hp). auto.
  Qed.

  Lemma steps_same : forall st tr st1, steps O n B labels strict st tr st1 ->
    forall st', same st st' -> all_chosen_ok st ->
    exists st1', steps O n B' labels strict st' tr st1' /\ same st1 st1' /\ all_chosen_ok st1.
  Proof.
    induction 1 as [st|st p i st2 tr st1 E H' IH]; intros st' Hs C.
    - exists st'. split; [constructor|auto].
    - destruct (exec_same p i st st' st2 Hs C E) as (st2' & E' & Hs' & C').
      destruct (IH st2' Hs' C') as (st1' & R & R1 & R2). exists st1'. split; [econstructor; eauto|auto].
  Qed.
End Ext.
