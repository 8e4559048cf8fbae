(** C25: [select_mut] and [select]. *)
From Coq Require Import List Arith Bool Lia Permutation.
From Verif Require Import Session Select.
Import ListNotations.

Lemma swap_remove_perm : forall A (l : list A) i c, nth_error l i = Some c -> Permutation l (c :: swap_remove i l).
Proof.
  intros A l i c H. unfold swap_remove. destruct (rev l) as [|x front] eqn:E.
  - apply (f_equal (@rev A)) in E. rewrite rev_involutive in E. subst. destruct i; discriminate.
  - apply (f_equal (@rev A)) in E. rewrite rev_involutive in E. cbn in E. rewrite E in *. clear E l.
    set (init := rev front) in *. clearbody init. clear front.
    destruct (Nat.eqb_spec i (length init)) as [->|Hne].
    + rewrite nth_error_app2 in H by lia. rewrite Nat.sub_diag in H. injection H as ->.
      apply Permutation_sym, Permutation_cons_append.
    + assert (Hi : i < length init).
      { pose proof (proj1 (nth_error_Some (init ++ [x]) i) ltac:(congruence)) as Hl. rewrite app_length in Hl. cbn in Hl. lia. }
      rewrite nth_error_app1 in H by exact Hi.
      destruct (nth_error_split init i H) as (a & b & -> & <-).
      replace (skipn (S (length a)) (a ++ c :: b)) with b.
      * rewrite firstn_app, Nat.sub_diag, firstn_all. cbn [firstn]. rewrite app_nil_r.
        rewrite <- app_assoc. cbn. apply Permutation_sym. etransitivity; [apply Permutation_middle|].
        apply Permutation_app_head, perm_skip. apply (Permutation_app_comm [x] b).
      * symmetry. rewrite skipn_app. replace (S (length a) - length a) with 1 by lia.
        rewrite skipn_all2 by lia. reflexivity.
Qed.

Section Select.
  Variable rs : list nat.
  Hypothesis linear : NoDup rs.

  (** Every [Recv] of the vector has its own channel; a message that waits in the channel of a receiver
      stays until it is taken. *)
  Lemma reaches : forall h0 p h, runs rs h0 p h ->
    match p with
    | Waiting => rs <> [] /\ forall c m, In c rs -> buf (cells h0 c) = Some m -> buf (cells h c) = Some m
    | Trying i => exists c, nth_error rs i = Some c /\ ready h c = true /\
        forall c m, In c rs -> buf (cells h0 c) = Some m -> buf (cells h c) = Some m
    | Done EmptyVec l => rs = [] /\ l = []
    | Done o l => exists i c h1, nth_error rs i = Some c /\ l = swap_remove i rs /\ runs rs h0 (Trying i) h1 /\
        match o with
        | Message m => buf (cells h1 c) = Some m
        | Gone => buf (cells h1 c) = None /\ tx (cells h1 c) = false
        | EmptyVec => False
        end /\
        (forall m, buf (cells h0 c) = Some m -> o = Message m) /\
        forall d m, In d l -> buf (cells h1 d) = Some m -> buf (cells h d) = Some m
    end.
  Proof.
    intros h0 p h H. induction H as [|p h h' H IH E|p h i p' h' H IH E].
    - unfold begin. destruct rs; [auto|]. split; [discriminate|auto].
    - destruct p as [|i|o l].
      + destruct IH as [IH1 IH2]. split; [exact IH1|]. intros c m Hc Hb. specialize (IH2 c m Hc Hb).
        destruct (E c Hc) as (_ & E1 & _). rewrite IH2 in E1. exact E1.
      + destruct IH as (c & IH1 & IH2 & IH3). exists c. split; [exact IH1|]. split.
        * destruct (E c (nth_error_In _ _ IH1)) as (_ & E1 & E2). unfold ready in *.
          destruct (buf (cells h c)) as [m|]; [rewrite E1; reflexivity|].
          destruct (buf (cells h' c)); [reflexivity|]. apply negb_true_iff in IH2. rewrite (E2 IH2). reflexivity.
        * intros d m Hd Hb. specialize (IH3 d m Hd Hb). destruct (E d Hd) as (_ & E1 & _). rewrite IH3 in E1. exact E1.
      + destruct o as [m| |]; [| |exact IH];
          destruct IH as (i & c & h1 & IH1 & IH2 & IH3 & IH4 & IH5 & IH7);
          exists i, c, h1; repeat (split; [assumption|]); intros d m' Hd Hb; specialize (IH7 d m' Hd Hb);
          assert (Hd' : In d rs) by (eapply Permutation_in; [apply Permutation_sym, swap_remove_perm, IH1|]; right; rewrite <- IH2; exact Hd);
          destruct (E d Hd') as (_ & E1 & _); rewrite IH7 in E1; exact E1.
    - destruct p as [|j|o l]; cbn in E; [| |discriminate].
      + destruct (nth_error rs i) as [c|] eqn:Ec; [|discriminate]. destruct (ready h c) eqn:Er; [|discriminate].
        injection E as <- <-. exists c. destruct IH as [_ IH]. auto.
      + destruct IH as (c & Ec & Hr & IH). rewrite Ec in E. unfold try_recv in E. unfold ready in Hr.
        assert (Hl : forall d, In d (swap_remove j rs) -> In d rs /\ d <> c).
        { intros d Hd. pose proof (swap_remove_perm _ _ _ _ Ec) as P. split.
          - eapply Permutation_in; [apply Permutation_sym, P|]. right; exact Hd.
          - intros ->. pose proof (Permutation_NoDup P linear) as N. inversion N; contradiction. }
        destruct (buf (cells h c)) as [m|] eqn:Eb.
        * injection E as <- <-. exists j, c, h. split; [exact Ec|]. split; [reflexivity|]. split; [exact H|].
          split; [exact Eb|]. split.
          { intros m' Hm. apply IH in Hm; [congruence|]. eapply nth_error_In; eauto. }
          intros d m' Hd Hb. destruct (Hl d Hd) as [_ Hne]. unfold drop_rx. cbn.
          destruct (Nat.eqb_spec d c); [contradiction|]. exact Hb.
        * destruct (tx (cells h c)) eqn:Et; [discriminate|]. injection E as <- <-. exists j, c, h.
          split; [exact Ec|]. split; [reflexivity|]. split; [exact H|]. split; [auto|]. split.
          { intros m' Hm. apply IH in Hm; [congruence|]. eapply nth_error_In; eauto. }
          intros d m' Hd Hb. destruct (Hl d Hd) as [_ Hne]. unfold drop_rx. cbn.
          destruct (Nat.eqb_spec d c); [contradiction|]. exact Hb.
  Qed.
End Select.

(** For every vector of receivers, every readiness pattern, every behaviour of the other threads and every
    index [ready] may answer: when the call returns, it has removed exactly one receiver, returned the
    message that receiver held (or the disconnection, when it held none and its sender was gone), and every
    message held by one of the others is still there. The empty vector gives the error EmptyVec. *)
Theorem select_returns : forall rs h0 o left h,
  NoDup rs -> runs rs h0 (Done o left) h ->
  (rs = [] <-> o = EmptyVec) /\
  (rs <> [] -> exists c h1,
     Permutation rs (c :: left) /\
     (match o with
      | Message m => buf (cells h1 c) = Some m
      | Gone => buf (cells h1 c) = None /\ tx (cells h1 c) = false
      | EmptyVec => False
      end) /\
     (exists i, runs rs h0 (Trying i) h1 /\ nth_error rs i = Some c) /\
     (forall m, buf (cells h0 c) = Some m -> o = Message m) /\
     forall d m, In d left -> buf (cells h0 d) = Some m \/ buf (cells h1 d) = Some m -> buf (cells h d) = Some m).
Proof.
  intros rs h0 o left h N H. pose proof (reaches rs N h0 _ h H) as R. cbn in R.
  destruct o as [m| |].
  3: { destruct R as [-> ->]. split; [tauto|]. intros; contradiction. }
  all: destruct R as (i & c & h1 & R1 & -> & R3 & R4 & R5 & R7); split.
  1, 3: split; [intros ->; destruct i; discriminate|discriminate].
  all: intros _; exists c, h1; split; [apply swap_remove_perm; exact R1|]; split; [exact R4|];
    split; [exists i; auto|]; split; [exact R5|]; intros d m' Hd [Hb|Hb]; [|auto];
    apply R7; [exact Hd|]; destruct (reaches rs N h0 _ h1 R3) as (c' & _ & _ & Hk);
    apply Hk; [|exact Hb]; eapply Permutation_in; [apply Permutation_sym, swap_remove_perm, R1|]; right; exact Hd.
Qed.
Print Assumptions select_returns.

(** The call never blocks when a receiver is ready, does nothing while none is, and never goes back to
    wait once [ready] has answered: two steps of its own suffice, whatever other threads do in between. *)
Theorem select_never_blocks_when_ready : forall rs h0 p h,
  NoDup rs -> runs rs h0 p h ->
  (p = Waiting -> (exists c, In c rs /\ ready h c = true) -> exists i, sel_step rs i p h = Some (Trying i, h)) /\
  (p = Waiting -> (forall c, In c rs -> ready h c = false) -> forall i, sel_step rs i p h = None) /\
  (forall j, p = Trying j -> forall i, exists o left h', sel_step rs i p h = Some (Done o left, h') /\ o <> EmptyVec).
Proof.
  intros rs h0 p h N H. split; [|split].
  - intros -> (c & Hc & Hr). destruct (In_nth_error _ _ Hc) as [i Ei]. exists i. cbn. rewrite Ei, Hr. reflexivity.
  - intros -> Hn i. cbn. destruct (nth_error rs i) as [c|] eqn:E; [|reflexivity].
    rewrite (Hn c (nth_error_In _ _ E)). reflexivity.
  - intros j -> i. destruct (reaches rs N h0 _ h H) as (c & Ec & Hr & _). cbn. rewrite Ec. unfold try_recv, ready in *.
    destruct (buf (cells h c)) as [m|].
    + eexists _, _, _. split; [reflexivity|discriminate].
    + apply negb_true_iff in Hr. rewrite Hr. eexists _, _, _. split; [reflexivity|discriminate].
Qed.
Print Assumptions select_never_blocks_when_ready.

(** Three receivers on channels 0, 1, 2: the second holds a message, the third's sender is gone. *)
Definition one : msg := Msg (VData 1 42) [] (EEnd 8 9).
Definition three_heap : heap :=
  Heap (fun c => match c with 0 => Cell None true true | 1 => Cell (Some one) false true | _ => Cell None false true end) 3.
Example select_message : exists h, runs [0; 1; 2] three_heap (Done (Message one) [0; 2]) h.
Proof. eexists. eapply (RunStep _ _ (Trying 1) _ 0); [eapply (RunStep _ _ Waiting _ 1); [apply RunStart|reflexivity]|reflexivity]. Qed.
Example select_gone : exists h, runs [0; 1; 2] three_heap (Done Gone [0; 1]) h.
Proof. eexists. eapply (RunStep _ _ (Trying 2) _ 0); [eapply (RunStep _ _ Waiting _ 2); [apply RunStart|reflexivity]|reflexivity]. Qed.
(** The first receiver is taken after its sender sent meanwhile; the last takes its place. *)
Example select_later : exists h, runs [0; 1; 2] three_heap (Done (Message (Sig Stop)) [2; 1]) h.
Proof.
  eexists. eapply (RunStep _ _ (Trying 0) _ 0); [eapply (RunStep _ _ Waiting (set_cell three_heap 0 (Cell (Some (Sig Stop)) false true)) 0)|].
  - eapply RunEnv; [apply RunStart|]. intros c [<-|[<-|[<-|[]]]]; repeat split; cbn; auto.
  - reflexivity.
  - reflexivity.
Qed.
