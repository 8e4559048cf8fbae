(** C69: the hand-written library for the roles A, B, C runs as the generated one does. Theorems about the concrete machine
    of Session.v, BinMesh.v and ThreeMesh.v. Each role uses one of the three families of Three.v, not necessarily the same
    one; [any]: the offers are the functions, which take any other session. *)
From Coq Require Import List Arith Bool Lia.
From Verif Require Import Types Wiring WiringProofs Session Mesh MeshSpec Global OrderSpec Properties_Mesh Properties_Global Properties_Order
  MeshGlobal Three BinMesh BinSpec BinSim BinReach BinProps ThreeMesh BinThree Properties_Bin.
Import ListNotations.

(** Role p makes its choices with the code of the family [fams p]. *)
Definition tmakes (branch : nat -> nat -> nat -> mty) (fams : nat -> family) (p : nat) := tmake heap_ops branch (fams p) p.
(** An execution from [fork_mpst] on, and a step of it. *)
Definition trun_to branch labels fams any (T : nat -> mty) (tr : list (nat * inp)) (st : @bstate heap ep) : Prop :=
  mrun_to 3 branch labels (tmakes branch fams) any T tr st.
Definition tnext branch labels fams any (p : nat) (i : inp) (st : @bstate heap ep) :=
  mnext 3 branch labels (tmakes branch fams) any p i st.

Lemma fams_make : forall branch labels fams, (forall b l, l < labels b -> dual_mesh 3 (branch b l)) -> makes 3 branch labels (tmakes branch fams).
Proof.
  intros branch labels fams HB. split.
  - intros p. exact (proj1 (three_makes branch labels (fams p) HB) p).
  - intros p. exact (proj2 (three_makes branch labels (fams p) HB) p).
Qed.

(** Every execution of hand-written roles does what one of roles with enums does: the same actions of every role
    in the same order, the same results, and nobody crashes who does not crash in the first. *)
Theorem three_is_enum : forall branch labels fams any T tr st,
  (forall b l, l < labels b -> dual_mesh 3 (branch b l)) -> trun_to branch labels fams any T tr st ->
  exists tr' sl, steps heap_ops 3 (enum_branch branch) labels false (start 3 (enum_mesh T)) tr' sl /\
    (forall p, 1 <= p <= 3 -> t_log (st_thr sl p) = blog st p /\ t_round (st_thr sl p) = bround st p /\ result_of sl p = bresult st p) /\
    (forall p, In (p, ICrash) tr' -> In (p, ICrash) tr) /\ length tr <= length tr'.
Proof.
  intros branch labels fams any T tr st HB H. exact (made_is_enum 3 branch labels (tmakes branch fams) any T tr st (fams_make branch labels fams HB) H).
Qed.
Print Assumptions three_is_enum.

(** ** Safety *)

(** For pairwise dual types at the start and on both sides of every choice, any schedule, any
    values, sides and crashes: one list of choices explains everything all roles did, nobody meets a message of the wrong
    type or the wrong side, and the type of what a role holds is what remains of its declared type. *)
Theorem three_safe : forall branch labels fams any T tr st,
  (forall b l, l < labels b -> dual_mesh 3 (branch b l)) -> dual_mesh 3 T -> trun_to branch labels fams any T tr st ->
  exists hist,
    faithful 3 branch labels T hist (blog st) /\
    (forall p, 1 <= p <= 3 -> bround st p <= length hist) /\
    (forall p hs, 1 <= p <= 3 -> bprog st p <> PStuck hs) /\
    (forall p ss r hs q, 1 <= p <= 3 -> 1 <= q <= 3 -> p <> q -> bprog st p = PRun ss r hs ->
       after labels (sess (round_types branch T hist (bround st p)) p q) (evs (bround st p) q (blog st p)) =
       nth_error ss (field_pos p q)).
Proof.
  intros branch labels fams any T tr st HB HT H. exact (made_safe 3 branch labels (tmakes branch fams) any T tr st (fams_make branch labels fams HB) HB HT H).
Qed.
Print Assumptions three_safe.

(** Two roles never take different sides. *)
Theorem three_same_side : forall branch labels fams any T tr st,
  (forall b l, l < labels b -> dual_mesh 3 (branch b l)) -> dual_mesh 3 T -> trun_to branch labels fams any T tr st ->
  forall p q g c b l j c' b' l' j', 1 <= p <= 3 -> 1 <= q <= 3 ->
    In (EvRecv g c (VLabel b l j)) (blog st p) -> In (EvRecv g c' (VLabel b' l' j')) (blog st q) -> c = c' /\ b = b' /\ l = l'.
Proof.
  intros branch labels fams any T tr st HB HT H. exact (made_same_side 3 branch labels (tmakes branch fams) any T tr st (fams_make branch labels fams HB) HB HT H).
Qed.
Print Assumptions three_same_side.

(** Whose close returned Ok knows that every role has called close. *)
Theorem three_close_ok : forall branch labels fams any T tr st,
  (forall b l, l < labels b -> dual_mesh 3 (branch b l)) -> dual_mesh 3 T -> trun_to branch labels fams any T tr st ->
  forall p q, 1 <= p <= 3 -> 1 <= q <= 3 -> bresult st p = Some ROk -> In EvClose (blog st q).
Proof.
  intros branch labels fams any T tr st HB HT H. exact (made_close_ok 3 branch labels (tmakes branch fams) any T tr st (fams_make branch labels fams HB) HB HT H).
Qed.
Print Assumptions three_close_ok.

(** ** Progress *)

(** Hand-written types whose actions can be put in an order (see C56) never deadlock, whoever crashes. *)
Theorem three_progress : forall branch labels fams any T tr st,
  dual_types 3 branch labels T -> all_usable 3 branch labels T ->
  all_ordered 3 (enum_branch branch) labels (enum_mesh T) -> trun_to branch labels fams any T tr st ->
  b_over 3 st \/ exists p i st', 1 <= p <= 3 /\ i <> ICrash /\ tnext branch labels fams any p i st = Some st'.
Proof.
  intros branch labels fams any T tr st HT HU HO H. exact (made_progress 3 branch labels (tmakes branch fams) any T tr st (fams_make branch labels fams (proj2 HT)) HT HU HO H).
Qed.
Print Assumptions three_progress.

(** ** Roles that follow one global protocol *)

Theorem three_global_progress : forall labels P branch fams any T tr st,
  wf_protocol 3 labels P -> projected 3 labels P branch T -> all_usable 3 branch labels T -> trun_to branch labels fams any T tr st ->
  b_over 3 st \/ exists p i st', 1 <= p <= 3 /\ i <> ICrash /\ tnext branch labels fams any p i st = Some st'.
Proof.
  intros labels P branch fams any T tr st W HP U H. exact (made_global_progress 3 labels P branch (tmakes branch fams) any T tr st (fams_make branch labels fams (proj2 (projected_dual 3 labels P branch T HP))) W HP U H).
Qed.
Print Assumptions three_global_progress.

(** Every execution of a finite protocol is finite, with the bound of C16; one that cannot be continued has ended every
    thread. Any crashes. *)
Theorem three_terminates : forall labels P size branch fams any T tr st,
  wf_protocol 3 labels P -> finite_protocol 3 labels P size -> projected 3 labels P branch T -> all_usable 3 branch labels T ->
  trun_to branch labels fams any T tr st ->
  length tr <= longest 3 size P /\ ((forall p i, i <> ICrash -> tnext branch labels fams any p i st = None) -> b_over 3 st).
Proof.
  intros labels P size branch fams any T tr st W FN HP U H.
  exact (made_terminates 3 labels P size branch (tmakes branch fams) any T tr st (fams_make branch labels fams (proj2 (projected_dual 3 labels P branch T HP))) W FN HP U H).
Qed.
Print Assumptions three_terminates.

(** If nobody crashes no operation fails, and when nothing more can happen every role has returned Ok from close and has
    received everything that was sent to it. *)
Theorem three_all_ok : forall labels P branch fams any T tr st,
  wf_protocol 3 labels P -> projected 3 labels P branch T -> all_usable 3 branch labels T -> trun_to branch labels fams any T tr st ->
  crash_free tr ->
  (forall p r, 1 <= p <= 3 -> bresult st p = Some r -> r = ROk) /\
  ((forall p i, i <> ICrash -> tnext branch labels fams any p i st = None) ->
   (forall p, 1 <= p <= 3 -> bresult st p = Some ROk) /\
   forall g p q, 1 <= p <= 3 -> 1 <= q <= 3 -> p <> q -> ins (evs g q (blog st p)) = outs (evs g p (blog st q))).
Proof.
  intros labels P branch fams any T tr st W HP U H NC.
  exact (made_all_ok 3 labels P branch (tmakes branch fams) any T tr st (fams_make branch labels fams (proj2 (projected_dual 3 labels P branch T HP))) W HP U H NC).
Qed.
Print Assumptions three_all_ok.

(** ** Examples *)

Fixpoint tgo branch labels fams any (st : @bstate heap ep) (tr : list (nat * inp)) : option (@bstate heap ep) :=
  match tr with
  | [] => Some st
  | (p, i) :: tr' => match tnext branch labels fams any p i st with Some st1 => tgo branch labels fams any st1 tr' | None => None end
  end.
Lemma tgo_run : forall A branch labels fams any T tr (f : @bstate heap ep -> A) a,
  option_map f (tgo branch labels fams any (binit heap_ops 3 T empty_heap) tr) = Some a ->
  exists st, trun_to branch labels fams any T tr st /\ f st = a.
Proof.
  intros A branch labels fams any T tr f a H.
  assert (G : forall tr st st', tgo branch labels fams any st tr = Some st' -> bsteps heap_ops 3 branch labels false (tmakes branch fams) any st tr st').
  { clear. induction tr as [|[p i] tr IH]; intros st st' Hr; cbn in Hr; [injection Hr as <-; constructor|].
    unfold tnext, mnext in Hr. destruct (bexec heap_ops 3 branch labels false _ _ p i st) as [st1|] eqn:E; [|discriminate]. econstructor; eauto. }
  destruct (tgo branch labels fams any _ tr) as [st|] eqn:E; [|discriminate].
  injection H as <-. exists st. split; [apply G; exact E|reflexivity].
Qed.

(** The types of tests/baking_mod/simple_baking/a_usecase.rs:34-87: the client A asks B, and chooses between "video"
    (left) and "close" (right). *)
Definition a_first : nat -> mty := fun p =>
  match p with
  | 1 => ([Snd num (Rcv num (Snd (PChoice 0 2) End)); Snd (PChoice 0 3) End],
          SRole 2 (SRole 2 (SToAll 1 (SRole 2 (SRole 2 SEnd)) SEnd)))
  | 2 => ([Rcv num (Snd num (Rcv (PChoice 0 2) End)); End], SRole 1 (SRole 1 (SAllTo 1 SEnd SEnd)))
  | _ => ([Rcv (PChoice 0 3) End; End], SAllTo 1 SEnd SEnd)
  end.
Definition a_video : nat -> mty := fun p =>
  match p with
  | 1 => ([Snd num (Rcv num End); End], SRole 2 (SRole 2 SEnd))
  | 2 => ([Rcv num (Snd num End); Snd num (Rcv num End)], SRole 1 (SRole 3 (SRole 3 (SRole 1 SEnd))))
  | _ => ([End; Rcv num (Snd num End)], SRole 2 (SRole 2 SEnd))
  end.
Definition a_branch (b l : nat) : nat -> mty := match l with 0 => a_video | _ => bye end.
Definition a_protocol : protocol :=
  Protocol ([Msg3 1 2 0; Msg3 2 1 0], GChoose 1 0)
           (fun b l => match l with 0 => ([Msg3 1 2 0; Msg3 2 3 0; Msg3 3 2 0; Msg3 2 1 0], GEnd) | _ => ([], GEnd) end).
Example a_wf : wf_protocol 3 two a_protocol.
Proof.
  split; [lia|]. split; [split; [repeat constructor; cbn; lia|cbn; unfold two; lia]|].
  intros b [|l] H; (split; [|exact I]); repeat constructor; cbn; lia.
Qed.
Example a_finite : finite_protocol 3 two a_protocol (fun _ => 10).
Proof. intros b [|l] H; cbn; lia. Qed.
Example a_projected : projected 3 two a_protocol a_branch a_first.
Proof. split; [intros p Hp; three; reflexivity|]. intros b [|l] p _ Hp; three; reflexivity. Qed.
Example a_usable : all_usable 3 a_branch two a_first.
Proof. split; [intros p Hp; three; used|]. intros b [|l] _ p Hp; three; used. Qed.
Example a_dual : dual_types 3 a_branch two a_first.
Proof. destruct (projected_dual 3 two a_protocol a_branch a_first a_projected). split; assumption. Qed.
Example a_ordered : all_ordered 3 (enum_branch a_branch) two (enum_mesh a_first).
Proof. apply (check_all_ordered 3 _ two [0]). vm_compute. reflexivity. Qed.

(** The types of tests/basics_mod/simple_basics/b_usecase.rs:52-106: the client B asks C. *)
Definition b_first : nat -> mty := fun p =>
  match p with
  | 1 => ([Rcv (PChoice 0 1) End; End], SAllTo 2 SEnd SEnd)
  | 2 => ([Snd (PChoice 0 1) End; Snd num (Rcv num (Snd (PChoice 0 3) End))],
          SRole 3 (SRole 3 (SToAll 2 (SRole 3 (SRole 3 SEnd)) SEnd)))
  | _ => ([End; Rcv num (Snd num (Rcv (PChoice 0 3) End))], SRole 2 (SRole 2 (SAllTo 2 SEnd SEnd)))
  end.
Definition b_video : nat -> mty := fun p =>
  match p with
  | 1 => ([End; Rcv num (Snd num End)], SRole 3 (SRole 3 SEnd))
  | 2 => ([End; Snd num (Rcv num End)], SRole 3 (SRole 3 SEnd))
  | _ => ([Snd num (Rcv num End); Rcv num (Snd num End)], SRole 2 (SRole 1 (SRole 1 (SRole 2 SEnd))))
  end.
Definition b_branch (b l : nat) : nat -> mty := match l with 0 => b_video | _ => bye end.
Definition b_protocol : protocol :=
  Protocol ([Msg3 2 3 0; Msg3 3 2 0], GChoose 2 0)
           (fun b l => match l with 0 => ([Msg3 2 3 0; Msg3 3 1 0; Msg3 1 3 0; Msg3 3 2 0], GEnd) | _ => ([], GEnd) end).
Example b_wf : wf_protocol 3 two b_protocol.
Proof.
  split; [lia|]. split; [split; [repeat constructor; cbn; lia|cbn; unfold two; lia]|].
  intros b [|l] H; (split; [|exact I]); repeat constructor; cbn; lia.
Qed.
Example b_projected : projected 3 two b_protocol b_branch b_first.
Proof. split; [intros p Hp; three; reflexivity|]. intros b [|l] p _ Hp; three; reflexivity. Qed.
Example b_usable : all_usable 3 b_branch two b_first.
Proof. split; [intros p Hp; three; used|]. intros b [|l] _ p Hp; three; used. Qed.

(** The families that the three roles use. *)
Definition all3 (f1 f2 f3 : family) (p : nat) : family := match p with 1 => f1 | 2 => f2 | _ => f3 end.

(** "video", whatever the code of the chooser. *)
Definition a_run : list (nat * inp) :=
  [(1, IVal 5)] ++ tau 2 1 ++ [(2, IVal 6)] ++ tau 1 1 ++ [(1, ILabel 0)] ++ tau 1 7 ++ tau 2 5 ++ tau 3 5 ++ [(1, IVal 6)] ++ tau 2 1 ++
  [(2, IVal 7)] ++ tau 3 1 ++ [(3, IVal 8)] ++ tau 2 1 ++ [(2, IVal 9)] ++ tau 1 4 ++ tau 2 4 ++ tau 3 10 ++ tau 1 7 ++ tau 2 6.
Example a_runs : crash_free a_run /\ forall f1 f2 f3 any, exists st, trun_to a_branch two (all3 f1 f2 f3) any a_first a_run st /\
  (blogs3 st, bresults3 st) =
  ([EvSend 0 2 (VData 0 5); EvRecv 0 2 (VData 0 6); EvSend 0 2 (VLabel 0 0 2); EvSend 0 3 (VLabel 0 0 3);
    EvSend 1 2 (VData 0 6); EvRecv 1 2 (VData 0 9); EvClose],
   [EvRecv 0 1 (VData 0 5); EvSend 0 1 (VData 0 6); EvRecv 0 1 (VLabel 0 0 2); EvRecv 1 1 (VData 0 6);
    EvSend 1 3 (VData 0 7); EvRecv 1 3 (VData 0 8); EvSend 1 1 (VData 0 9); EvClose],
   [EvRecv 0 1 (VLabel 0 0 3); EvRecv 1 2 (VData 0 7); EvSend 1 2 (VData 0 8); EvClose],
   (Some ROk, Some ROk, Some ROk)).
Proof.
  split.
  - intros p i H. cbn in H. repeat (destruct H as [H|H]; [injection H as <- <-; discriminate|]). destruct H.
  - intros f1 f2 f3 any. apply tgo_run. destruct f1, any; vm_compute; reflexivity.
Qed.
Example a_bound : length a_run = 60 /\ longest 3 (fun _ => 10) a_protocol = 777.
Proof. split; reflexivity. Qed.

(** B chooses. *)
Definition b_run : list (nat * inp) :=
  [(2, IVal 5)] ++ tau 3 1 ++ [(3, IVal 6)] ++ tau 2 1 ++ [(2, ILabel 0)] ++ tau 2 7 ++ tau 3 5 ++ tau 1 5 ++ [(2, IVal 6)] ++ tau 3 1 ++
  [(3, IVal 7)] ++ tau 1 1 ++ [(1, IVal 8)] ++ tau 3 1 ++ [(3, IVal 9)] ++ tau 2 4 ++ tau 3 3 ++ tau 1 10 ++ tau 2 7 ++ tau 3 7.
Example b_runs : forall f1 f2 f3 any, exists st, trun_to b_branch two (all3 f1 f2 f3) any b_first b_run st /\
  (blogs3 st, bresults3 st) =
  ([EvRecv 0 2 (VLabel 0 0 1); EvRecv 1 3 (VData 0 7); EvSend 1 3 (VData 0 8); EvClose],
   [EvSend 0 3 (VData 0 5); EvRecv 0 3 (VData 0 6); EvSend 0 1 (VLabel 0 0 1); EvSend 0 3 (VLabel 0 0 3);
    EvSend 1 3 (VData 0 6); EvRecv 1 3 (VData 0 9); EvClose],
   [EvRecv 0 2 (VData 0 5); EvSend 0 2 (VData 0 6); EvRecv 0 2 (VLabel 0 0 3); EvRecv 1 2 (VData 0 6);
    EvSend 1 1 (VData 0 7); EvRecv 1 1 (VData 0 8); EvSend 1 2 (VData 0 9); EvClose],
   (Some ROk, Some ROk, Some ROk)).
Proof. intros f1 f2 f3 any. apply tgo_run. destruct f2, any; vm_compute; reflexivity. Qed.

(** C chooses: tests/macros_simple_mod/macro_choice.rs:66-119 are the types [vod] of Properties_Bin.v, whose runs these are;
    in the last one B panics. *)
Example c_runs : forall f1 f2 f3 any, exists st, trun_to vod_branch two (all3 f1 f2 f3) any vod vod_run st /\
  bresults3 st = (Some ROk, Some ROk, Some ROk).
Proof. intros f1 f2 f3 any. apply tgo_run. destruct f3, any; vm_compute; reflexivity. Qed.
Example c_close_runs : forall f1 f2 f3 any, exists st, trun_to vod_branch two (all3 f1 f2 f3) any vod vod_close st /\
  bresults3 st = (Some ROk, Some ROk, Some ROk).
Proof. intros f1 f2 f3 any. apply tgo_run. destruct f3, any; vm_compute; reflexivity. Qed.
Example c_crash_runs : forall f1 f2 f3 any, exists st, trun_to vod_branch two (all3 f1 f2 f3) any vod vod_crash st /\
  bresults3 st = (Some RErr, Some RCrash, Some RErr).
Proof. intros f1 f2 f3 any. apply tgo_run. destruct f3, any; vm_compute; reflexivity. Qed.

(** ** The offers of the functions *)

(** With dual types and without any crash an operation of the functions can fail: C offers although it still has a
    message to send to A, and the function, which takes any other session, drops it; A gets an error. *)
Definition loose : nat -> mty := fun p =>
  match p with
  | 1 => ([Rcv (PChoice 0 1) End; Rcv num End], SRole 3 (SAllTo 2 SEnd SEnd))
  | 2 => ([Snd (PChoice 0 1) End; Snd (PChoice 0 3) End], SToAll 2 SEnd SEnd)
  | _ => ([Snd num End; Rcv (PChoice 0 3) End], SAllTo 2 SEnd SEnd)
  end.
Definition loose_branch (b l : nat) : nat -> mty := bye.
Theorem three_offer_discards_refuted : exists branch T tr st,
  dual_types 3 branch two T /\ crash_free tr /\ trun_to branch two (fun _ => FunctionMpst) true T tr st /\ bresult st 1 = Some RErr.
Proof.
  exists loose_branch, loose, ((2, ILabel 0) :: tau 2 3 ++ tau 3 5 ++ tau 1 1).
  destruct (tgo_run _ loose_branch two (fun _ => FunctionMpst) true loose ((2, ILabel 0) :: tau 2 3 ++ tau 3 5 ++ tau 1 1) (fun st => bresult st 1) (Some RErr))
    as (st & H1 & H2); [vm_compute; reflexivity|].
  exists st. split; [|split; [|split; [exact H1|exact H2]]].
  - split; [|intros b l _]; (split; [intros p Hp; three; reflexivity|]); intros p q Hp Hq Hne; three; try lia; reflexivity.
  - intros p i H. cbn in H. repeat (destruct H as [H|H]; [injection H as <- <-; discriminate|]). destruct H.
Qed.
Print Assumptions three_offer_discards_refuted.

(** The methods refuse: whatever has happened, a role that has something else to do does not offer. *)
Theorem three_method_offers_last : forall branch labels fams st p x hs ss f,
  bprog st p = PRun ss (SAllTo x SEnd SEnd) hs -> t_trash (b_th (bs_thr st p)) = [] -> 1 <= p <= 3 ->
  f <> comm_field p x - 1 -> (exists t, nth_error ss f = Some t /\ t <> End) -> tnext branch labels fams false p ITau st = None.
Proof.
  intros branch labels fams st p x hs ss f Hr Ht Hp Hf (t & Hn & He).
  assert (R : forall ss g f t, nth_error ss f = Some t -> t <> End -> f <> g -> rest_end g ss = false).
  { clear. assert (A : forall ss f t, nth_error ss f = Some t -> t <> End -> forallb is_end ss = false).
    { induction ss as [|a ss IH]; intros [|f] t H He; cbn in *; try discriminate.
      - injection H as ->. destruct t; [congruence|reflexivity|reflexivity].
      - rewrite (IH f t H He). apply andb_false_r. }
    induction ss as [|a ss IH]; intros g [|f] t H He Hne; cbn in *; try discriminate.
    - injection H as ->. destruct g; [lia|]. destruct t; [congruence|reflexivity|reflexivity].
    - destruct g as [|g]; [eapply A; eauto|]. cbn. rewrite (IH g f t H He) by lia. apply andb_false_r. }
  unfold tnext, mnext, bexec. rewrite (proj2 (Nat.leb_le 1 p)), (proj2 (Nat.leb_le p 3)) by lia. cbn [andb].
  unfold btstep. unfold bprog in Hr. rewrite Ht, Hr. rewrite (R ss _ f t Hn He Hf). cbn [orb]. rewrite andb_false_r. reflexivity.
Qed.
Print Assumptions three_method_offers_last.
Example loose_refused : tnext loose_branch two (fun _ => MeshedImpl) false 3 ITau (binit heap_ops 3 loose empty_heap) = None.
Proof.
  eapply (three_method_offers_last loose_branch two (fun _ => MeshedImpl) _ 3 2 _ _ 0); [reflexivity|reflexivity|lia|cbn; lia|].
  exists (Snd num End). split; [reflexivity|discriminate].
Qed.
