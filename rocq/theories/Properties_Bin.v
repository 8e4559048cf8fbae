(** C68: n roles that use the binary choices choose_left, choose_right and offer. Theorems about the concrete machine of
    Session.v and BinMesh.v: threads, one-place channels, drops, crashes. *)
From Coq Require Import List Arith Bool Lia.
From Verif Require Import Types Wiring WiringProofs Session Mesh MeshSpec Global OrderSpec Properties_Mesh Properties_Global Properties_Order
  MeshGlobal BinMesh BinSpec BinSim BinReach BinProps.
Import ListNotations.

(** An execution of the generated code, from fork_mpst on, and a step of it. *)
Definition brun_to (n : nat) branch labels (T : nat -> mty) (tr : list (nat * inp)) (st : @bstate heap ep) : Prop :=
  mrun_to n branch labels (bmake_choice heap_ops n branch) false T tr st.
Definition bnext (n : nat) branch labels (p : nat) (i : inp) (st : @bstate heap ep) :=
  mnext n branch labels (bmake_choice heap_ops n branch) false p i st.

(** ** From binary choices to enums with two variants *)

(** Every execution of roles with binary choices does what one of roles with enums does: the same actions of every role
    in the same order, the same results, and nobody crashes who does not crash in the first. *)
Theorem binary_is_enum : forall n branch labels T tr st,
  (forall b l, l < labels b -> dual_mesh n (branch b l)) -> brun_to n branch labels T tr st ->
  exists tr' sl, steps heap_ops n (enum_branch branch) labels false (start n (enum_mesh T)) tr' sl /\
    (forall p, 1 <= p <= n -> t_log (st_thr sl p) = blog st p /\ t_round (st_thr sl p) = bround st p /\ result_of sl p = bresult st p) /\
    (forall p, In (p, ICrash) tr' -> In (p, ICrash) tr) /\ length tr <= length tr'.
Proof.
  intros n branch labels T tr st HB H. exact (made_is_enum n branch labels (bmake_choice heap_ops n branch) false T tr st (generated_makes n branch labels HB) H).
Qed.
Print Assumptions binary_is_enum.

(** ** Safety *)

(** For any number of roles, pairwise dual types at the start and on both sides of every choice, any schedule, any
    values, sides and crashes: one list of choices explains everything all roles did, nobody meets a message of the wrong
    type or the wrong side, and the type of what a role holds is what remains of its declared type. *)
Theorem binary_safe : forall n branch labels T tr st,
  (forall b l, l < labels b -> dual_mesh n (branch b l)) -> dual_mesh n T -> brun_to n branch labels T tr st ->
  exists hist,
    faithful n branch labels T hist (blog st) /\
    (forall p, 1 <= p <= n -> bround st p <= length hist) /\
    (forall p hs, 1 <= p <= n -> bprog st p <> PStuck hs) /\
    (forall p ss r hs q, 1 <= p <= n -> 1 <= q <= n -> p <> q -> bprog st p = PRun ss r hs ->
       after labels (sess (round_types branch T hist (bround st p)) p q) (evs (bround st p) q (blog st p)) =
       nth_error ss (field_pos p q)).
Proof.
  intros n branch labels T tr st HB HT H. exact (made_safe n branch labels (bmake_choice heap_ops n branch) false T tr st (generated_makes n branch labels HB) HB HT H).
Qed.
Print Assumptions binary_safe.

(** Two roles never take different sides. *)
Theorem binary_same_side : forall n branch labels T tr st,
  (forall b l, l < labels b -> dual_mesh n (branch b l)) -> dual_mesh n T -> brun_to n branch labels T tr st ->
  forall p q g c b l j c' b' l' j', 1 <= p <= n -> 1 <= q <= n ->
    In (EvRecv g c (VLabel b l j)) (blog st p) -> In (EvRecv g c' (VLabel b' l' j')) (blog st q) -> c = c' /\ b = b' /\ l = l'.
Proof.
  intros n branch labels T tr st HB HT H. exact (made_same_side n branch labels (bmake_choice heap_ops n branch) false T tr st (generated_makes n branch labels HB) HB HT H).
Qed.
Print Assumptions binary_same_side.

(** Whose close returned Ok knows that every role has called close. *)
Theorem binary_close_ok : forall n branch labels T tr st,
  (forall b l, l < labels b -> dual_mesh n (branch b l)) -> dual_mesh n T -> brun_to n branch labels T tr st ->
  forall p q, 1 <= p <= n -> 1 <= q <= n -> bresult st p = Some ROk -> In EvClose (blog st q).
Proof.
  intros n branch labels T tr st HB HT H. exact (made_close_ok n branch labels (bmake_choice heap_ops n branch) false T tr st (generated_makes n branch labels HB) HB HT H).
Qed.
Print Assumptions binary_close_ok.

(** ** Progress *)

(** Hand-written types whose actions can be put in an order (see C56) never deadlock, whoever crashes. *)
Theorem binary_progress : forall n branch labels T tr st,
  dual_types n branch labels T -> all_usable n branch labels T ->
  all_ordered n (enum_branch branch) labels (enum_mesh T) -> brun_to n branch labels T tr st ->
  b_over n st \/ exists p i st', 1 <= p <= n /\ i <> ICrash /\ bnext n branch labels p i st = Some st'.
Proof.
  intros n branch labels T tr st HT HU HO H. exact (made_progress n branch labels (bmake_choice heap_ops n branch) false T tr st (generated_makes n branch labels (proj2 HT)) HT HU HO H).
Qed.
Print Assumptions binary_progress.

(** ** Roles that follow one global protocol *)

Theorem binary_global_progress : forall n labels P branch T tr st,
  wf_protocol n labels P -> projected n labels P branch T -> all_usable n branch labels T -> brun_to n branch labels T tr st ->
  b_over n st \/ exists p i st', 1 <= p <= n /\ i <> ICrash /\ bnext n branch labels p i st = Some st'.
Proof.
  intros n labels P branch T tr st W HP U H. exact (made_global_progress n labels P branch (bmake_choice heap_ops n branch) false T tr st (generated_makes n branch labels (proj2 (projected_dual n labels P branch T HP))) W HP U H).
Qed.
Print Assumptions binary_global_progress.

(** Every execution of a finite protocol is finite, with the bound of C16; one that cannot be continued has ended every
    thread. Any crashes. *)
Theorem binary_terminates : forall n labels P size branch T tr st,
  wf_protocol n labels P -> finite_protocol n labels P size -> projected n labels P branch T -> all_usable n branch labels T ->
  brun_to n branch labels T tr st ->
  length tr <= longest n size P /\ ((forall p i, i <> ICrash -> bnext n branch labels p i st = None) -> b_over n st).
Proof.
  intros n labels P size branch T tr st W FN HP U H.
  exact (made_terminates n labels P size branch (bmake_choice heap_ops n branch) false T tr st (generated_makes n branch labels (proj2 (projected_dual n labels P branch T HP))) W FN HP U H).
Qed.
Print Assumptions binary_terminates.

(** If nobody crashes no operation fails, and when nothing more can happen every role has returned Ok from close and has
    received everything that was sent to it. *)
Theorem binary_all_ok : forall n labels P branch T tr st,
  wf_protocol n labels P -> projected n labels P branch T -> all_usable n branch labels T -> brun_to n branch labels T tr st ->
  crash_free tr ->
  (forall p r, 1 <= p <= n -> bresult st p = Some r -> r = ROk) /\
  ((forall p i, i <> ICrash -> bnext n branch labels p i st = None) ->
   (forall p, 1 <= p <= n -> bresult st p = Some ROk) /\
   forall g p q, 1 <= p <= n -> 1 <= q <= n -> p <> q -> ins (evs g q (blog st p)) = outs (evs g p (blog st q))).
Proof.
  intros n labels P branch T tr st W HP U H NC.
  exact (made_all_ok n labels P branch (bmake_choice heap_ops n branch) false T tr st (generated_makes n branch labels (proj2 (projected_dual n labels P branch T HP))) W HP U H NC).
Qed.
Print Assumptions binary_all_ok.

(** ** Examples *)

Fixpoint bgo n branch labels (st : @bstate heap ep) (tr : list (nat * inp)) : option (@bstate heap ep) :=
  match tr with
  | [] => Some st
  | (p, i) :: tr' => match bnext n branch labels p i st with Some st1 => bgo n branch labels st1 tr' | None => None end
  end.
Lemma bgo_steps : forall n branch labels tr st st', bgo n branch labels st tr = Some st' -> bsteps heap_ops n branch labels false (bmake_choice heap_ops n branch) false st tr st'.
Proof.
  intros n branch labels. induction tr as [|[p i] tr IH]; intros st st' Hr; cbn in Hr; [injection Hr as <-; constructor|].
  unfold bnext, mnext in Hr. destruct (bexec heap_ops n branch labels false _ _ p i st) as [st1|] eqn:E; [|discriminate]. econstructor; eauto.
Qed.
Definition boutcome {A} n branch labels T tr (f : @bstate heap ep -> A) : option A :=
  option_map f (bgo n branch labels (binit heap_ops n T empty_heap) tr).
Lemma boutcome_run : forall A n branch labels T tr (f : @bstate heap ep -> A) a, boutcome n branch labels T tr f = Some a ->
  exists st, brun_to n branch labels T tr st /\ f st = a.
Proof.
  intros A n branch labels T tr f a H. unfold boutcome in H. destruct (bgo n branch labels _ tr) as [st|] eqn:E; [|discriminate].
  injection H as <-. exists st. split; [apply bgo_steps; exact E|reflexivity].
Qed.
Definition blogs3 (st : @bstate heap ep) := (blog st 1, blog st 2, blog st 3).
Definition bresults3 (st : @bstate heap ep) := (bresult st 1, bresult st 2, bresult st 3).

(** The types of tests/baking_mod/macros_baking/macro_multi_choice.rs:27-94: A = 1, B = 2, D = 3; D asks A, and chooses
    between "video" (left) and "close" (right). *)
Definition num := PVal 0.
Definition vod : nat -> mty := fun p =>
  match p with
  | 1 => ([End; Rcv num (Snd num (Rcv (PChoice 0 1) End))], SRole 3 (SRole 3 (SAllTo 3 SEnd SEnd)))
  | 2 => ([End; Rcv (PChoice 0 2) End], SAllTo 3 SEnd SEnd)
  | _ => ([Snd num (Rcv num (Snd (PChoice 0 1) End)); Snd (PChoice 0 2) End],
          SRole 1 (SRole 1 (SToAll 3 (SRole 1 (SRole 1 SEnd)) SEnd)))
  end.
Definition video : nat -> mty := fun p =>
  match p with
  | 1 => ([Snd num (Rcv num End); Rcv num (Snd num End)], SRole 3 (SRole 2 (SRole 2 (SRole 3 SEnd))))
  | 2 => ([Rcv num (Snd num End); End], SRole 1 (SRole 1 SEnd))
  | _ => ([Snd num (Rcv num End); End], SRole 1 (SRole 1 SEnd))
  end.
Definition vod_branch (b l : nat) : nat -> mty := match l with 0 => video | _ => bye end.
Definition two (b : nat) : nat := 2.
Definition vod_protocol : protocol :=
  Protocol ([Msg3 3 1 0; Msg3 1 3 0], GChoose 3 0)
           (fun b l => match l with 0 => ([Msg3 3 1 0; Msg3 1 2 0; Msg3 2 1 0; Msg3 1 3 0], GEnd) | _ => ([], GEnd) end).

Ltac three := repeat match goal with H : 1 <= ?p <= 3 |- _ => assert (p = 1 \/ p = 2 \/ p = 3) as [-> | [-> | ->]] by lia; clear H end.
Ltac all_end := let f := fresh in let s := fresh in intros [|[|[|f]]] s; cbn; intros; congruence.
Ltac used := cbn; unfold two; repeat split; try lia; try (repeat constructor; fail); try (eexists; repeat split; reflexivity); try all_end.

Example vod_wf : wf_protocol 3 two vod_protocol.
Proof.
  split; [lia|]. split; [split; [repeat constructor; cbn; lia|cbn; unfold two; lia]|].
  intros b [|l] H; (split; [|exact I]); repeat constructor; cbn; lia.
Qed.
Example vod_finite : finite_protocol 3 two vod_protocol (fun _ => 10).
Proof. intros b [|l] H; cbn; lia. Qed.
Example vod_projected : projected 3 two vod_protocol vod_branch vod.
Proof. split; [intros p Hp; three; reflexivity|]. intros b [|l] p _ Hp; three; reflexivity. Qed.
Example vod_usable : all_usable 3 vod_branch two vod.
Proof.
  split; [intros p Hp; three; used|]. intros b [|l] _ p Hp; three; used.
Qed.
Example vod_dual : dual_types 3 vod_branch two vod.
Proof. destruct (projected_dual 3 two vod_protocol vod_branch vod vod_projected). split; assumption. Qed.
Example vod_ordered : all_ordered 3 (enum_branch vod_branch) two (enum_mesh vod).
Proof. apply (check_all_ordered 3 _ two [0]). vm_compute. reflexivity. Qed.


(** D chooses "video" and everybody closes: the bound of [binary_terminates] is 777 steps. *)
Definition vod_run : list (nat * inp) :=
  [(3, IVal 5)] ++ tau 1 1 ++ [(1, IVal 6)] ++ tau 3 1 ++ [(3, ILabel 0)] ++ tau 3 7 ++ tau 1 5 ++ tau 2 5 ++
  [(3, IVal 6)] ++ tau 1 1 ++ [(1, IVal 7)] ++ tau 2 1 ++ [(2, IVal 8)] ++ tau 1 1 ++ [(1, IVal 9)] ++ tau 3 4 ++ tau 1 3 ++
  tau 2 10 ++ tau 3 7 ++ tau 1 7.
Example vod_runs : crash_free vod_run /\ exists st, brun_to 3 vod_branch two vod vod_run st /\
  (blogs3 st, bresults3 st) =
  ([EvRecv 0 3 (VData 0 5); EvSend 0 3 (VData 0 6); EvRecv 0 3 (VLabel 0 0 1); EvRecv 1 3 (VData 0 6);
    EvSend 1 2 (VData 0 7); EvRecv 1 2 (VData 0 8); EvSend 1 3 (VData 0 9); EvClose],
   [EvRecv 0 3 (VLabel 0 0 2); EvRecv 1 1 (VData 0 7); EvSend 1 1 (VData 0 8); EvClose],
   [EvSend 0 1 (VData 0 5); EvRecv 0 1 (VData 0 6); EvSend 0 1 (VLabel 0 0 1); EvSend 0 2 (VLabel 0 0 2);
    EvSend 1 1 (VData 0 6); EvRecv 1 1 (VData 0 9); EvClose],
   (Some ROk, Some ROk, Some ROk)).
Proof.
  split.
  - intros p i H. cbn in H. repeat (destruct H as [H|H]; [injection H as <- <-; discriminate|]). destruct H.
  - apply boutcome_run. vm_compute. reflexivity.
Qed.
Example vod_bound : length vod_run = 60 /\ longest 3 (fun _ => 10) vod_protocol = 777.
Proof. split; reflexivity. Qed.

(** D chooses "close". *)
Definition vod_close : list (nat * inp) :=
  [(3, IVal 5)] ++ tau 1 1 ++ [(1, IVal 6)] ++ tau 3 1 ++ [(3, ILabel 1)] ++ tau 3 10 ++ tau 1 8 ++ tau 2 15 ++ tau 3 7 ++ tau 1 7.
Example vod_close_runs : exists st, brun_to 3 vod_branch two vod vod_close st /\
  (blogs3 st, bresults3 st) =
  ([EvRecv 0 3 (VData 0 5); EvSend 0 3 (VData 0 6); EvRecv 0 3 (VLabel 0 1 1); EvClose],
   [EvRecv 0 3 (VLabel 0 1 2); EvClose],
   [EvSend 0 1 (VData 0 5); EvRecv 0 1 (VData 0 6); EvSend 0 1 (VLabel 0 1 1); EvSend 0 2 (VLabel 0 1 2); EvClose],
   (Some ROk, Some ROk, Some ROk)).
Proof. apply boutcome_run. vm_compute. reflexivity. Qed.

(** B panics before the choice: D still chooses "video", and then every role gets an error. *)
Definition vod_crash : list (nat * inp) :=
  [(3, IVal 5)] ++ tau 1 1 ++ [(1, IVal 6); (2, ICrash)] ++ tau 2 3 ++ tau 3 1 ++ [(3, ILabel 0)] ++ tau 3 12 ++ tau 1 5 ++
  [(3, IVal 6)] ++ tau 1 1 ++ [(1, IVal 7)] ++ tau 1 3 ++ tau 3 3.
Example vod_crash_runs : exists st, brun_to 3 vod_branch two vod vod_crash st /\
  (blog st 3, bresults3 st) =
  ([EvSend 0 1 (VData 0 5); EvRecv 0 1 (VData 0 6); EvSend 0 1 (VLabel 0 0 1); EvSend 0 2 (VLabel 0 0 2); EvSend 1 1 (VData 0 6)],
   (Some RErr, Some RCrash, Some RErr)).
Proof. apply boutcome_run. vm_compute. reflexivity. Qed.

(** Four roles; role 1 chooses, and on the left role 2 chooses again: on the left of that role 4 sends to role 1. *)
Definition four_first : nat -> mty := fun p =>
  match p with
  | 1 => ([Snd (PChoice 0 2) End; Snd (PChoice 0 3) End; Snd (PChoice 0 4) End], SToAll 1 (SAllTo 2 SEnd SEnd) SEnd)
  | _ => ([Rcv (PChoice 0 p) End; End; End], SAllTo 1 SEnd SEnd)
  end.
Definition four_second : nat -> mty := fun p =>
  match p with
  | 2 => ([Snd (PChoice 1 1) End; Snd (PChoice 1 3) End; Snd (PChoice 1 4) End], SToAll 2 SEnd SEnd)
  | 1 => ([Rcv (PChoice 1 1) End; End; End], SAllTo 2 SEnd SEnd)
  | _ => ([End; Rcv (PChoice 1 p) End; End], SAllTo 2 SEnd SEnd)
  end.
Definition four_third : nat -> mty := fun p =>
  match p with
  | 1 => ([End; End; Rcv num End], SRole 4 SEnd)
  | 4 => ([Snd num End; End; End], SRole 1 SEnd)
  | _ => ([End; End; End], SEnd)
  end.
Definition four_branch (b l : nat) : nat -> mty :=
  match b, l with 0, 0 => four_second | 1, 0 => four_third | _, _ => fun _ => ([End; End; End], SEnd) end.
Definition four_labels (b : nat) : nat := if b <? 2 then 2 else 0.
Definition four_protocol : protocol :=
  Protocol ([], GChoose 1 0)
           (fun b l => match b, l with 0, 0 => ([], GChoose 2 1) | 1, 0 => ([Msg3 4 1 0], GEnd) | _, _ => ([], GEnd) end).
Ltac four := repeat match goal with H : 1 <= ?p <= 4 |- _ => assert (p = 1 \/ p = 2 \/ p = 3 \/ p = 4) as [-> | [-> | [-> | ->]]] by lia; clear H end.
Example four_wf : wf_protocol 4 four_labels four_protocol.
Proof.
  split; [lia|]. split; [split; [constructor|cbn; lia]|].
  intros [|[|b]] [|l] H; (split; [|cbn; try exact I; lia]); repeat constructor; cbn; lia.
Qed.
Example four_projected : projected 4 four_labels four_protocol four_branch four_first.
Proof. split; [intros p Hp; four; reflexivity|]. intros [|[|b]] [|l] p _ Hp; four; reflexivity. Qed.
Ltac all_end4 := let f := fresh in let s := fresh in intros [|[|[|[|f]]]] s; cbn; intros; congruence.
Ltac used4 := cbn; repeat split; try lia; try (repeat constructor; fail); try (eexists; repeat split; reflexivity); try all_end4.
Example four_usable : all_usable 4 four_branch four_labels four_first.
Proof. split; [intros p Hp; four; used4|]. intros [|[|b]] [|l] _ p Hp; four; used4. Qed.
Definition four_run : list (nat * inp) :=
  [(1, ILabel 0)] ++ tau 1 10 ++ tau 2 7 ++ tau 3 7 ++ tau 4 7 ++ [(2, ILabel 0)] ++ tau 2 14 ++ tau 1 7 ++ tau 3 11 ++ tau 4 7 ++
  [(4, IVal 9)] ++ tau 1 7 ++ tau 2 2 ++ tau 3 2 ++ tau 4 14 ++ tau 1 8 ++ tau 2 8 ++ tau 3 8.
Example four_runs : exists st, brun_to 4 four_branch four_labels four_first four_run st /\
  (blogs3 st, blog st 4, bresults3 st, bresult st 4) =
  ([EvSend 0 2 (VLabel 0 0 2); EvSend 0 3 (VLabel 0 0 3); EvSend 0 4 (VLabel 0 0 4); EvRecv 1 2 (VLabel 1 0 1);
    EvRecv 2 4 (VData 0 9); EvClose],
   [EvRecv 0 1 (VLabel 0 0 2); EvSend 1 1 (VLabel 1 0 1); EvSend 1 3 (VLabel 1 0 3); EvSend 1 4 (VLabel 1 0 4); EvClose],
   [EvRecv 0 1 (VLabel 0 0 3); EvRecv 1 2 (VLabel 1 0 3); EvClose],
   [EvRecv 0 1 (VLabel 0 0 4); EvRecv 1 2 (VLabel 1 0 4); EvSend 2 1 (VData 0 9); EvClose],
   (Some ROk, Some ROk, Some ROk), Some ROk).
Proof. apply boutcome_run. vm_compute. reflexivity. Qed.
