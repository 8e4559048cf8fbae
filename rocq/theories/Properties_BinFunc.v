(** C70: the functions made by create_choose_mpst_session_multi_left and _right, with which role n chooses, run as the
    methods and the enums do. Theorems about the concrete machine of Session.v, BinMesh.v and FuncMesh.v. [fn b]: role n makes
    the choice b with the function; all other choices are made with the methods. *)
From Coq Require Import List Arith Bool Lia.
From Verif Require Import Types Diag DiagProofs Wiring WiringProofs Session Mesh MeshSpec Global OrderSpec Properties_Mesh Properties_Global Properties_Order
  MeshGlobal BinMesh BinSpec BinSim BinReach BinProps FuncMesh BinFunc Properties_Bin.
Import ListNotations.

(** An execution from [fork_mpst] on, and a step of it. *)
Definition frun_to (n : nat) branch labels fn (T : nat -> mty) (tr : list (nat * inp)) (st : @bstate heap ep) : Prop :=
  mrun_to n branch labels (fmake heap_ops n branch fn) false T tr st.
Definition fnext (n : nat) branch labels fn (p : nat) (i : inp) (st : @bstate heap ep) :=
  mnext n branch labels (fmake heap_ops n branch fn) false p i st.

(** Every execution with the functions does what one of roles with enums does: the same actions of every role
    in the same order, the same results, and nobody crashes who does not crash in the first. *)
Theorem function_is_enum : forall n branch labels fn T tr st,
  (forall b l, l < labels b -> dual_mesh n (branch b l)) -> frun_to n branch labels fn T tr st ->
  exists tr' sl, steps heap_ops n (enum_branch branch) labels false (start n (enum_mesh T)) tr' sl /\
    (forall p, 1 <= p <= n -> t_log (st_thr sl p) = blog st p /\ t_round (st_thr sl p) = bround st p /\ result_of sl p = bresult st p) /\
    (forall p, In (p, ICrash) tr' -> In (p, ICrash) tr) /\ length tr <= length tr'.
Proof.
  intros n branch labels fn T tr st HB H. exact (made_is_enum n branch labels (fmake heap_ops n branch fn) false T tr st (function_makes n branch labels fn HB) H).
Qed.
Print Assumptions function_is_enum.

(** ** Safety *)

(** For any number of roles, pairwise dual types at the start and on both sides of every choice, any schedule, any
    values, sides and crashes: one list of choices explains everything all roles did, nobody meets a message of the wrong
    type or the wrong side, and the type of what a role holds is what remains of its declared type. *)
Theorem function_safe : forall n branch labels fn T tr st,
  (forall b l, l < labels b -> dual_mesh n (branch b l)) -> dual_mesh n T -> frun_to n branch labels fn T tr st ->
  exists hist,
    faithful n branch labels T hist (blog st) /\
    (forall p, 1 <= p <= n -> bround st p <= length hist) /\
    (forall p hs, 1 <= p <= n -> bprog st p <> PStuck hs) /\
    (forall p ss r hs q, 1 <= p <= n -> 1 <= q <= n -> p <> q -> bprog st p = PRun ss r hs ->
       after labels (sess (round_types branch T hist (bround st p)) p q) (evs (bround st p) q (blog st p)) =
       nth_error ss (field_pos p q)).
Proof.
  intros n branch labels fn T tr st HB HT H. exact (made_safe n branch labels (fmake heap_ops n branch fn) false T tr st (function_makes n branch labels fn HB) HB HT H).
Qed.
Print Assumptions function_safe.

(** Two roles never take different sides. *)
Theorem function_same_side : forall n branch labels fn T tr st,
  (forall b l, l < labels b -> dual_mesh n (branch b l)) -> dual_mesh n T -> frun_to n branch labels fn T tr st ->
  forall p q g c b l j c' b' l' j', 1 <= p <= n -> 1 <= q <= n ->
    In (EvRecv g c (VLabel b l j)) (blog st p) -> In (EvRecv g c' (VLabel b' l' j')) (blog st q) -> c = c' /\ b = b' /\ l = l'.
Proof.
  intros n branch labels fn T tr st HB HT H. exact (made_same_side n branch labels (fmake heap_ops n branch fn) false T tr st (function_makes n branch labels fn HB) HB HT H).
Qed.
Print Assumptions function_same_side.

(** Whose close returned Ok knows that every role has called close. *)
Theorem function_close_ok : forall n branch labels fn T tr st,
  (forall b l, l < labels b -> dual_mesh n (branch b l)) -> dual_mesh n T -> frun_to n branch labels fn T tr st ->
  forall p q, 1 <= p <= n -> 1 <= q <= n -> bresult st p = Some ROk -> In EvClose (blog st q).
Proof.
  intros n branch labels fn T tr st HB HT H. exact (made_close_ok n branch labels (fmake heap_ops n branch fn) false T tr st (function_makes n branch labels fn HB) HB HT H).
Qed.
Print Assumptions function_close_ok.

(** ** Progress *)

(** Hand-written types whose actions can be put in an order (see C56) never deadlock, whoever crashes. *)
Theorem function_progress : forall n branch labels fn T tr st,
  dual_types n branch labels T -> all_usable n branch labels T ->
  all_ordered n (enum_branch branch) labels (enum_mesh T) -> frun_to n branch labels fn T tr st ->
  b_over n st \/ exists p i st', 1 <= p <= n /\ i <> ICrash /\ fnext n branch labels fn p i st = Some st'.
Proof.
  intros n branch labels fn T tr st HT HU HO H. exact (made_progress n branch labels (fmake heap_ops n branch fn) false T tr st (function_makes n branch labels fn (proj2 HT)) HT HU HO H).
Qed.
Print Assumptions function_progress.

(** ** Roles that follow one global protocol *)

Theorem function_global_progress : forall n labels P branch fn T tr st,
  wf_protocol n labels P -> projected n labels P branch T -> all_usable n branch labels T -> frun_to n branch labels fn T tr st ->
  b_over n st \/ exists p i st', 1 <= p <= n /\ i <> ICrash /\ fnext n branch labels fn p i st = Some st'.
Proof.
  intros n labels P branch fn T tr st W HP U H. exact (made_global_progress n labels P branch (fmake heap_ops n branch fn) false T tr st (function_makes n branch labels fn (proj2 (projected_dual n labels P branch T HP))) W HP U H).
Qed.
Print Assumptions function_global_progress.

(** Every execution of a finite protocol is finite, with the bound of C16; one that cannot be continued has ended every
    thread. Any crashes. *)
Theorem function_terminates : forall n labels P size branch fn T tr st,
  wf_protocol n labels P -> finite_protocol n labels P size -> projected n labels P branch T -> all_usable n branch labels T ->
  frun_to n branch labels fn T tr st ->
  length tr <= longest n size P /\ ((forall p i, i <> ICrash -> fnext n branch labels fn p i st = None) -> b_over n st).
Proof.
  intros n labels P size branch fn T tr st W FN HP U H.
  exact (made_terminates n labels P size branch (fmake heap_ops n branch fn) false T tr st (function_makes n branch labels fn (proj2 (projected_dual n labels P branch T HP))) W FN HP U H).
Qed.
Print Assumptions function_terminates.

(** If nobody crashes no operation fails, and when nothing more can happen every role has returned Ok from close and has
    received everything that was sent to it. *)
Theorem function_all_ok : forall n labels P branch fn T tr st,
  wf_protocol n labels P -> projected n labels P branch T -> all_usable n branch labels T -> frun_to n branch labels fn T tr st ->
  crash_free tr ->
  (forall p r, 1 <= p <= n -> bresult st p = Some r -> r = ROk) /\
  ((forall p i, i <> ICrash -> fnext n branch labels fn p i st = None) ->
   (forall p, 1 <= p <= n -> bresult st p = Some ROk) /\
   forall g p q, 1 <= p <= n -> 1 <= q <= n -> p <> q -> ins (evs g q (blog st p)) = outs (evs g p (blog st q))).
Proof.
  intros n labels P branch fn T tr st W HP U H NC.
  exact (made_all_ok n labels P branch (fmake heap_ops n branch fn) false T tr st (function_makes n branch labels fn (proj2 (projected_dual n labels P branch T HP))) W HP U H NC).
Qed.
Print Assumptions function_all_ok.

(** ** Examples *)

Fixpoint mgo n branch labels make (st : @bstate heap ep) (tr : list (nat * inp)) : option (@bstate heap ep) :=
  match tr with
  | [] => Some st
  | (p, i) :: tr' => match mnext n branch labels make false p i st with Some st1 => mgo n branch labels make st1 tr' | None => None end
  end.
Lemma mgo_run : forall A n branch labels make T tr (f : @bstate heap ep -> A) a,
  option_map f (mgo n branch labels make (binit heap_ops n T empty_heap) tr) = Some a ->
  exists st, mrun_to n branch labels make false T tr st /\ f st = a.
Proof.
  intros A n branch labels make T tr f a H.
  assert (G : forall tr st st', mgo n branch labels make st tr = Some st' -> bsteps heap_ops n branch labels false make false st tr st').
  { clear. induction tr as [|[p i] tr IH]; intros st st' Hr; cbn in Hr; [injection Hr as <-; constructor|].
    unfold mnext in Hr. destruct (bexec heap_ops n branch labels false _ _ p i st) as [st1|] eqn:E; [|discriminate]. econstructor; eauto. }
  destruct (mgo n branch labels make _ tr) as [st|] eqn:E; [|discriminate].
  injection H as <-. exists st. split; [apply G; exact E|reflexivity].
Qed.

(** tests/macros_multiple_mod/macro_multi_choice.rs:72-200: the types [vod] of Properties_Bin.v (which meet all hypotheses: vod_wf,
    vod_finite, vod_projected, vod_usable, vod_dual, vod_ordered), and D = 3 chooses with the functions. *)
Definition always (b : nat) : bool := true.
Example function_vod : exists st, frun_to 3 vod_branch two always vod vod_run st /\
  (blogs3 st, bresults3 st) =
  ([EvRecv 0 3 (VData 0 5); EvSend 0 3 (VData 0 6); EvRecv 0 3 (VLabel 0 0 1); EvRecv 1 3 (VData 0 6);
    EvSend 1 2 (VData 0 7); EvRecv 1 2 (VData 0 8); EvSend 1 3 (VData 0 9); EvClose],
   [EvRecv 0 3 (VLabel 0 0 2); EvRecv 1 1 (VData 0 7); EvSend 1 1 (VData 0 8); EvClose],
   [EvSend 0 1 (VData 0 5); EvRecv 0 1 (VData 0 6); EvSend 0 1 (VLabel 0 0 1); EvSend 0 2 (VLabel 0 0 2);
    EvSend 1 1 (VData 0 6); EvRecv 1 1 (VData 0 9); EvClose],
   (Some ROk, Some ROk, Some ROk)).
Proof. apply mgo_run. vm_compute. reflexivity. Qed.
Example function_vod_close : exists st, frun_to 3 vod_branch two always vod vod_close st /\
  bresults3 st = (Some ROk, Some ROk, Some ROk).
Proof. apply mgo_run. vm_compute. reflexivity. Qed.
Example function_vod_crash : exists st, frun_to 3 vod_branch two always vod vod_crash st /\
  bresults3 st = (Some RErr, Some RCrash, Some RErr).
Proof. apply mgo_run. vm_compute. reflexivity. Qed.

(** Four roles: role 4 chooses with the function, and on the left role 1 chooses with the method; then role 2 sends to role 4. *)
Definition last_first : nat -> mty := fun p =>
  match p with
  | 4 => ([Snd (PChoice 0 1) End; Snd (PChoice 0 2) End; Snd (PChoice 0 3) End], SToAll 4 (SAllTo 1 SEnd SEnd) SEnd)
  | _ => ([End; End; Rcv (PChoice 0 p) End], SAllTo 4 SEnd SEnd)
  end.
Definition last_second : nat -> mty := fun p =>
  match p with
  | 1 => ([Snd (PChoice 1 2) End; Snd (PChoice 1 3) End; Snd (PChoice 1 4) End], SToAll 1 SEnd SEnd)
  | _ => ([Rcv (PChoice 1 p) End; End; End], SAllTo 1 SEnd SEnd)
  end.
Definition last_third : nat -> mty := fun p =>
  match p with
  | 2 => ([End; End; Snd num End], SRole 4 SEnd)
  | 4 => ([End; Rcv num End; End], SRole 2 SEnd)
  | _ => ([End; End; End], SEnd)
  end.
Definition last_branch (b l : nat) : nat -> mty :=
  match b, l with 0, 0 => last_second | 1, 0 => last_third | _, _ => fun _ => ([End; End; End], SEnd) end.
Definition last_protocol : protocol :=
  Protocol ([], GChoose 4 0)
           (fun b l => match b, l with 0, 0 => ([], GChoose 1 1) | 1, 0 => ([Msg3 2 4 0], GEnd) | _, _ => ([], GEnd) end).
Example last_wf : wf_protocol 4 four_labels last_protocol.
Proof.
  split; [lia|]. split; [split; [constructor|cbn; lia]|].
  intros [|[|b]] [|l] H; (split; [|cbn; try exact I; lia]); repeat constructor; cbn; lia.
Qed.
Example last_projected : projected 4 four_labels last_protocol last_branch last_first.
Proof. split; [intros p Hp; four; reflexivity|]. intros [|[|b]] [|l] p _ Hp; four; reflexivity. Qed.
Example last_usable : all_usable 4 last_branch four_labels last_first.
Proof. split; [intros p Hp; four; used4|]. intros [|[|b]] [|l] _ p Hp; four; used4. Qed.
Definition last_run : list (nat * inp) :=
  [(4, ILabel 0)] ++ tau 4 10 ++ tau 1 7 ++ tau 2 7 ++ tau 3 7 ++ [(1, ILabel 0)] ++ tau 1 14 ++ tau 2 7 ++ tau 3 12 ++ tau 4 7 ++
  [(2, IVal 9)] ++ tau 4 6 ++ tau 2 14 ++ tau 3 9 ++ tau 4 9 ++ tau 1 10.
Example last_runs : exists st, frun_to 4 last_branch four_labels always last_first last_run st /\
  (blogs3 st, blog st 4, bresults3 st, bresult st 4) =
  ([EvRecv 0 4 (VLabel 0 0 1); EvSend 1 2 (VLabel 1 0 2); EvSend 1 3 (VLabel 1 0 3); EvSend 1 4 (VLabel 1 0 4); EvClose],
   [EvRecv 0 4 (VLabel 0 0 2); EvRecv 1 1 (VLabel 1 0 2); EvSend 2 4 (VData 0 9); EvClose],
   [EvRecv 0 4 (VLabel 0 0 3); EvRecv 1 1 (VLabel 1 0 3); EvClose],
   [EvSend 0 1 (VLabel 0 0 1); EvSend 0 2 (VLabel 0 0 2); EvSend 0 3 (VLabel 0 0 3); EvRecv 1 1 (VLabel 1 0 4);
    EvRecv 2 2 (VData 0 9); EvClose],
   (Some ROk, Some ROk, Some ROk), Some ROk).
Proof. apply mgo_run. vm_compute. reflexivity. Qed.

(** ** The function in the hands of another role *)

(** The compiler accepts the call by role p: for some S_1, S_2, .. the declared sessions of the Either on field i are those of the role at
    the other end, and the returned ones are those of p. *)
Definition side_type (S : nat -> sty) (e : endp) : sty := if snd e then S (fst e) else co (S (fst e)).
Definition call_typed (n : nat) (T : nat -> mty) (p : nat) : Prop :=
  exists S, (forall i, 1 <= i < n -> option_map (map (side_type S)) (cchoose_receiver_decl n i) = Some (fst (T (other p i)))) /\
            map (side_type S) (cchoose_sender_decl n) = fst (T p).

(** Role n can call it with all pairwise dual types. *)
Theorem last_call_typed : forall n T, dual_mesh n T -> 1 <= n -> call_typed n T n.
Proof.
  intros n T [HL HD] Hn.
  assert (U : forall i q, 1 <= i <= n -> 1 <= q <= n -> i <> q ->
    side_type (fun m => match get_line_column_from_diag (diag n) m with Some (l, c) => sess T l c | None => End end) (end_of b_fork n i q) = sess T i q).
  { intros i q Hi Hq Hne. unfold side_type, end_of. cbn [fst snd]. rewrite get_line_column_spec by lia. unfold b_fork.
    destruct (Nat.ltb_spec i q).
    - rewrite Nat.min_l, Nat.max_r by lia. reflexivity.
    - rewrite Nat.min_r, Nat.max_l by lia. symmetry. apply HD; lia. }
  assert (V : forall i, 1 <= i <= n -> map (side_type (fun m => match get_line_column_from_diag (diag n) m with Some (l, c) => sess T l c | None => End end)) (mesh_of b_fork n i) = fst (T i)).
  { intros i Hi. unfold mesh_of. rewrite map_map. apply (nth_ext _ _ End End).
    - rewrite map_length, seq_length. symmetry. apply HL, Hi.
    - intros k Hk. rewrite map_length, seq_length in Hk.
      set (F := fun x => side_type _ (end_of b_fork n i (peer i x))). rewrite (nth_indep _ End (F 0)) by (rewrite map_length, seq_length; exact Hk).
      rewrite map_nth, seq_nth by exact Hk. unfold F. rewrite U; [|exact Hi|apply peer_range; lia|intros E; symmetry in E; revert E; apply peer_neq].
      unfold sess. f_equal. unfold field_pos, peer. destruct (Nat.ltb_spec (1 + k) i) as [L|L].
      + destruct (Nat.ltb_spec (1 + k) i); lia.
      + destruct (Nat.ltb_spec (S (1 + k)) i); lia. }
  exists (fun m => match get_line_column_from_diag (diag n) m with Some (l, c) => sess T l c | None => End end). split.
  - intros i Hi. rewrite cchoose_receiver_decl_spec by lia. cbn [option_map]. rewrite V by lia. f_equal. f_equal. f_equal.
    unfold other. destruct (Nat.leb_spec n i); lia.
  - rewrite cchoose_sender_decl_spec. apply V. lia.
Qed.
Print Assumptions last_call_typed.
Example video_call : call_typed 3 video 3.
Proof. apply last_call_typed; [apply (proj2 vod_dual 0 0); cbn; unfold two; lia|lia]. Qed.

(** Role 1 of 3 can call it too: with a correct protocol, types that the compiler accepts and without any crash, role 3 receives as a
    message from role 1 what role 2 sent to role 1. *)
Definition odd_side : nat -> mty := fun p =>
  match p with
  | 1 => ([Rcv num End; Snd num End], SRole 2 (SRole 3 SEnd))
  | 2 => ([Snd num End; Snd num End], SRole 1 (SRole 3 SEnd))
  | _ => ([Rcv num End; Rcv num End], SRole 1 (SRole 2 SEnd))
  end.
Definition odd_first : nat -> mty := fun p =>
  match p with
  | 1 => ([Snd (PChoice 0 2) End; Snd (PChoice 0 3) End], SToAll 1 (SRole 2 (SRole 3 SEnd)) (SRole 2 (SRole 3 SEnd)))
  | _ => ([Rcv (PChoice 0 p) End; End], SAllTo 1 SEnd SEnd)
  end.
Definition odd_branch (b l : nat) : nat -> mty := odd_side.
Definition odd_protocol : protocol := Protocol ([], GChoose 1 0) (fun b l => ([Msg3 2 1 0; Msg3 1 3 0; Msg3 2 3 0], GEnd)).
Definition odd_run : list (nat * inp) :=
  [(1, ILabel 0)] ++ tau 1 7 ++ tau 2 5 ++ tau 3 5 ++ [(2, IVal 7); (2, IVal 9)] ++ tau 2 3 ++ tau 1 1 ++ [(1, IVal 8)] ++ tau 3 6 ++
  tau 1 10 ++ tau 2 7 ++ tau 3 6.
Definition odd_result :=
  ([EvSend 0 2 (VLabel 0 0 2); EvSend 0 3 (VLabel 0 0 3); EvRecv 1 2 (VData 0 9); EvSend 1 3 (VData 0 8); EvClose],
   [EvRecv 0 1 (VLabel 0 0 2); EvSend 1 1 (VData 0 7); EvSend 1 3 (VData 0 9); EvClose],
   [EvRecv 0 1 (VLabel 0 0 3); EvRecv 1 1 (VData 0 7); EvRecv 1 2 (VData 0 8); EvClose], (Some ROk, Some ROk, Some ROk)).
Theorem function_by_first_refuted : exists n P branch T tr st,
  wf_protocol n two P /\ projected n two P branch T /\ all_usable n branch two T /\ (forall b l, l < two b -> call_typed n (branch b l) 1) /\
  crash_free tr /\ mrun_to n branch two (cmake_choice heap_ops n branch) false T tr st /\
  In (EvRecv 1 1 (VData 0 7)) (blog st 3) /\ In (EvSend 1 1 (VData 0 7)) (blog st 2) /\
  (forall v, In (EvSend 1 3 v) (blog st 1) -> v = VData 0 8) /\ bresults3 st = (Some ROk, Some ROk, Some ROk).
Proof.
  exists 3, odd_protocol, odd_branch, odd_first, odd_run.
  destruct (mgo_run _ 3 odd_branch two (cmake_choice heap_ops 3 odd_branch) odd_first odd_run (fun st => (blogs3 st, bresults3 st)) odd_result)
    as (st & Hr & He); [vm_compute; reflexivity|]. exists st. unfold odd_result in He. injection He as E1 E2 E3 E4 E5 E6.
  split; [|split; [|split; [|split; [|split; [|split; [exact Hr|]]]]]].
  - split; [lia|]. split; [split; [constructor|cbn; unfold two; lia]|]. intros b l _. split; [|exact I]. repeat constructor; cbn; lia.
  - split; [intros p Hp; three; reflexivity|]. intros b l p _ Hp; three; reflexivity.
  - split; [intros p Hp; three; used|]. intros b l _ p Hp; three; used.
  - intros b l _. exists (fun m => match m with 3 => Rcv num End | _ => Snd num End end). split; [|reflexivity].
    intros i Hi. assert (i = 1 \/ i = 2) as [-> | ->] by lia; reflexivity.
  - intros p i H. cbn in H. repeat (destruct H as [H|H]; [injection H as <- <-; discriminate|]). destruct H.
  - rewrite E1, E2, E3. split; [cbn; auto|]. split; [cbn; auto|]. split; [|unfold bresults3; congruence].
    intros v H. cbn in H. repeat (destruct H as [H|H]; [try discriminate; injection H as <-; reflexivity|]). destruct H.
Qed.
Print Assumptions function_by_first_refuted.
