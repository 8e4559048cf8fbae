(** C71: hand-written types, with enum and with binary choices. If nobody crashes nothing fails and everything sent is received;
    the number of steps is bounded by the types of the rounds begun. Theorems about the concrete machines of Session.v, Mesh.v and
    BinMesh.v. *)
From Coq Require Import List Arith Bool Lia.
From Verif Require Import Types Wiring WiringProofs Session Mesh MeshSpec Global OrderSpec TidySpec Properties_Mesh Properties_Global Properties_Order
  Properties_Schedule Proto Corpus Properties_Corpus OrderEnd Properties_OrderFair OrderFinish OrderBound MeshGlobal BinMesh BinSpec BinSim BinReach BinProps BinOk
  ThreeMesh BinThree FuncMesh BinFunc Properties_Bin Properties_BinThree Properties_BinFunc.
Import ListNotations.

(** * Sessions with enums *)

(** Any number of roles, any types that can be put in an order and drop no session in use, any schedule, values and branches, and no
    crash: whoever has returned has returned Ok. When nothing more can happen everybody has returned Ok, and everybody has received
    everything that was sent to it, in every round. *)
Theorem ordered_no_failure : forall n branch labels strict T tr st,
  tidy_types n branch labels T -> all_ordered n branch labels T -> steps_h n branch labels strict T tr st -> crash_free tr ->
  (forall p r, 1 <= p <= n -> result_of st p = Some r -> r = ROk) /\
  ((forall p i, i <> ICrash -> exec heap_ops n branch labels strict p i st = None) ->
   (forall p, 1 <= p <= n -> result_of st p = Some ROk) /\
   forall g p q, 1 <= p <= n -> 1 <= q <= n -> p <> q -> ins (evs g q (t_log (st_thr st p))) = outs (evs g p (t_log (st_thr st q)))).
Proof.
  intros n branch labels strict T tr st TT HO H NC. pose proof TT as (T1 & T2 & B).
  assert (D2 : forall b l, l < labels b -> dual_mesh n (branch b l)) by (intros b l Hl; apply B, Hl).
  assert (Hok : forall p r, 1 <= p <= n -> result_of st p = Some r -> r = ROk).
  { intros p r Hp Hr. unfold result_of in Hr. destruct (t_prog (st_thr st p)) as [| | |r0|] eqn:E; try discriminate. injection Hr as ->.
    exact (quiet_ok n branch labels strict D2 (fun b l Hl => proj2 (B b l Hl)) T T1 T2 tr st H NC p r Hp E). }
  split; [exact Hok|]. intros Hn.
  destruct (ordered_progress n branch labels strict T tr st (conj T1 D2) HO H) as [Hf|(p & i & st' & _ & Hi & E)]; [|rewrite (Hn p i Hi) in E; discriminate].
  split; [|exact (over_received n branch labels strict T TT tr st H NC Hf)].
  intros p Hp. destruct (Hf p Hp) as [[r Hr] _]. assert (E : result_of st p = Some r) by (unfold result_of; rewrite Hr; reflexivity).
  rewrite (Hok p r Hp E) in E. exact E.
Qed.
Print Assumptions ordered_no_failure.

(** How long a session runs. Any pairwise dual types, any schedule, any crashes; the types need not have an order. One list of choices
    explains what all roles did; it has one entry for each choice made. All roles together have made no more steps than the rounds of
    that list cost: 4 for each channel, and 3 n times the lengths of the stacks plus 2 n + 4. *)
Theorem session_length : forall n branch labels strict T tr st, dual_types n branch labels T -> steps_h n branch labels strict T tr st ->
  exists hist, faithful n branch labels T hist (fun p => t_log (st_thr st p)) /\
    length hist = length (choices_made tr) /\ length tr <= total_cost n branch T hist.
Proof.
  intros n branch labels strict T tr st D H. destruct (run_length n branch labels strict T tr st D H) as (hist & F & _ & _ & Hc & Hl). eauto.
Qed.
Print Assumptions session_length.

(** If no round that can be reached costs more than K, c choices take at most K (c + 1) steps: with finitely many choices a session,
    also one with recursion, is finite. *)
Theorem steps_per_choice : forall n branch labels strict T tr st K, dual_types n branch labels T -> all_ordered n branch labels T ->
  (forall R, reached n labels branch T R -> round_cost n R <= K) -> steps_h n branch labels strict T tr st ->
  length tr <= K * S (length (choices_made tr)).
Proof.
  intros n branch labels strict T tr st K D O HK H. destruct (run_length n branch labels strict T tr st D H) as (hist & _ & _ & Hc & Hn & Hl).
  rewrite <- Hn. etransitivity; [exact Hl|]. apply total_le. intros g Hg. apply HK. eapply hist_reached; eauto.
Qed.
Print Assumptions steps_per_choice.

(** Types without recursion: the bound can be computed. *)
Theorem session_bounded : forall n branch labels strict T fuel N tr st, dual_types n branch labels T -> all_ordered n branch labels T ->
  longest_run fuel n branch labels T = Some N -> steps_h n branch labels strict T tr st -> length tr <= N.
Proof.
  intros n branch labels strict T fuel N tr st D O E H. destruct (run_length n branch labels strict T tr st D H) as (hist & _ & _ & Hc & _ & Hl).
  etransitivity; [exact Hl|]. exact (longest_run_cost fuel n branch labels T N E hist (Hc O)).
Qed.
Print Assumptions session_bounded.

(** And there is one for all types without recursion. *)
Theorem unwinding_bounded : forall n branch labels T, dual_types n branch labels T -> all_ordered n branch labels T -> unwinds n branch labels T ->
  exists N, forall strict tr st, steps_h n branch labels strict T tr st -> length tr <= N.
Proof. exact run_bounded. Qed.
Print Assumptions unwinding_bounded.

(** The 22 protocols of examples/ and tests/ without recursion: no session makes more than 402 steps, whatever happens. *)
(** Specification only. *)
Definition bound_of (P : proto) : option nat := longest_run (S (length (p_choices P))) (p_roles P) (p_branch P) (p_labels P) (p_types P).
Theorem repository_bounded : forall P strict tr st, In P all_protocols -> recursion_free P = true -> proto_steps P strict tr st -> length tr <= 402.
Proof.
  assert (K : forallb (fun P => if recursion_free P then match bound_of P with Some N => N <=? 402 | None => false end else true) all_protocols = true)
    by (vm_compute; reflexivity).
  intros P strict tr st H HR Hs. rewrite forallb_forall in K. specialize (K P H). rewrite HR in K.
  destruct (bound_of P) as [N|] eqn:E; [|discriminate]. apply Nat.leb_le in K. etransitivity; [|exact K].
  apply repository_accepted in H. eapply session_bounded; [apply accepted_dual, H|apply accepted_ordered, H|exact E|exact Hs].
Qed.
Print Assumptions repository_bounded.

(** All 69 tables, with recursion: the steps between two choices are bounded. *)
(** Specification only. *)
Definition dearest_round (P : proto) : nat :=
  fold_right Nat.max 0 (map (round_cost (p_roles P)) (p_types P :: map of_list (concat (p_choices P)))).
Theorem repository_steps_per_choice : forall P strict tr st, In P all_protocols -> proto_steps P strict tr st ->
  length tr <= dearest_round P * S (length (choices_made tr)).
Proof.
  intros P strict tr st H Hs. apply repository_accepted in H.
  apply (steps_per_choice (p_roles P) (p_branch P) (p_labels P) strict (p_types P) tr st); [apply accepted_dual, H|apply accepted_ordered, H| |exact Hs].
  assert (M : forall xs x, In x xs -> x <= fold_right Nat.max 0 xs).
  { induction xs as [|y xs IH]; intros x []; cbn [fold_right]; [lia|]. specialize (IH x H0). lia. }
  intros R HR. apply M, in_map. destruct HR as [|R p l b lab HR Hp Hx Hin Hl]; [left; reflexivity|right]. unfold p_branch, p_labels in *.
  apply in_map, in_concat. exists (nth b (p_choices P) []). split; [|apply nth_In, Hl].
  destruct (lt_dec b (length (p_choices P))) as [Hb|Hb]; [apply nth_In, Hb|]. rewrite nth_overflow in Hl by lia. cbn in Hl. lia.
Qed.
Print Assumptions repository_steps_per_choice.

(** * Sessions with binary choices *)

(** The same with RoleXtoAll and RoleAlltoX, for the methods generated for n roles, ... *)
Theorem binary_ordered_ok : forall n branch labels T tr st,
  dual_types n branch labels T -> all_usable n branch labels T ->
  all_ordered n (enum_branch branch) labels (enum_mesh T) -> brun_to n branch labels T tr st -> crash_free tr ->
  (forall p r, 1 <= p <= n -> bresult st p = Some r -> r = ROk) /\
  ((forall p i, i <> ICrash -> bnext n branch labels p i st = None) ->
   (forall p, 1 <= p <= n -> bresult st p = Some ROk) /\
   forall g p q, 1 <= p <= n -> 1 <= q <= n -> p <> q -> ins (evs g q (blog st p)) = outs (evs g p (blog st q))).
Proof.
  intros n branch labels T tr st HD. apply made_ordered_ok; [exact (generated_makes n branch labels (proj2 HD))|exact HD].
Qed.
Print Assumptions binary_ordered_ok.

(** ... the hand-written methods for three roles, ... *)
Theorem three_ordered_ok : forall branch labels fams any T tr st,
  dual_types 3 branch labels T -> all_usable 3 branch labels T ->
  all_ordered 3 (enum_branch branch) labels (enum_mesh T) -> trun_to branch labels fams any T tr st -> crash_free tr ->
  (forall p r, 1 <= p <= 3 -> bresult st p = Some r -> r = ROk) /\
  ((forall p i, i <> ICrash -> tnext branch labels fams any p i st = None) ->
   (forall p, 1 <= p <= 3 -> bresult st p = Some ROk) /\
   forall g p q, 1 <= p <= 3 -> 1 <= q <= 3 -> p <> q -> ins (evs g q (blog st p)) = outs (evs g p (blog st q))).
Proof.
  intros branch labels fams any T tr st HD. apply made_ordered_ok; [exact (fams_make branch labels fams (proj2 HD))|exact HD].
Qed.
Print Assumptions three_ordered_ok.

(** ... and the functions for the last role. *)
Theorem function_ordered_ok : forall n branch labels fn T tr st,
  dual_types n branch labels T -> all_usable n branch labels T ->
  all_ordered n (enum_branch branch) labels (enum_mesh T) -> frun_to n branch labels fn T tr st -> crash_free tr ->
  (forall p r, 1 <= p <= n -> bresult st p = Some r -> r = ROk) /\
  ((forall p i, i <> ICrash -> fnext n branch labels fn p i st = None) ->
   (forall p, 1 <= p <= n -> bresult st p = Some ROk) /\
   forall g p q, 1 <= p <= n -> 1 <= q <= n -> p <> q -> ins (evs g q (blog st p)) = outs (evs g p (blog st q))).
Proof.
  intros n branch labels fn T tr st HD. apply made_ordered_ok; [exact (function_makes n branch labels fn (proj2 HD))|exact HD].
Qed.
Print Assumptions function_ordered_ok.

(** The bounds hold too, whoever crashes. *)
Lemma made_within : forall n branch labels make any T fuel N tr st, makes n branch labels make -> dual_types n branch labels T ->
  all_ordered n (enum_branch branch) labels (enum_mesh T) -> longest_run fuel n (enum_branch branch) labels (enum_mesh T) = Some N ->
  mrun_to n branch labels make any T tr st -> length tr <= N.
Proof.
  intros n branch labels make any T fuel N tr st MK HD HO E H. destruct (made_is_enum n branch labels make any T tr st MK H) as (tr' & sl & Hs & _ & _ & Hl).
  pose proof (session_bounded n _ labels false _ fuel N tr' sl (enum_dual n branch labels T HD) HO E Hs). lia.
Qed.
Theorem binary_bounded : forall n branch labels T fuel N tr st, dual_types n branch labels T ->
  all_ordered n (enum_branch branch) labels (enum_mesh T) -> longest_run fuel n (enum_branch branch) labels (enum_mesh T) = Some N ->
  brun_to n branch labels T tr st -> length tr <= N.
Proof. intros n branch labels T fuel N tr st HD. apply made_within; [exact (generated_makes n branch labels (proj2 HD))|exact HD]. Qed.
Print Assumptions binary_bounded.
Theorem three_bounded : forall branch labels fams any T fuel N tr st, dual_types 3 branch labels T ->
  all_ordered 3 (enum_branch branch) labels (enum_mesh T) -> longest_run fuel 3 (enum_branch branch) labels (enum_mesh T) = Some N ->
  trun_to branch labels fams any T tr st -> length tr <= N.
Proof. intros branch labels fams any T fuel N tr st HD. apply made_within; [exact (fams_make branch labels fams (proj2 HD))|exact HD]. Qed.
Print Assumptions three_bounded.
Theorem function_bounded : forall n branch labels fn T fuel N tr st, dual_types n branch labels T ->
  all_ordered n (enum_branch branch) labels (enum_mesh T) -> longest_run fuel n (enum_branch branch) labels (enum_mesh T) = Some N ->
  frun_to n branch labels fn T tr st -> length tr <= N.
Proof. intros n branch labels fn T fuel N tr st HD. apply made_within; [exact (function_makes n branch labels fn (proj2 HD))|exact HD]. Qed.
Print Assumptions function_bounded.

(** * Examples *)

(** The types [vod] of Properties_Bin.v (tests/baking_mod/macros_baking/macro_multi_choice.rs:27-94): their run [vod_run] has 60
    steps, and 330 is the bound of [binary_bounded]. *)
Example vod_longest : longest_run 2 3 (enum_branch vod_branch) two (enum_mesh vod) = Some 330 /\ length vod_run = 60.
Proof. split; vm_compute; reflexivity. Qed.
Example vod_never_longer : forall tr st, brun_to 3 vod_branch two vod tr st -> length tr <= 330.
Proof. intros tr st. exact (binary_bounded 3 vod_branch two vod 2 330 tr st vod_dual vod_ordered (proj1 vod_longest)). Qed.

(** Role 3 chooses: on the left all three send at once (the types [carousel] of Properties_Order.v, which are no projection), on the
    right they close. *)
Definition wheel : nat -> mty := fun p =>
  match p with
  | 1 => ([End; Rcv (PChoice 0 1) End], SAllTo 3 SEnd SEnd)
  | 2 => ([End; Rcv (PChoice 0 2) End], SAllTo 3 SEnd SEnd)
  | _ => ([Snd (PChoice 0 1) End; Snd (PChoice 0 2) End], SToAll 3 (SRole 1 (SRole 2 SEnd)) SEnd)
  end.
Definition wheel_branch (b l : nat) : nat -> mty := match l with 0 => carousel | _ => bye end.
Example wheel_dual : dual_types 3 wheel_branch two wheel.
Proof. split; [all_pairs|]. intros b [|l] _; all_pairs. Qed.
Example wheel_usable : all_usable 3 wheel_branch two wheel.
Proof. split; [intros p Hp; three; used|]. intros b [|l] _ p Hp; three; used. Qed.
Example wheel_ordered : all_ordered 3 (enum_branch wheel_branch) two (enum_mesh wheel).
Proof. apply (check_all_ordered 3 _ two [0]). vm_compute. reflexivity. Qed.
Definition wheel_run : list (nat * inp) :=
  [(3, ILabel 0)] ++ tau 3 7 ++ tau 1 5 ++ tau 2 5 ++ [(1, IVal 5); (2, IVal 6); (3, IVal 7)] ++ tau 1 4 ++ tau 2 5 ++ tau 3 11 ++ tau 1 7 ++ tau 2 6.
Definition wheel_end :=
  ([EvRecv 0 3 (VLabel 0 0 1); EvSend 1 2 (VData 0 5); EvRecv 1 3 (VData 0 7); EvClose],
   [EvRecv 0 3 (VLabel 0 0 2); EvSend 1 3 (VData 0 6); EvRecv 1 1 (VData 0 5); EvClose],
   [EvSend 0 1 (VLabel 0 0 1); EvSend 0 2 (VLabel 0 0 2); EvSend 1 1 (VData 0 7); EvRecv 1 2 (VData 0 6); EvClose],
   (Some ROk, Some ROk, Some ROk)).
Example wheel_runs : crash_free wheel_run /\
  (exists st, brun_to 3 wheel_branch two wheel wheel_run st /\ (blogs3 st, bresults3 st) = wheel_end) /\
  exists st, frun_to 3 wheel_branch two always wheel wheel_run st /\ (blogs3 st, bresults3 st) = wheel_end.
Proof.
  split; [|split].
  - intros p i H. cbn in H. repeat (destruct H as [H|H]; [injection H as <- <-; discriminate|]). destruct H.
  - apply boutcome_run. vm_compute. reflexivity.
  - apply mgo_run. vm_compute. reflexivity.
Qed.
Example wheel_longest : longest_run 2 3 (enum_branch wheel_branch) two (enum_mesh wheel) = Some 276 /\ length wheel_run = 54.
Proof. split; vm_compute; reflexivity. Qed.

(** With recursion ([turn] of Properties_Order.v) the bound is one for each choice. *)
Example turn_per_choice : forall strict tr st, steps_h 3 turns two strict turn tr st -> length tr <= 174 * S (length (choices_made tr)).
Proof.
  intros strict tr st. apply (steps_per_choice 3 turns two strict turn tr st 174 turn_dual turn_ordered).
  intros R HR. destruct HR as [|R p l b lab HR Hp Hs Hin Hl]; [vm_compute; lia|]. destruct lab as [|lab]; vm_compute; lia.
Qed.
