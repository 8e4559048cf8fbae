(** * C42: programs with generated types

    The generator (Nuscr.v, NuscrText.v) and the machine (Mesh.v) together: the
    types generated for a protocol, without their times, are the projections of
    that protocol, so that the roles that follow them cannot get stuck. *)

From Coq Require Import Ascii String Arith Bool Lia Permutation List.
From Verif Require Import Types Session Mesh MeshSpec MeshExt Global Properties_Mesh Properties_Global.
From Verif Require Import Checker CheckerText CheckerAll Nuscr NuscrSpec NuscrFile NuscrNames NuscrText NuscrTextSpec NuscrPrint
  Properties_Nuscr NuscrGlobalSpec NuscrGlobal NuscrSystem.
Import ListNotations.
Open Scope nat_scope.
Open Scope list_scope.

(** The file generated for an accepted protocol can be read, in one way only,
    as the projections of the protocol, which is well formed for the machine. *)
Theorem generated_projections : forall title code name p ls f,
  protocol_text name p ls -> no_rec p -> clean p -> no_enum_message title p ->
  generator_text title ls = Fine f -> 2 <= length (p_roles p) ->
  let n := length (meshed_roles f) in
  let P := global_of title code (meshed_roles f) p in
  wf_protocol n (variants p) P /\
  system_as f code (variants p) (proj n (first_round P)) (branches P n) /\
  forall labels T B, system_as f code labels T B ->
    (forall b, labels b = variants p b) /\
    (forall k, 1 <= k <= n -> T k = proj n (first_round P) k) /\
    (forall b l k, l < labels b -> 1 <= k <= n -> B b l k = branches P n b l k).
Proof.
  intros title code name p ls f HT HR HC HF HG H2 n P. split; [|split].
  - exact (acc_wf title code name p ls f HT HR HC HG H2 _ (fun _ => eq_refl)).
  - exact (acc_system title code name p ls f HT HR HC HF HG H2).
  - intros labels T B Y. split; [exact (acc_labels title code name p ls f HT HR HC HG H2 labels T B Y)|].
    exact (acc_unique title code name p ls f HT HR HC HF HG H2 labels T B Y).
Qed.
Print Assumptions generated_projections.

Lemma same_next title code name p ls f labels T B strict st st' q i st1' :
  protocol_text name p ls -> no_rec p -> clean p -> no_enum_message title p ->
  generator_text title ls = Fine f -> 2 <= length (p_roles p) -> system_as f code labels T B ->
  let n := length (meshed_roles f) in
  let P := global_of title code (meshed_roles f) p in
  same n st st' -> all_chosen_ok n labels st ->
  next n labels strict P q i st' = Some st1' -> exists st1, exec heap_ops n B labels strict q i st = Some st1.
Proof.
  intros HT HR HC HF HG H2 Y n P [Es Et] C E. destruct (acc_unique title code name p ls f HT HR HC HF HG H2 labels T B Y) as [_ U].
  unfold next in E. unfold exec in *. destruct ((1 <=? q) && (q <=? n)) eqn:Eq; [|discriminate].
  apply andb_prop in Eq as [E1 E2]. apply Nat.leb_le in E1, E2. assert (1 <= q <= n) as Hq by lia.
  rewrite (tstep_ext heap_ops n B (branches P n) labels strict U q i _ _ Hq (C q Hq)), Es, (Et q Hq).
  destruct (tstep heap_ops n (branches P n) labels strict q i (st_thr st' q) (st_store st')) as [[th s1]|]; [eauto|discriminate].
Qed.

(** Progress: roles whose types are those of the file are never all waiting,
    whatever they send and choose, and whoever crashes; loops included. *)
Theorem generated_no_deadlock : forall title code name p ls f labels T B strict tr st,
  protocol_text name p ls -> no_rec p -> clean p -> no_enum_message title p ->
  generator_text title ls = Fine f -> 2 <= length (p_roles p) -> system_as f code labels T B ->
  let n := length (meshed_roles f) in
  Mesh.steps heap_ops n B labels strict (start n T) tr st ->
  all_over n st \/
  exists q i st', 1 <= q <= n /\ i <> ICrash /\ exec heap_ops n B labels strict q i st = Some st'.
Proof.
  intros title code name p ls f labels T B strict tr st HT HR HC HF HG H2 Y n H.
  destruct (acc_executes title code name p ls f HT HR HC HF HG H2 labels T B strict tr st Y H) as (st' & E & Sm & C).
  pose proof (acc_wf title code name p ls f HT HR HC HG H2 labels (acc_labels title code name p ls f HT HR HC HG H2 labels T B Y)) as W.
  destruct (global_progress n labels strict _ tr st' W E) as [A|(q & i & st1 & Hq & Hi & En)].
  - left. intros k Hk. rewrite (proj2 Sm k Hk). exact (A k Hk).
  - right. destruct (same_next title code name p ls f labels T B strict st st' q i st1 HT HR HC HF HG H2 Y Sm C En) as [st2 E2].
    eauto 8.
Qed.
Print Assumptions generated_no_deadlock.

(** If nobody crashes nothing fails; when nothing more can happen every role
    has returned Ok and received, in each round, what was sent to it. *)
Theorem generated_all_ok : forall title code name p ls f labels T B strict tr st,
  protocol_text name p ls -> no_rec p -> clean p -> no_enum_message title p ->
  generator_text title ls = Fine f -> 2 <= length (p_roles p) -> system_as f code labels T B ->
  let n := length (meshed_roles f) in
  Mesh.steps heap_ops n B labels strict (start n T) tr st -> crash_free tr ->
  (forall q r, 1 <= q <= n -> result_of st q = Some r -> r = ROk) /\
  ((forall q i, i <> ICrash -> exec heap_ops n B labels strict q i st = None) ->
   (forall q, 1 <= q <= n -> result_of st q = Some ROk) /\
   forall g q r, 1 <= q <= n -> 1 <= r <= n -> q <> r ->
     ins (evs g r (t_log (st_thr st q))) = outs (evs g q (t_log (st_thr st r)))).
Proof.
  intros title code name p ls f labels T B strict tr st HT HR HC HF HG H2 Y n H NC.
  destruct (acc_executes title code name p ls f HT HR HC HF HG H2 labels T B strict tr st Y H) as (st' & E & Sm & C).
  pose proof (acc_wf title code name p ls f HT HR HC HG H2 labels (acc_labels title code name p ls f HT HR HC HG H2 labels T B Y)) as W.
  destruct (no_crash_all_ok n labels strict _ tr st' W E NC) as [K1 K2]. split.
  - intros q r Hq. unfold result_of. rewrite (proj2 Sm q Hq). exact (K1 q r Hq).
  - intros Hm. destruct K2 as [K2 K3].
    + intros q i Hi. destruct (next n labels strict _ q i st') as [st1|] eqn:En; [|reflexivity]. exfalso.
      destruct (same_next title code name p ls f labels T B strict st st' q i st1 HT HR HC HF HG H2 Y Sm C En) as [st2 E2].
      pose proof (Hm q i Hi) as Hx. unfold n in Hx. congruence.
    + split.
      * intros q Hq. unfold result_of. rewrite (proj2 Sm q Hq). exact (K2 q Hq).
      * intros g q r Hq Hr Hne. rewrite (proj2 Sm q Hq), (proj2 Sm r Hr). exact (K3 g q r Hq Hr Hne).
Qed.
Print Assumptions generated_all_ok.

(** If no branch goes back to the loop, all executions are shorter than one
    bound. *)
Theorem generated_terminates : forall title code name p ls f labels T B,
  protocol_text name p ls -> no_rec p -> clean p -> no_enum_message title p ->
  generator_text title ls = Fine f -> 2 <= length (p_roles p) -> system_as f code labels T B ->
  (forall l, part p (Some l) -> part_choice p (Some l) = None) ->
  let n := length (meshed_roles f) in
  exists bound, forall strict tr st,
    Mesh.steps heap_ops n B labels strict (start n T) tr st -> length tr <= bound.
Proof.
  intros title code name p ls f labels T B HT HR HC HF HG H2 Y HL n.
  pose proof (acc_labels title code name p ls f HT HR HC HG H2 labels T B Y) as El.
  set (P := global_of title code (meshed_roles f) p).
  set (size := fun _ : nat => list_max (map (fun l => length (part_messages p (Some l)) + 2 * n) (seq 0 (variants p 0)))).
  exists (longest n size P). intros strict tr st H.
  destruct (acc_executes title code name p ls f HT HR HC HF HG H2 labels T B strict tr st Y H) as (st' & E & _).
  pose proof (acc_wf title code name p ls f HT HR HC HG H2 labels El) as W.
  refine (proj1 (finite_protocols_terminate n labels strict P size tr st' W _ E)).
  intros b l Hl. rewrite El in Hl. destruct b as [|b]; [|cbn in Hl; lia].
  unfold weight. cbn [P global_of Global.body round_of fst snd]. rewrite (HL l (proj2 (acc_part_variant p H2 l) Hl)). cbn [finale_of].
  rewrite map_length.
  assert (forall xs x, In x xs -> x <= list_max xs) as K.
  { intros xs x Hx. pose proof (proj1 (list_max_le xs (list_max xs)) (Nat.le_refl _)) as Q. rewrite Forall_forall in Q. auto. }
  apply K. apply in_map_iff. exists l. split; [reflexivity|]. apply in_seq. lia.
Qed.
Print Assumptions generated_terminates.

(** ** Example: the protocol of Properties_Nuscr.v with a loop and a choice *)

Lemma looping_no_enum : no_enum_message idt looping.
Proof.
  intros i m Hi Hm s r E. assert (match label m with c :: _ => c | [] => " "%char end = "C"%char) as K
    by (unfold idt in E; rewrite E; reflexivity).
  destruct i as [i|]; [destruct i as [|[|[|i]]]; [| | |cbn in Hi; lia]|]; cbn in Hm;
    repeat (destruct Hm as [<-|Hm]; [discriminate K|]); destruct Hm.
Qed.

(** The types of A (role 1) in the generated file, without time: it sends Init
    and Ask to B, then chooses. *)
Example looping_system : exists f,
  protocol_text (lit "P") looping (print (lit "P") looping) /\ no_rec looping /\ clean looping /\
  generator_text idt (print (lit "P") looping) = Fine f /\ 2 <= length (p_roles looping) /\
  let P := global_of idt (@length ascii) (meshed_roles f) looping in
  system_as f (@length ascii) (variants looping) (proj 3 (first_round P)) (branches P 3) /\
  proj 3 (first_round P) 1 =
    ([Snd (PVal 4) (Snd (PVal 3) (Snd (PChoice 0 2) End)); Snd (PChoice 0 3) End],
     SRole 2 (SRole 2 SBroadcast)) /\
  branches P 3 0 0 2 =
    ([Rcv (PVal 4) (Rcv (PVal 3) (Rcv (PChoice 0 2) End)); Snd (PVal 4) End],
     SRole 1 (SRole 1 (SRole 3 (SRole 1 Types.SEnd)))) /\
  exists st, Mesh.steps heap_ops 3 (branches P 3) (variants looping) true (start 3 (proj 3 (first_round P)))
    [(1, IVal 7); (2, ITau); (1, IVal 8); (2, ITau); (2, IVal 9); (3, ITau);
     (1, ILabel 0); (1, ITau)] st.
Proof.
  destruct (generator_text idt (print (lit "P") looping)) as [f| | |] eqn:E; [|vm_compute in E; discriminate..].
  destruct looping_accepted as (A1 & A2 & _ & A3 & _). assert (2 <= length (p_roles looping)) as A4 by (cbn; lia).
  exists f. do 3 (split; [assumption|]). split; [reflexivity|]. split; [assumption|]. intros P.
  destruct (generated_projections idt (@length ascii) (lit "P") looping _ f A1 A2 A3 looping_no_enum E A4) as (_ & Y & _).
  assert (meshed_roles f = [lit "A"; lit "B"; lit "C"]) as Em by (vm_compute in E; injection E as <-; reflexivity).
  subst P. rewrite Em in *. cbn [length] in Y. split; [exact Y|]. split; [reflexivity|]. split; [reflexivity|].
  eexists. repeat (eapply Mesh.steps_cons; [vm_compute; reflexivity|]). apply Mesh.steps_nil.
Qed.
