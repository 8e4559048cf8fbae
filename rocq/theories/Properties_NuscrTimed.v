(** * C48: programs with generated types and their windows

    The generator (Nuscr.v, NuscrText.v) and the timed machine (TimedMesh.v)
    together: the windows in the generated types are those of the messages of
    the protocol, and roles that follow the generated types, late or not,
    crashing or not, never wait for each other for ever. *)

From Coq Require Import Ascii String ZArith Arith Bool Lia List.
From Verif Require Import Types Wiring Session Mesh MeshSpec MeshExt MeshWait Global Timed TimedMesh TimedMeshProofs TimedMeshWindows
  Properties_Mesh Properties_Global Properties_TimedMesh.
From Verif Require Import Checker CheckerText CheckerAll Nuscr NuscrSpec NuscrFile NuscrNames NuscrText NuscrTextSpec NuscrPrint
  Properties_Nuscr NuscrGlobalSpec NuscrGlobal NuscrSystem Properties_NuscrGlobal NuscrTimedSpec NuscrTimedProofs.
Import ListNotations.
Open Scope nat_scope.
Open Scope list_scope.

(** The windows of the file generated for an accepted protocol can be read in
    one way only: as those of the messages of the protocol, field by field, in
    order. *)
Theorem generated_windows : forall title code name p ls f,
  protocol_text name p ls -> no_rec p -> clean p -> no_enum_message title p ->
  generator_text title ls = Fine f -> 2 <= length (p_roles p) -> letter_clocks p ->
  let n := length (meshed_roles f) in
  let P := global_of title code (meshed_roles f) p in
  timed_system_as f code (variants p) (proj n (first_round P)) (branches P n)
    (role_windows (meshed_roles f) p None) (fun _ l => role_windows (meshed_roles f) p (Some l)) /\
  forall labels T B W BW, timed_system_as f code labels T B W BW ->
    (forall k, 1 <= k <= n -> W k = role_windows (meshed_roles f) p None k) /\
    (forall b l k, l < labels b -> 1 <= k <= n -> BW b l k = role_windows (meshed_roles f) p (Some l) k).
Proof.
  intros title code name p ls f HT HR HC HF HG H2 HL n P. split.
  - exact (tim_system title code name p ls f HT HR HC HF HG H2 HL).
  - intros labels T B W BW Y. exact (tim_unique title code name p ls f HT HR HC HG H2 HL labels T B W BW Y).
Qed.
Print Assumptions generated_windows.

(** Progress: roles with the types and the windows of the file are never all
    waiting, whatever their clocks show, whoever is late and whoever crashes. *)
Theorem generated_timed_no_deadlock : forall title code name p ls f labels T B W BW now tr st,
  protocol_text name p ls -> no_rec p -> clean p -> no_enum_message title p ->
  generator_text title ls = Fine f -> 2 <= length (p_roles p) -> timed_system_as f code labels T B W BW ->
  let n := length (meshed_roles f) in
  tsteps heap_ops n B BW labels now (tstart n T W) tr st ->
  (forall k, 1 <= k <= n -> tover st k) \/
  exists k i st', 1 <= k <= n /\ i <> ICrash /\ texec heap_ops n B BW labels now k (TIn i) st = Some st'.
Proof.
  intros title code name p ls f labels T B W BW now tr st HT HR HC HF HG H2 Y n H.
  destruct (tsteps_erase heap_ops n B BW labels now _ _ _ H (start n T) (erase_init _ _ _ _ _)) as (jr & su & Hj & A & _).
  destruct (generated_no_deadlock title code name p ls f labels T B true jr su HT HR HC HF HG H2 (tsys_types _ _ _ _ _ _ _ Y) Hj)
    as [HA|(k & j & su' & Hk & Hjc & En)].
  - left. exact (agree_over n st su A HA).
  - right. destruct (texec_enabled heap_ops n B BW labels now k j st su su' A Hjc En) as (i & st' & Hi & E). exists k, i, st'. auto.
Qed.
Print Assumptions generated_timed_no_deadlock.

(** If every operation is made in its window nothing fails; when nothing more
    can happen every role has returned Ok and received what was sent to it. *)
Theorem generated_timed_on_time : forall title code name p ls f labels T B W BW now tr st,
  protocol_text name p ls -> no_rec p -> clean p -> no_enum_message title p ->
  generator_text title ls = Fine f -> 2 <= length (p_roles p) -> timed_system_as f code labels T B W BW ->
  let n := length (meshed_roles f) in
  punctual heap_ops n B BW labels now (tstart n T W) tr st ->
  (forall k r, 1 <= k <= n -> tresult st k = Some r -> r = ROk) /\
  ((forall k i, i <> ICrash -> texec heap_ops n B BW labels now k (TIn i) st = None) ->
   (forall k, 1 <= k <= n -> tresult st k = Some ROk) /\
   forall g k q, 1 <= k <= n -> 1 <= q <= n -> k <> q ->
     ins (evs g q (tlog st k)) = outs (evs g k (tlog st q))).
Proof.
  intros title code name p ls f labels T B W BW now tr st HT HR HC HF HG H2 Y n H.
  destruct (punctual_erase heap_ops n B BW labels now _ _ _ H (start n T) (erase_init _ _ _ _ _) (init_calm _ _ _ _ _))
    as (jr & su & Hj & A & NC & _).
  destruct (generated_all_ok title code name p ls f labels T B true jr su HT HR HC HF HG H2 (tsys_types _ _ _ _ _ _ _ Y) Hj NC)
    as [K1 K2]. fold n in K1, K2. split.
  - intros k r Hk Hr. apply (K1 k r Hk). rewrite (agree_result _ _ k A). exact Hr.
  - intros Hmax. destruct K2 as [K2 K3].
    + intros k j Hjc. destruct (exec heap_ops n B labels true k j su) as [su'|] eqn:En; [|reflexivity]. exfalso.
      destruct (texec_enabled heap_ops n B BW labels now k j st su su' A Hjc En) as (i & st' & Hi & E).
      pose proof (Hmax k i Hi) as Hx. congruence.
    + split.
      * intros k Hk. rewrite <- (agree_result _ _ k A). exact (K2 k Hk).
      * intros g k q Hk Hq Hne. unfold tlog. pose proof (K3 g k q Hk Hq Hne) as K. rewrite <- !(proj2 A) in K. exact K.
Qed.
Print Assumptions generated_timed_on_time.

(** The windows stay in step with the sessions. *)
Lemma generated_aligned title code name p ls f labels T B W BW now tr st :
  protocol_text name p ls -> no_rec p -> clean p -> no_enum_message title p ->
  generator_text title ls = Fine f -> 2 <= length (p_roles p) -> letter_clocks p ->
  timed_system_as f code labels T B W BW ->
  let n := length (meshed_roles f) in
  tsteps heap_ops n B BW labels now (tstart n T W) tr st ->
  forall k, 1 <= k <= n -> aligned labels (from_message title code p f) k (ts_thr st k).
Proof.
  intros HT HR HC HF HG H2 HL Y n H.
  pose proof (acc_labels title code name p ls f HT HR HC HG H2 labels T B (tsys_types _ _ _ _ _ _ _ Y)) as El.
  destruct (acc_unique title code name p ls f HT HR HC HF HG H2 labels T B (tsys_types _ _ _ _ _ _ _ Y)) as [U1 U2].
  destruct (tim_unique title code name p ls f HT HR HC HG H2 HL labels T B W BW Y) as [V1 V2].
  refine (tsteps_aligned heap_ops n B BW labels now (from_message title code p f) _ _ _ _ H _).
  - intros b l k Hl Hk. rewrite (U2 b l k Hl Hk), (V2 b l k Hl Hk). unfold branches. cbn [global_of Global.body].
    apply (tim_covered title code name p ls f HT HR HC HG H2); [|exact Hk].
    apply (acc_part_variant p H2 l). rewrite El in Hl. destruct b; [exact Hl|cbn in Hl; lia].
  - apply tinit_aligned. intros k Hk. fold n in U1, V1. rewrite (U1 k Hk), (V1 k Hk).
    exact (tim_covered title code name p ls f HT HR HC HG H2 None k Logic.I Hk).
Qed.

Lemma window_free : no_window = free_window.
Proof. reflexivity. Qed.

(** What role [a] does next with role [b], however far the execution is, is
    done in the window of a message of the protocol between [a] and [b] with
    the same payload, or without bounds if it is the choice. *)
Theorem generated_next_window : forall title code name p ls f labels T B W BW now tr st k a ss x b r hs,
  protocol_text name p ls -> no_rec p -> clean p -> no_enum_message title p ->
  generator_text title ls = Fine f -> 2 <= length (p_roles p) -> letter_clocks p ->
  timed_system_as f code labels T B W BW ->
  let n := length (meshed_roles f) in
  tsteps heap_ops n B BW labels now (tstart n T W) tr st ->
  role_number f k a -> role_number f x b -> a <> b ->
  t_prog (tm_thr (ts_thr st k)) = PRun ss (SRole x r) hs ->
  match nth_error ss (comm_field k x - 1) with
  | Some (Snd (PVal t) _) => exists i m, part p i /\ In m (part_messages p i) /\ sender m = a /\ receiver m = b /\
      t = code (title (label m)) /\ next_window k (ts_thr st k) = Some (window_of m)
  | Some (Rcv (PVal t) _) => exists i m, part p i /\ In m (part_messages p i) /\ sender m = b /\ receiver m = a /\
      t = code (title (label m)) /\ next_window k (ts_thr st k) = Some (window_of m)
  | Some (Snd (PChoice _ _) _) | Some (Rcv (PChoice _ _) _) => next_window k (ts_thr st k) = Some no_window
  | _ => True
  end.
Proof.
  intros title code name p ls f labels T B W BW now tr st k a ss x b r hs HT HR HC HF HG H2 HL Y n H Hk Hx Hab Ep.
  assert (1 <= k <= n) as Hkn.
  { destruct Hk as [Hk E]. split; [exact Hk|]. assert (k - 1 < length (meshed_roles f)) by (apply nth_error_Some; congruence). subst n. lia. }
  pose proof (generated_aligned title code name p ls f labels T B W BW now tr st HT HR HC HF HG H2 HL Y H k Hkn) as A.
  unfold aligned in A. rewrite Ep in A. destruct (nth_error ss (comm_field k x - 1)) as [s|] eqn:En; [|exact Logic.I].
  pose proof (covered_nth _ _ _ _ _ _ _ A En) as C. cbn [Nat.add] in C.
  unfold next_window. rewrite Ep. unfold head_window.
  pose proof (tim_field title name p ls f HT HR HC HG H2 k x a b Hk Hx Hab) as Ef.
  destruct s as [|[t|b0 j] s|[t|b0 j] s]; [exact Logic.I|..]; cbn [covers] in C;
    destruct (nth (comm_field k x - 1) (tm_wins (ts_thr st k)) []) as [|w ws]; try contradiction; cbn [hd]; destruct C as [C _].
  - destruct C as (a' & b' & Ea & Eb & i & m & Hi & Hm & -> & -> & E1 & E2).
    destruct Hk as [_ Hk]. rewrite Hk in Ea. injection Ea as <-. rewrite Ef in Eb. injection Eb as <-.
    exists i, m. auto 8.
  - now subst w.
  - destruct C as (a' & b' & Ea & Eb & i & m & Hi & Hm & -> & -> & E1 & E2).
    destruct Hk as [_ Hk]. rewrite Hk in Ea. injection Ea as <-. rewrite Ef in Eb. injection Eb as <-.
    exists i, m. auto 8.
  - now subst w.
Qed.
Print Assumptions generated_next_window.

(** Every message of a protocol has an upper bound, so a role that waits for a
    message can give up.  Only who waits for the choice of another role, and
    who waits in close for the others to close, depends on somebody else. *)
Theorem generated_timed_waits : forall title code name p ls f labels T B W BW now tr st k,
  protocol_text name p ls -> no_rec p -> clean p -> no_enum_message title p ->
  generator_text title ls = Fine f -> 2 <= length (p_roles p) -> letter_clocks p ->
  timed_system_as f code labels T B W BW ->
  let n := length (meshed_roles f) in
  tsteps heap_ops n B BW labels now (tstart n T W) tr st -> 1 <= k <= n ->
  tover st k \/
  (exists i st', i <> TIn ICrash /\ texec heap_ops n B BW labels now k i st = Some st') \/
  (exists x ss r hs b, 1 <= x <= n /\ x <> k /\ t_prog (tm_thr (ts_thr st k)) = PRun ss (SRole x r) hs /\
     nth_error ss (comm_field k x - 1) = Some (Rcv (PChoice b k) End)) \/
  MeshWait.closing n (tm_thr (ts_thr st k)).
Proof.
  intros title code name p ls f labels T B W BW now tr st k HT HR HC HF HG H2 HL Y n H Hk.
  destruct (tsteps_erase heap_ops n B BW labels now _ _ _ H (start n T) (erase_init _ _ _ _ _)) as (jr & su & Hj & A & _).
  pose proof (tsys_types _ _ _ _ _ _ _ Y) as Y0.
  destruct (acc_executes title code name p ls f HT HR HC HF HG H2 labels T B true jr su Y0 Hj) as (su0 & E0 & Sm & Co).
  pose proof (acc_wf title code name p ls f HT HR HC HG H2 labels (acc_labels title code name p ls f HT HR HC HG H2 labels T B Y0)) as Wf.
  pose proof (proj2 Sm k Hk) as Es. pose proof (proj2 A k) as Ea. cbn in Ea.
  destruct (waits_only_in_receive_or_close n labels true _ jr su0 k Wf E0 Hk) as [[[r Er] Et]|[(j & su1 & Hjc & En)|[(x & Hx & Hr)|Hc]]].
  - left. rewrite <- Es, <- Ea in Er, Et. split; [exists r; unfold tresult; rewrite Er; reflexivity|exact Et].
  - right. left.
    destruct (same_next title code name p ls f labels T B true su su0 k j su1 HT HR HC HF HG H2 Y0 Sm Co En) as [su2 E2].
    destruct (texec_enabled heap_ops n B BW labels now k j st su su2 A Hjc E2) as (i & st' & Hi & E).
    exists (TIn i), st'. split; [congruence|exact E].
  - rewrite <- Es, <- Ea in Hr. right. pose proof Hr as (_ & ss & r & hs & q & s & Ep & Hxk & En & Hq).
    destruct q as [t|b j].
    + left.
      assert (0 <= w_end (head_window (comm_field k x - 1) (tm_wins (ts_thr st k))))%Z as He.
      { destruct (acc_number title code name p ls f HT HR HC HG H2 k Hk) as (a & Ha & _).
        destruct (acc_number title code name p ls f HT HR HC HG H2 x Hx) as (b & Hb & _).
        assert (a <> b) as Hab.
        { intros <-. apply Hxk. exact (acc_role_number title name p ls f HT HR HC HG x k a Hb Ha). }
        pose proof (generated_next_window title code name p ls f labels T B W BW now tr st k a ss x b r hs HT HR HC HF HG H2 HL Y H
                      Ha Hb Hab Ep) as K.
        rewrite En in K. destruct K as (i & m & Hi & Hm & _ & _ & _ & K). unfold next_window in K. rewrite Ep in K. injection K as ->.
        destruct (tim_readable name p ls HT HL i m Hi Hm) as (_ & Hrb & _). cbn [window_of w_end].
        apply natural_const, Hrb. }
      assert (Hb : (1 <=? k) && (k <=? n) = true) by (apply andb_true_iff; rewrite !Nat.leb_le; lia).
      unfold texec. rewrite Hb.
      destruct (receiving_moves heap_ops n B BW labels now k x (ts_thr st k) (ts_store st) Hr Hx He) as [M|M].
      * exists (TIn ITau). destruct (ttstep _ _ _ _ _ _ k (TIn ITau) _ _) as [[tt s0]|]; [|contradiction]. eexists. split; [discriminate|reflexivity].
      * exists TTimeout. destruct (ttstep _ _ _ _ _ _ k TTimeout _ _) as [[tt s0]|]; [|contradiction]. eexists. split; [discriminate|reflexivity].
    + right. left. destruct Hq as [-> ->]. exists x, ss, r, hs, b. auto.
  - right. right. right. rewrite <- Es, <- Ea in Hc. exact Hc.
Qed.
Print Assumptions generated_timed_waits.

(** ** Example: the protocol of Properties_Nuscr.v with a loop and a choice *)

Lemma looping_letters : letter_clocks looping.
Proof.
  intros i m Hi Hm.
  destruct i as [i|]; [destruct i as [|[|[|i]]]; [| | |cbn in Hi; lia]|]; cbn in Hm;
    repeat (destruct Hm as [<-|Hm]; [split; [eexists; reflexivity|discriminate]|]); destruct Hm.
Qed.

(** A reading of the clock takes a millisecond. *)
Definition ticking (p k : nat) : Z := (Z.of_nat k * 1000000)%Z.
(** A (role 1) sends Init and Ask to B, who sends Tell to C; A chooses the
    first branch: More, then Ask and Tell again; then A chooses the third
    branch, where all end. *)
Definition looping_talk : list (nat * inp) :=
  [(1, IVal 7); (2, ITau); (1, IVal 7); (2, ITau); (2, IVal 9); (3, ITau)].
Definition looping_run : list (nat * tinp) :=
  clocks_on ++ timed_of
    (looping_talk ++ [(1, ILabel 0)] ++ tau 1 7 ++ tau 2 5 ++ tau 3 5 ++
     looping_talk ++ [(1, ILabel 2)] ++ tau 1 10 ++ tau 2 7 ++ tau 1 1 ++ tau 2 2 ++ tau 3 7 ++ tau 1 6 ++ tau 3 1 ++
     tau 2 6 ++ tau 3 7).

Definition ABC : list str := [lit "A"; lit "B"; lit "C"].
Definition looping_global : protocol := global_of idt (@length ascii) ABC looping.
Definition looping_W : nat -> list (list window) := role_windows ABC looping None.
Definition looping_BW (_ l : nat) : nat -> list (list window) := role_windows ABC looping (Some l).
Definition looping_start : @tstate heap ep := tstart 3 (proj 3 (first_round looping_global)) looping_W.
Definition second_window : window := Window 97 0 true 1 true 32.

Example looping_timed : exists f st,
  protocol_text (lit "P") looping (print (lit "P") looping) /\ no_rec looping /\ clean looping /\
  no_enum_message idt looping /\ letter_clocks looping /\
  generator_text idt (print (lit "P") looping) = Fine f /\ 2 <= length (p_roles looping) /\ meshed_roles f = ABC /\
  timed_system_as f (@length ascii) (variants looping) (proj 3 (first_round looping_global)) (branches looping_global 3)
    looping_W looping_BW /\
  looping_W 2 = [[second_window; second_window; no_window]; [second_window]] /\
  looping_BW 0 0 2 = [[second_window; second_window; no_window]; [second_window]] /\
  looping_BW 0 1 3 = [[second_window]; []] /\
  punctual heap_ops 3 (branches looping_global 3) looping_BW (variants looping) ticking looping_start looping_run st /\
  (tresult st 1, tresult st 2, tresult st 3) = (Some ROk, Some ROk, Some ROk) /\
  tlog st 3 = [EvRecv 0 2 (VData 4 9); EvRecv 0 1 (VLabel 0 0 3); EvRecv 1 2 (VData 4 9); EvRecv 1 1 (VLabel 0 2 3); EvClose].
Proof.
  destruct (generator_text idt (print (lit "P") looping)) as [f| | |] eqn:E; [|vm_compute in E; discriminate..].
  destruct looping_accepted as (A1 & A2 & _ & A3 & _). assert (2 <= length (p_roles looping)) as A4 by (cbn; lia).
  assert (meshed_roles f = ABC) as Em by (vm_compute in E; injection E as <-; reflexivity).
  destruct (generated_windows idt (@length ascii) (lit "P") looping _ f A1 A2 A3 looping_no_enum E A4 looping_letters) as [Y _].
  rewrite Em in Y.
  assert (K : option_map (fun st => ((tresult st 1, tresult st 2, tresult st 3), tlog st 3))
    (prun 3 (branches looping_global 3) looping_BW (variants looping) ticking looping_start looping_run) =
    Some ((Some ROk, Some ROk, Some ROk),
      [EvRecv 0 2 (VData 4 9); EvRecv 0 1 (VLabel 0 0 3); EvRecv 1 2 (VData 4 9); EvRecv 1 1 (VLabel 0 2 3); EvClose]))
    by (vm_compute; reflexivity).
  destruct (prun 3 (branches looping_global 3) looping_BW (variants looping) ticking looping_start looping_run) as [st|] eqn:Er; [|discriminate].
  exists f, st. cbn [option_map] in K. injection K as K1 K2 K3 K4.
  do 3 (split; [assumption|]). split; [exact looping_no_enum|]. split; [exact looping_letters|]. split; [reflexivity|].
  do 2 (split; [assumption|]). split; [exact Y|]. do 3 (split; [vm_compute; reflexivity|]).
  split; [apply prun_punctual, Er|]. split; [congruence|exact K4].
Qed.

(** A has sent nothing: B waits for Init, its next window is that of Init, and
    it gives up. *)
Example looping_gives_up : exists st st1,
  tsteps heap_ops 3 (branches looping_global 3) looping_BW (variants looping) ticking looping_start clocks_on st /\
  next_window 2 (ts_thr st 2) = Some (window_of (tm "Init" None "A" "B")) /\
  texec heap_ops 3 (branches looping_global 3) looping_BW (variants looping) ticking 2 (TIn ITau) st = None /\
  texec heap_ops 3 (branches looping_global 3) looping_BW (variants looping) ticking 2 TTimeout st = Some st1 /\
  tresult st1 2 = Some RCrash.
Proof.
  destruct (trun 3 (branches looping_global 3) looping_BW (variants looping) ticking looping_start clocks_on) as [st|] eqn:Er;
    [|vm_compute in Er; discriminate].
  assert (E : match trun 3 (branches looping_global 3) looping_BW (variants looping) ticking looping_start clocks_on with
    | Some st => Some (next_window 2 (ts_thr st 2),
        match texec heap_ops 3 (branches looping_global 3) looping_BW (variants looping) ticking 2 (TIn ITau) st with Some _ => false | None => true end,
        match texec heap_ops 3 (branches looping_global 3) looping_BW (variants looping) ticking 2 TTimeout st with
        | Some st1 => tresult st1 2 | None => None end)
    | None => None end = Some (Some (window_of (tm "Init" None "A" "B")), true, Some RCrash)) by (vm_compute; reflexivity).
  rewrite Er in E. exists st.
  generalize dependent (texec heap_ops 3 (branches looping_global 3) looping_BW (variants looping) ticking 2 TTimeout st). intros o E.
  generalize dependent (texec heap_ops 3 (branches looping_global 3) looping_BW (variants looping) ticking 2 (TIn ITau) st). intros o' E.
  injection E as E1 E2 E3. destruct o as [st1|]; [|discriminate E3]. exists st1.
  split; [apply trun_steps, Er|]. split; [exact E1|]. destruct o'; [discriminate E2|]. auto.
Qed.

(** That deadlines free every role is false: the choice has none.  All the
    messages have been made, A has not chosen yet: B has not ended and can do
    nothing, not even give up, while A does not choose. *)
Theorem generated_deadlines_free_all_refuted : exists title code name p ls f labels T B W BW now tr st k,
  protocol_text name p ls /\ no_rec p /\ clean p /\ no_enum_message title p /\
  generator_text title ls = Fine f /\ 2 <= length (p_roles p) /\ letter_clocks p /\
  timed_system_as f code labels T B W BW /\
  let n := length (meshed_roles f) in
  punctual heap_ops n B BW labels now (tstart n T W) tr st /\ 1 <= k <= n /\ ~ tover st k /\
  forall i st', texec heap_ops n B BW labels now k i st = Some st' -> i = TIn ICrash \/ exists c, i = TClock c.
Proof.
  destruct looping_timed as (f & _ & A1 & A2 & A3 & A4 & A5 & A6 & A7 & Em & Y & _).
  set (tr := clocks_on ++ timed_of looping_talk).
  destruct (prun 3 (branches looping_global 3) looping_BW (variants looping) ticking looping_start tr) as [st|] eqn:Er;
    [|vm_compute in Er; discriminate].
  exists idt, (@length ascii), (lit "P"), looping, (print (lit "P") looping), f, (variants looping),
    (proj 3 (first_round looping_global)), (branches looping_global 3), looping_W, looping_BW, ticking, tr, st, 2.
  do 8 (split; [assumption|]). rewrite Em. intros n. subst n.
  split; [exact (prun_punctual _ _ _ _ _ _ _ _ Er)|]. split; [cbn; lia|].
  assert (E : match prun 3 (branches looping_global 3) looping_BW (variants looping) ticking looping_start tr with
    | Some st => Some (tresult st 2,
        t_trash (tm_thr (ts_thr st 2)), tm_dead (ts_thr st 2),
        match t_prog (tm_thr (ts_thr st 2)) with PRun ss (SRole 1 Types.SEnd) hs => Some ss | _ => None end,
        match texec heap_ops 3 (branches looping_global 3) looping_BW (variants looping) ticking 2 (TIn ITau) st with Some _ => false | None => true end,
        match texec heap_ops 3 (branches looping_global 3) looping_BW (variants looping) ticking 2 TTimeout st with Some _ => false | None => true end)
    | None => None end = Some (None, [], false, Some [Rcv (PChoice 0 2) End; End], true, true)) by (vm_compute; reflexivity).
  rewrite Er in E.
  destruct (texec heap_ops 3 (branches looping_global 3) looping_BW (variants looping) ticking 2 (TIn ITau) st) as [|] eqn:X1; [discriminate E|].
  destruct (texec heap_ops 3 (branches looping_global 3) looping_BW (variants looping) ticking 2 TTimeout st) as [|] eqn:X2; [discriminate E|].
  injection E as E1 E2 E3 E4. split.
  - intros [[r Hr] _]. congruence.
  - intros i st' Ex. change (Datatypes.length ABC) with 3 in Ex.
    destruct i as [[|v|l|]| |c]; [congruence| | |now left|congruence|right; now exists c]; exfalso.
    all: unfold texec in Ex; cbn [Nat.leb andb] in Ex; unfold ttstep in Ex; cbv zeta in Ex; rewrite E2, E3 in Ex.
    all: destruct (t_prog (tm_thr (ts_thr st 2))) as [ss [| |[|[|x]] [| |? ?|? ?|? ? ?|? ? ?]|? ?|? ? ?|? ? ?] hs| | | |]; try discriminate E4.
    all: injection E4 as ->; cbn in Ex; discriminate Ex.
Qed.
Print Assumptions generated_deadlines_free_all_refuted.
