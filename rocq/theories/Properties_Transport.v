(** C53: binary sessions over TCP and UDP. *)
From Coq Require Import List Arith Bool Lia.
From Verif Require Import Types Wiring Session Mesh MeshSpec Global Binary Properties_Mesh Properties_Global Properties_Binary Transport
  TransportMirror TransportProofs TransportLive TransportUdp.
Import ListNotations.

(** Executions of the two threads of the session type B and its dual. [tcp p k] is the flag that role p passes at
    its k-th communication of data, [close_flag p] the flag that it passes to [close_tcp]. *)
Definition tcp_executes (labels : nat -> nat) (B : binary) (tcp : nat -> nat -> bool) (close_flag : nat -> bool) (srv : net -> Prop) :=
  xruns (branches (two B) 2) labels tcp close_flag srv (xstart (proj 2 (first_round (two B)))).
Definition tcp_next (labels : nat -> nat) (B : binary) (tcp : nat -> nat -> bool) (close_flag : nat -> bool) :=
  xexec (branches (two B) 2) labels tcp close_flag.
Definition udp_executes (labels : nat -> nat) (B : binary) (udp : nat -> nat -> bool) (srv : unet -> Prop) :=
  uruns (branches (two B) 2) labels udp srv (ustart (proj 2 (first_round (two B)))).
Definition udp_next (labels : nat -> nat) (B : binary) (udp : nat -> nat -> bool) := uexec (branches (two B) 2) labels udp.

(** The k-th communication of data in a log is a send ([true]) or a receive ([false]). *)
Definition nth_comm (log : list event) (k : nat) : option bool := nth_error (data_ops log) k.

(** * The data *)

(** If the two sides pass the same flags and the server sends back what it gets, then for every session type,
    every schedule, every way in which the socket and the server cut the stream into pieces, every crash
    and every moment at which the connection breaks: what a receive returns is what the send of the peer at the
    same position was given, or 128 zeros if the flag is false. *)
Theorem tcp_echo_faithful : forall labels B tcp close_flag tr x p k d,
  (forall j, tcp 1 j = tcp 2 j) -> tcp_executes labels B tcp close_flag echo tr x -> 1 <= p <= 2 ->
  nth_comm (t_log (st_thr (x_st x) p)) k = Some false -> nth_error (x_data x p) k = Some d ->
  nth_comm (t_log (st_thr (x_st x) (peer_of p))) k = Some true /\
  if tcp p k then nth_error (x_data x (peer_of p)) k = Some d else d = zeros.
Proof.
  intros labels B tcp cf tr x p k d A H Hp Hk Hd. destruct (stream_good labels B tcp cf A tr x H) as [ms G].
  destruct (g_reach _ _ _ _ _ G) as [tr' R]. change (nth_error (dops (x_st x) p) k = Some false) in Hk.
  assert (Hl : k < length (dops (x_st x) (peer_of p))).
  { destruct (Nat.lt_ge_cases k (length (dops (x_st x) (peer_of p)))) as [X|X]; [exact X|].
    pose proof (alone labels B tr' (x_st x) p k false R Hp Hk X). discriminate. }
  pose proof (both labels B tr' (x_st x) p k false R Hp Hk Hl) as Hq. cbn in Hq. split; [exact Hq|].
  pose proof (ro_got _ _ _ _ (g_role _ _ _ _ _ G p Hp) k d Hk Hd) as X. rewrite (fl_tcp tcp A p k Hp).
  destruct (tcp 1 k); [|exact X]. rewrite (ro_sent _ _ _ _ (g_role _ _ _ _ _ G (peer_of p) (peer_in p Hp)) k Hq). exact X.
Qed.
Print Assumptions tcp_echo_faithful.

(** * Nobody waits for ever *)

(** In the same conditions and with a well-formed session type: in every reachable state, either both threads
    have returned, or one of them can go on, or the server still has something to send back. A
    write or a read fails only on a connection that is shut down. *)
Theorem tcp_echo_progress : forall labels B tcp close_flag tr x,
  wf_binary labels B -> (forall j, tcp 1 j = tcp 2 j) -> tcp_executes labels B tcp close_flag echo tr x ->
  (all_over 2 (x_st x) /\ forall p, x_io x p = IoNone) \/
  exists a x', tcp_next labels B tcp close_flag a x = Some x' /\ echo (x_net x') /\
    match a with XDo _ i _ => i <> ICrash | XFail _ => n_shut (x_net x) = true | XBreak => False | _ => True end.
Proof. intros labels B tcp cf tr x W A H. exact (xprogress labels B tcp cf A tr x W H). Qed.
Print Assumptions tcp_echo_progress.

(** Whatever the flags, the server and the crashes: as long as the connection does not break by itself, no [close_tcp]
    shuts it down while the other thread is writing or reading, so no write and no read fails. *)
Theorem close_tcp_waits : forall labels B tcp close_flag srv tr x p,
  tcp_executes labels B tcp close_flag srv tr x -> ~ In XBreak tr ->
  tcp_next labels B tcp close_flag (XFail p) x = None.
Proof.
  intros labels B tcp cf srv tr x p H Hb. unfold tcp_next. cbn [xexec]. destruct (x_io x p) eqn:E; [reflexivity| |];
    rewrite (in_use labels B tcp cf srv tr x p H Hb) by congruence; reflexivity.
Qed.
Print Assumptions close_tcp_waits.

(** * UDP *)

Theorem udp_echo_faithful : forall labels B udp tr u p k d,
  (forall j, udp 1 j = udp 2 j) -> udp_executes labels B udp uecho tr u -> 1 <= p <= 2 ->
  nth_comm (t_log (st_thr (u_st u) p)) k = Some false -> nth_error (u_data u p) k = Some d ->
  nth_comm (t_log (st_thr (u_st u) (peer_of p))) k = Some true /\
  if udp p k then nth_error (u_data u (peer_of p)) k = Some d else d = zeros.
Proof.
  intros labels B udp tr u p k d A H Hp. destruct (usim_runs _ _ _ _ _ _ _ H (same_start _)) as (tr' & x & R & S).
  rewrite <- (s_st _ _ S), <- !(s_data _ _ S). exact (tcp_echo_faithful labels B udp (fun _ => false) tr' x p k d A R Hp).
Qed.
Print Assumptions udp_echo_faithful.

Theorem udp_echo_progress : forall labels B udp tr u,
  wf_binary labels B -> (forall j, udp 1 j = udp 2 j) -> udp_executes labels B udp uecho tr u ->
  (all_over 2 (u_st u) /\ forall p, u_io u p = UNone) \/
  exists a u', udp_next labels B udp a u = Some u' /\ uecho (u_net u') /\ match a with UDo _ i _ => i <> ICrash | _ => True end.
Proof. intros labels B udp tr u W A H. exact (uprogress labels B udp tr u A W H). Qed.
Print Assumptions udp_echo_progress.

(** * Examples *)

(** Checked runs. *)
Fixpoint prefixb (a b : bytes) : bool :=
  match a, b with [], _ => true | x :: a', y :: b' => (x =? y) && prefixb a' b' | _, [] => false end.
Lemma prefixb_rest : forall a b, prefixb a b = true -> exists rest, b = a ++ rest.
Proof.
  induction a as [|x a IH]; intros b H; [exists b; reflexivity|]. destruct b as [|y b]; [discriminate|]. cbn in H. apply andb_true_iff in H.
  destruct H as [E H]. apply Nat.eqb_eq in E. subst y. destruct (IH b H) as [r ->]. exists r. reflexivity.
Qed.
Fixpoint xfold (ok : net -> bool) (step : xinp -> xstate -> option xstate) (tr : list xinp) (x : xstate) : option xstate :=
  match tr with
  | [] => Some x
  | a :: tr' => match step a x with Some x1 => if ok (x_net x1) then xfold ok step tr' x1 else None | None => None end
  end.
Lemma xfold_runs branch labels tcp cf (srv : net -> Prop) ok : (forall n, ok n = true -> srv n) -> forall tr x x',
  xfold ok (xexec branch labels tcp cf) tr x = Some x' -> xruns branch labels tcp cf srv x tr x'.
Proof.
  intros K. induction tr as [|a tr IH]; intros x x' H; cbn [xfold] in H; [injection H as ->; constructor|].
  destruct (xexec branch labels tcp cf a x) as [x1|] eqn:E; [|discriminate]. destruct (ok (x_net x1)) eqn:Eo; [|discriminate].
  econstructor; eauto.
Qed.
Definition echob (n : net) : bool := prefixb (n_down n) (n_up n).
Lemma echob_echo n : echob n = true -> echo n.
Proof. intros H. exact (prefixb_rest _ _ H). Qed.
Lemma tcp_outcome A labels B tcp cf (srv : net -> Prop) ok tr (f : xstate -> A) a : (forall n, ok n = true -> srv n) ->
  option_map f (xfold ok (tcp_next labels B tcp cf) tr (xstart (proj 2 (first_round (two B))))) = Some a ->
  exists x, tcp_executes labels B tcp cf srv tr x /\ f x = a.
Proof.
  intros K H. destruct (xfold _ _ _ _) as [x|] eqn:E; [|discriminate]. exists x. split; [|cbn in H; congruence].
  eapply xfold_runs; eauto.
Qed.
Fixpoint ufold (ok : unet -> bool) (step : uinp -> ustate -> option ustate) (tr : list uinp) (u : ustate) : option ustate :=
  match tr with
  | [] => Some u
  | a :: tr' => match step a u with Some u1 => if ok (u_net u1) then ufold ok step tr' u1 else None | None => None end
  end.
Lemma udp_outcome A labels B udp (srv : unet -> Prop) ok tr (f : ustate -> A) a : (forall n, ok n = true -> srv n) ->
  option_map f (ufold ok (udp_next labels B udp) tr (ustart (proj 2 (first_round (two B))))) = Some a ->
  exists u, udp_executes labels B udp srv tr u /\ f u = a.
Proof.
  intros K H. destruct (ufold _ _ _ _) as [u|] eqn:E; [|discriminate]. exists u. split; [|cbn in H; congruence]. clear H.
  unfold udp_executes. revert E. generalize (ustart (proj 2 (first_round (two B)))) as u0. induction tr as [|b tr IH]; intros u0 H; cbn [ufold] in H; [injection H as ->; constructor|].
  destruct (udp_next labels B udp b u0) as [u1|] eqn:E; [|discriminate]. destruct (ok (u_net u1)) eqn:Eo; [|discriminate].
  econstructor; eauto.
Qed.

(** The session of tests/tcp/binary.rs:13-26 seen from B, which chooses [More] or [Done] (labels 0 and 1 of
    enum 0); after [More] it sends data and receives data. *)
Definition more : bty := BSnd 1 (BRcv 1 (BChoose 0)).
Definition test_binary : binary := Bin (BChoose 0) (fun _ l => match l with 0 => more | _ => BEnd end).
Example test_wf : wf_binary two_labels test_binary.
Proof. split; [cbn; unfold two_labels; lia|]. intros b [|l] _; cbn; unfold two_labels; auto; lia. Qed.

Definition ones : bytes := repeat 1 size.
Definition twos : bytes := repeat 2 size.
Definition dos (p k : nat) : list xinp := repeat (XDo p ITau []) k.
(** B chooses More and sends ones; the bytes go in two pieces and come back in three; A takes them and answers with
    twos; B chooses Done; both close, B with the flag true. *)
Definition test_run : list xinp :=
  [XDo 1 (ILabel 0) []] ++ dos 1 4 ++ [XDo 1 (IVal 7) ones; XWrite 1 100] ++ dos 2 3 ++
  [XDo 2 ITau []; XServer (repeat 1 40); XRead 2 40; XWrite 1 28; XServer (repeat 1 88); XRead 2 80; XRead 2 8;
   XDo 2 (IVal 8) twos; XDo 1 ITau []; XWrite 2 128; XServer twos; XRead 1 128; XDo 1 (ILabel 1) []] ++ dos 1 6 ++ dos 2 9 ++ dos 1 4.
Definition results (x : xstate) := (x_data x 1, x_data x 2, result_of (x_st x) 1, result_of (x_st x) 2, n_shut (x_net x)).
Example test_run_works :
  exists x, tcp_executes two_labels test_binary (fun _ _ => true) (fun p => p =? 1) echo test_run x /\
    results x = ([ones; twos], [ones; twos], Some ROk, Some ROk, true).
Proof. apply (tcp_outcome _ _ _ _ _ _ echob); [exact echob_echo|]. vm_compute. reflexivity. Qed.
Example test_run_no_break : ~ In XBreak test_run.
Proof. intros H. cbn in H. repeat destruct H as [H|H]; try discriminate H; exact H. Qed.

(** The connection breaks while A reads: its read fails and its thread ends; B, which waits for the answer, gets an error. *)
Definition broken_run : list xinp :=
  [XDo 1 (ILabel 0) []] ++ dos 1 4 ++ [XDo 1 (IVal 7) ones; XWrite 1 128] ++ dos 2 3 ++
  [XDo 2 ITau []; XServer (repeat 1 40); XRead 2 40; XBreak; XFail 2] ++ dos 2 1 ++ dos 1 1.
Example broken_run_ends :
  exists x, tcp_executes two_labels test_binary (fun _ _ => true) (fun p => p =? 1) echo broken_run x /\
    results x = ([ones], [], Some RErr, Some RCrash, true).
Proof. apply (tcp_outcome _ _ _ _ _ _ echob); [exact echob_echo|]. vm_compute. reflexivity. Qed.

(** * Findings *)

(** The flags of tests/tcp/binary.rs:28-49: A passes false and B passes true. Then A gets 128 zeros instead of the data of B,
    and B reads back its own data instead of those of A. *)
Theorem different_flags_refuted :
  exists tr x, tcp_executes two_labels test_binary (fun p _ => p =? 1) (fun p => p =? 1) echo tr x /\
    (nth_comm (t_log (st_thr (x_st x) 2)) 0, nth_error (x_data x 1) 0, nth_error (x_data x 2) 0) = (Some false, Some ones, Some zeros) /\
    (nth_comm (t_log (st_thr (x_st x) 1)) 1, nth_error (x_data x 2) 1, nth_error (x_data x 1) 1) = (Some false, Some twos, Some ones).
Proof.
  set (tr := [XDo 1 (ILabel 0) []] ++ dos 1 4 ++ [XDo 1 (IVal 7) ones; XWrite 1 128] ++ dos 2 4 ++
    [XDo 2 (IVal 8) twos; XServer ones; XDo 1 ITau []; XRead 1 128]).
  assert (E : exists x, tcp_executes two_labels test_binary (fun p _ => p =? 1) (fun p => p =? 1) echo tr x /\
    ((nth_comm (t_log (st_thr (x_st x) 2)) 0, nth_error (x_data x 1) 0, nth_error (x_data x 2) 0),
     (nth_comm (t_log (st_thr (x_st x) 1)) 1, nth_error (x_data x 2) 1, nth_error (x_data x 1) 1)) =
    ((Some false, Some ones, Some zeros), (Some false, Some twos, Some ones))).
  { apply (tcp_outcome _ _ _ _ _ _ echob); [exact echob_echo|]. vm_compute. reflexivity. }
  destruct E as (x & H & E). exists tr, x. split; [exact H|]. injection E. intros. split; congruence.
Qed.
Print Assumptions different_flags_refuted.

(** Two messages in a row. *)
Definition pair_binary : binary := Bin (BSnd 1 (BSnd 1 BEnd)) (fun _ _ => BEnd).
Example pair_wf : wf_binary two_labels pair_binary.
Proof. split; [exact Logic.I|]. intros b l _. exact Logic.I. Qed.

(** One send with the flag false shifts all data that follow: the first receive returns the data of the second send, and the
    second receive waits for ever, although both sides did the same communications of the session. *)
Theorem one_flag_shifts_refuted :
  exists tr x, tcp_executes two_labels pair_binary (fun p k => negb ((p =? 1) && (k =? 0))) (fun _ => false) echo tr x /\
    (x_data x 1, x_data x 2, x_io x 2) = ([ones; twos], [twos], IoRead []) /\
    (forall m, tcp_next two_labels pair_binary (fun p k => negb ((p =? 1) && (k =? 0))) (fun _ => false) (XRead 2 m) x = None) /\
    forall bs, bs <> [] -> ~ echo (Net (n_up (x_net x)) (n_down (x_net x) ++ bs) (n_pos (x_net x)) (n_shut (x_net x))).
Proof.
  set (tr := [XDo 1 (IVal 7) ones; XDo 1 (IVal 8) twos; XWrite 1 128; XServer twos; XDo 2 ITau []; XRead 2 128; XDo 2 ITau []]).
  assert (E : exists x, tcp_executes two_labels pair_binary (fun p k => negb ((p =? 1) && (k =? 0))) (fun _ => false) echo tr x /\
    (x_data x 1, x_data x 2, x_io x 2, x_net x) = ([ones; twos], [twos], IoRead [], Net twos twos 128 false)).
  { apply (tcp_outcome _ _ _ _ _ _ echob); [exact echob_echo|]. vm_compute. reflexivity. }
  destruct E as (x & H & E). injection E as E1 E2 E3 E4. exists tr, x. split; [exact H|]. split; [rewrite E1, E2, E3; reflexivity|]. split.
  - intros m. unfold tcp_next. cbn [xexec]. rewrite E3, E4. cbn [n_shut n_pos n_down negb andb]. destruct m as [|m]; [reflexivity|].
    replace (128 + S m <=? length twos) with false; [now rewrite andb_false_r|]. symmetry. apply Nat.leb_gt. change (length twos) with 128. lia.
  - intros bs Hb [rest He]. rewrite E4 in He. cbn [n_up n_down] in He. apply (f_equal (@length nat)) in He. rewrite !app_length in He.
    destruct bs; [congruence|]. cbn [length] in He. lia.
Qed.
Print Assumptions one_flag_shifts_refuted.

Fixpoint memb (d : bytes) (l : list bytes) : bool :=
  match l with [] => false | e :: l' => (prefixb d e && prefixb e d) || memb d l' end.
Lemma prefixb_both a : forall b, prefixb a b && prefixb b a = true -> a = b.
Proof.
  induction a as [|x a IH]; intros [|y b] H; cbn in H; try discriminate; [reflexivity|]. rewrite !andb_true_iff in H.
  destruct H as [[E H] [_ H']]. apply Nat.eqb_eq in E. subst y. f_equal. apply IH. now rewrite H, H'.
Qed.
Lemma memb_in d l : memb d l = true -> In d l.
Proof.
  induction l as [|e l IH]; intros H; [discriminate|]. cbn in H. apply orb_true_iff in H. destruct H as [H|H]; [left; symmetry; now apply prefixb_both|right; auto].
Qed.
Definition lossyb (n : unet) : bool := forallb (fun d => memb d (u_up n)) (u_down n).
Lemma lossyb_lossy n : lossyb n = true -> ulossy n.
Proof. intros H dg Hi. unfold lossyb in H. rewrite forallb_forall in H. apply memb_in. now apply H. Qed.
Definition uechob (n : unet) : bool := (length (u_down n) <=? length (u_up n)) && forallb (fun '(a, b) => prefixb a b && prefixb b a) (combine (u_down n) (u_up n)).
Lemma uechob_echo n : uechob n = true -> uecho n.
Proof.
  unfold uechob, uecho. intros H. apply andb_true_iff in H. destruct H as [Hl H]. apply Nat.leb_le in Hl. revert Hl H. generalize (u_up n) as up. induction (u_down n) as [|d l IH]; intros up Hl H.
  - exists up. reflexivity.
  - destruct up as [|e up]; [cbn in Hl; lia|]. cbn in Hl, H. apply andb_true_iff in H. destruct H as [E H]. apply prefixb_both in E. subst e.
    destruct (IH up) as [r ->]; [lia|exact H|]. exists r. reflexivity.
Qed.

(** The test of tests/udp/binary.rs with the same flags on both sides. *)
Definition udos (p k : nat) : list uinp := repeat (UDo p ITau []) k.
Example udp_run_works :
  exists tr u, udp_executes two_labels test_binary (fun _ _ => true) uecho tr u /\
    (u_data u 1, u_data u 2, result_of (u_st u) 1, result_of (u_st u) 2) = ([ones; twos], [ones; twos], Some ROk, Some ROk).
Proof.
  exists ([UDo 1 (ILabel 0) []] ++ udos 1 4 ++ [UDo 1 (IVal 7) ones; USent 1] ++ udos 2 4 ++ [UServer ones; UTake 2;
    UDo 2 (IVal 8) twos; UDo 1 ITau []; USent 2; UServer twos; UTake 1; UDo 1 (ILabel 1) []] ++ udos 1 6 ++ udos 2 9 ++ udos 1 4).
  apply (udp_outcome _ _ _ _ _ uechob); [exact uechob_echo|]. vm_compute. reflexivity.
Qed.

(** A datagram is lost: the receiver has both values from the channel and the data of the second send as those of the first, and waits
    for ever in [socket.recv]; the sender waits in [close]. Without a crash of the sender, only a datagram from the server can change that. *)
Definition in_close (st : @state heap ep) (p : nat) : bool :=
  match t_prog (st_thr st p), t_trash (st_thr st p) with PClose _ _ _, [] => true | _, _ => false end.
Definition can_go (labels : nat -> nat) (B : binary) (st : @state heap ep) (p : nat) : bool :=
  match step2 (branches (two B) 2) labels p ITau st with Some _ => true | None => false end.
Theorem udp_loss_refuted :
  exists tr u, udp_executes two_labels pair_binary (fun _ _ => true) ulossy tr u /\
    (u_data u 1, u_data u 2, u_io u 2) = ([ones; twos], [twos], URecv) /\
    forall a u', udp_next two_labels pair_binary (fun _ _ => true) a u = Some u' -> (exists dg, a = UServer dg) \/ exists d, a = UDo 1 ICrash d.
Proof.
  set (tr := [UDo 1 (IVal 7) ones; USent 1; UDo 1 (IVal 8) twos; USent 1; UServer twos; UDo 2 ITau []; UTake 2; UDo 2 ITau []] ++ udos 1 2).
  assert (E : exists u, udp_executes two_labels pair_binary (fun _ _ => true) ulossy tr u /\
    (u_data u 1, u_data u 2, u_io u 2, u_io u 1, nth_error (u_down (u_net u)) (u_pos (u_net u)), in_close (u_st u) 1, can_go two_labels pair_binary (u_st u) 1) =
    ([ones; twos], [twos], URecv, UNone, None, true, false)).
  { apply (udp_outcome _ _ _ _ _ lossyb); [exact lossyb_lossy|]. vm_compute. reflexivity. }
  destruct E as (u & H & E). injection E as E1 E2 E3 E4 E5 E6 E7. exists tr, u. split; [exact H|]. split; [rewrite E1, E2, E3; reflexivity|].
  assert (Out : forall p, ~ 1 <= p <= 2 -> u_io u p = UNone).
  { clear - H. intros p Hp. unfold udp_executes in H. remember (ustart _) as u0 eqn:Eu. assert (K : u_io u0 p = UNone) by (subst u0; reflexivity). clear Eu. revert K.
    induction H as [u|u a u1 tr u2 Ex _ _ IH]; intros K; [exact K|]. apply IH. destruct a as [q i d|q|q|dg]; cbn [uexec] in Ex.
    - destruct (u_io u q) eqn:Eq; try discriminate. destruct (step2 _ _ q i (u_st u)) as [st'|] eqn:Es; [|discriminate].
      destruct (step2_log _ _ _ _ _ _ Es) as (Hq & _ & _). assert (p <> q) by lia. unfold begin_uio in Ex. destruct (skipn _ _) as [|[|] l].
      + injection Ex as <-. exact K.
      + destruct (length d =? size); [|discriminate]. injection Ex as <-. cbn [u_io]. rewrite set_other; assumption.
      + injection Ex as <-. cbn [u_io]. rewrite set_other; assumption.
    - destruct (u_io u q) eqn:Eq; try discriminate. injection Ex as <-. cbn [u_io]. destruct (Nat.eq_dec p q) as [->|]; [congruence|]. rewrite set_other; assumption.
    - destruct (u_io u q) eqn:Eq; try discriminate. destruct (nth_error _ _); [|discriminate]. injection Ex as <-. cbn [u_io]. destruct (Nat.eq_dec p q) as [->|]; [congruence|]. rewrite set_other; assumption.
    - injection Ex as <-. exact K. }
  intros a u' Hn. unfold udp_next in Hn. destruct a as [q i d|q|q|dg]; cbn [uexec] in Hn.
  - destruct (u_io u q) eqn:Eq; try discriminate. destruct (step2 _ _ q i (u_st u)) as [st'|] eqn:Es; [|discriminate].
    destruct (step2_log _ _ _ _ _ _ Es) as (Hq & _ & _). assert (q = 1) as -> by (assert (q <> 2) by congruence; lia). right. exists d.
    destruct i; [|exfalso|exfalso|reflexivity].
    + unfold can_go in E7. rewrite Es in E7. discriminate.
    + unfold step2, exec, tstep in Es. unfold in_close in E6. destruct (t_prog (st_thr (u_st u) 1)), (t_trash (st_thr (u_st u) 1)); discriminate.
    + unfold step2, exec, tstep in Es. unfold in_close in E6. destruct (t_prog (st_thr (u_st u) 1)), (t_trash (st_thr (u_st u) 1)); discriminate.
  - destruct (u_io u q) eqn:Eq; try discriminate. destruct (Nat.eq_dec q 1) as [->|]; [congruence|]. destruct (Nat.eq_dec q 2) as [->|]; [congruence|].
    rewrite Out in Eq by lia. discriminate.
  - destruct (u_io u q) eqn:Eq; try discriminate. destruct (Nat.eq_dec q 1) as [->|]; [congruence|]. destruct (Nat.eq_dec q 2) as [->|].
    + rewrite E5 in Hn. discriminate.
    + rewrite Out in Eq by lia. discriminate.
  - left. eauto.
Qed.
Print Assumptions udp_loss_refuted.

(** Two datagrams overtake each other: both receives return, with the data of the other send. *)
Theorem udp_overtaking_refuted :
  exists tr u, udp_executes two_labels pair_binary (fun _ _ => true) ulossy tr u /\
    (u_data u 1, u_data u 2, result_of (u_st u) 1, result_of (u_st u) 2) = ([ones; twos], [twos; ones], Some ROk, Some ROk).
Proof.
  exists ([UDo 1 (IVal 7) ones; USent 1; UDo 1 (IVal 8) twos; USent 1; UServer twos; UServer ones; UDo 2 ITau []; UTake 2; UDo 2 ITau []; UTake 2] ++
    udos 1 2 ++ udos 2 2 ++ udos 1 2 ++ udos 2 2).
  apply (udp_outcome _ _ _ _ _ lossyb); [exact lossyb_lossy|]. vm_compute. reflexivity.
Qed.
Print Assumptions udp_overtaking_refuted.
