(** Properties C01 (duality) and C36 (role stacks). *)
From Coq Require Import List ZArith Bool Lia.
From Verif Require Import Types TypesProofs Roles RolesProofs.
Import ListNotations.

(** ** C01 *)

Theorem session_dual_involutive : forall P (t : ty P), dual (dual t) = t.
Proof. exact dual_involutive. Qed.
Print Assumptions session_dual_involutive.

Theorem stack_dual_involutive : forall r, sdual (sdual r) = r.
Proof. exact sdual_involutive. Qed.
Print Assumptions stack_dual_involutive.

(** The dual of a binary session has the same payloads and windows in the same order, with every
    direction reversed; and it is the only binary session with that property. *)
Theorem dual_reverses_every_action : forall P (t u : ty P) l, actions t = Some l ->
  (actions u = Some (map (fun '(d, p, w) => (flip d, p, w)) l) <-> u = dual t).
Proof.
  intros P t u l H. pose proof (dual_actions P t l H) as Hd. split.
  - intros Hu. eapply actions_inj; eauto.
  - intros ->. exact Hd.
Qed.
Print Assumptions dual_reverses_every_action.

(** The dual of a MeshedChannels: field by field, with the name kept. *)
Theorem dual_of_meshed_channels : forall P (ss : list (ty P)) r n,
  exists ss' r', dual (TMesh ss r n) = TMesh ss' r' n /\ length ss' = length ss /\
    (forall i s, nth_error ss i = Some s -> nth_error ss' i = Some (dual s)) /\ sdual r' = r.
Proof.
  intros P ss r n. exists (map dual ss), (sdual r). cbn. rewrite map_length, sdual_involutive.
  repeat split. intros i s H. apply map_nth_error. exact H.
Qed.
Print Assumptions dual_of_meshed_channels.

(** [new] really returns a value of the type and one of its dual, which are the two ends of the
    same fresh channels. *)
Theorem new_returns_linked_dual_ends : forall P (t : ty P) c,
  exists e1 e2 c', new t c = (e1, e2, c') /\ c <= c' /\
    fits t e1 /\ fits (dual t) e2 /\ linked e1 e2 /\
    NoDup (chans e1) /\ (forall x, List.In x (chans e1) <-> c <= x < c') /\
    (forall x, List.In x (chans e2) <-> c <= x < c').
Proof. exact new_spec. Qed.
Print Assumptions new_returns_linked_dual_ends.

(** A window, a binary timed session, and a MeshedChannels with a nested one. *)
Definition w_0_1 := Window 97 0 true 1 true 97.
Example dual_example :
  dual (TMesh [TSend 7 (TRecvT 8 w_0_1 TEnd); TEnd] (SRole 2 (SToAll 1 SEnd SBroadcast)) 1)
  = TMesh [TRecv 7 (TSendT 8 w_0_1 TEnd); TEnd] (SRoleDual 2 (SAllTo 1 SEnd SBroadcast)) 1.
Proof. reflexivity. Qed.
Example actions_example :
  actions (TSend 7 (TRecvT 8 w_0_1 TEnd)) = Some [(Out, 7, None); (In, 8, Some w_0_1)].
Proof. reflexivity. Qed.
Example new_example :
  new (TMesh [TRecv 7 TEnd; TEnd] SEnd 1) 4 =
  (EMesh [ERecv 4; EEnd 5 6] SEnd 1, EMesh [ESend 4; EEnd 6 5] SEnd 1, 7).
Proof. reflexivity. Qed.

(** ** C36 *)

(** Every stack value obtained by [new] (either half) or by earlier continuations, whatever other
    code does to the channels meanwhile: advancing returns the rest of the stack, of the right type,
    and touches no existing channel. *)
Theorem stack_continuation_returns : forall v h x r, obtained v h ->
  rty v = SRole x r \/ rty v = SRoleDual x r ->
  exists v' new_chans, continuation v h = Returned v' (h ++ new_chans) /\ rty v' = r.
Proof. exact continuation_spec. Qed.
Print Assumptions stack_continuation_returns.

Theorem stack_branch_continuation_returns : forall v h x r1 r2, obtained v h ->
  rty v = SToAll x r1 r2 \/ rty v = SAllTo x r1 r2 ->
  (exists v' new_chans, continuation_left v h = Returned v' (h ++ new_chans) /\ rty v' = r1) /\
  (exists v' new_chans, continuation_right v h = Returned v' (h ++ new_chans) /\ rty v' = r2).
Proof. exact continuation_branch_spec. Qed.
Print Assumptions stack_branch_continuation_returns.

(** Non-vacuous: a stack with two entries, advanced twice; and advanced twice from the same value
    ([continuation] takes [&self]). *)
Example stack_run :
  exists v1 h1 v2 h2 v3 h3,
    role_new (SRole 1 (SToAll 2 SEnd SBroadcast)) [] = (v1, VOne (sdual (SRole 1 (SToAll 2 SEnd SBroadcast))) 0, h1) /\
    obtained v1 h1 /\
    continuation v1 h1 = Returned v2 h2 /\ continuation_right v2 h2 = Returned v3 h3 /\
    rty v3 = SBroadcast /\
    exists v4 h4, continuation v1 h3 = Returned v4 h4.
Proof.
  do 6 eexists. split; [reflexivity|]. split; [apply (ob_new_here (SRole 1 (SToAll 2 SEnd SBroadcast)) [] _ _ _ eq_refl)|].
  split; [reflexivity|]. split; [reflexivity|]. split; [reflexivity|].
  do 2 eexists. reflexivity.
Qed.

(** The dead receiver matters: if the receiver of a role's channel were kept, advancing the same
    value twice would block for ever. *)
Example stack_would_block_with_live_receiver :
  continuation (VOne (SRole 1 SEnd) 0) [RChan true true] = Blocked.
Proof. reflexivity. Qed.
