(** Property C41: the hand-written code for three roles. *)
From Coq Require Import List Arith Bool Lia.
From Verif Require Import Types TypesProofs Wiring WiringProofs Properties_Wiring Three.
Import ListNotations.

(** ** Enumerating three roles *)

Lemma connected_3 : forall x1 x2 y1 y2 z1 z2,
  (exists k b, x1 = (k, b) /\ y1 = (k, negb b)) ->
  (exists k b, x2 = (k, b) /\ z1 = (k, negb b)) ->
  (exists k b, y2 = (k, b) /\ z2 = (k, negb b)) ->
  NoDup [x1; x2; y1; y2; z1; z2] ->
  connected 3 [[x1; x2]; [y1; y2]; [z1; z2]].
Proof.
  intros x1 x2 y1 y2 z1 z2 (k1 & b1 & -> & ->) (k2 & b2 & -> & ->) (k3 & b3 & -> & ->) Hnd.
  constructor; [reflexivity| | |exact Hnd].
  - intros f [<-|[<-|[<-|[]]]]; reflexivity.
  - intros i p Hi Hp Hne.
    assert (Hi' : i = 1 \/ i = 2 \/ i = 3) by lia.
    assert (Hp' : p = 1 \/ p = 2 \/ p = 3) by lia.
    destruct Hi' as [->|[->| ->]], Hp' as [->|[->| ->]]; try congruence; cbn;
      do 2 eexists; split; try reflexivity; cbn; rewrite ?negb_involutive; reflexivity.
Qed.

Ltac nodup := repeat (constructor; [cbn; intuition discriminate|]); constructor.
Ltac pairs := apply connected_3; [do 2 eexists; split; reflexivity..|nodup].

(** ** fork *)

(** [fork_mpst] gives the three functions the MeshedChannels of a complete private network, and the
    sessions have the types declared for the arguments of the functions. *)
Theorem three_fork : forall P (s0 s1 s2 : ty P),
  exists meshes, fork3_threads = Some meshes /\
    connected 3 meshes /\ uses_all 3 meshes /\
    map (map (end_ty [s0; s1; s2])) meshes = map (map Some) (fork3_decl s0 s1 s2).
Proof.
  intros. eexists. split; [reflexivity|]. split; [pairs|]. split; [|reflexivity].
  intros k b Hk. assert (Hk' : k = 1 \/ k = 2 \/ k = 3) by lia. cbn.
  destruct b, Hk' as [->|[->| ->]]; intuition.
Qed.
Print Assumptions three_fork.

(** It is the network that the generated [fork_mpst] builds for three roles. *)
Theorem three_fork_generated : fork3_threads = fork_threads 3.
Proof. reflexivity. Qed.
Print Assumptions three_fork_generated.

(** ** Binary choice *)

Definition side {A} (right : bool) (c : A * A) : A := if right then snd c else fst c.

(** Whoever chooses, whichever branch, in the three families: the MeshedChannels sent to the two
    other roles and the one returned form a complete private network on new channels.
    choice_1 goes on session1 and choice_2 on session2, that is, to the two other roles in order. *)
Theorem three_choice_connects : forall fam e right P (s : nat -> ty P) (r : nat -> stack) nm,
  1 <= e <= 3 ->
  exists c, run_choose fam e right s r nm = Some c /\
    connected 3 (meshes_after e [ch_sent_1 c; ch_sent_2 c] (ch_own c)) /\
    uses_all 3 (meshes_after e [ch_sent_1 c; ch_sent_2 c] (ch_own c)).
Proof.
  intros fam e right P s r nm He. assert (He' : e = 1 \/ e = 2 \/ e = 3) by lia.
  destruct fam, He' as [->|[->| ->]], right; eexists; (split; [reflexivity|]);
    (split; [cbn; pairs|]); intros k b Hk; assert (Hk' : k = 1 \/ k = 2 \/ k = 3) by lia;
    cbn; destruct b, Hk' as [->|[->| ->]]; intuition.
Qed.
Print Assumptions three_choice_connects.

(** For all session types S0..S5 and stacks R0..R5, the three MeshedChannels built have the types
    declared in the signature, so the function type checks: the two sent are the [right] branches of
    the two declared choices, and the result is the declared one. *)
Theorem three_choice_typed : forall fam e right P (s : nat -> ty P) (r : nat -> stack) nm c,
  1 <= e <= 3 -> run_choose fam e right s r nm = Some c ->
  ch_ty_1 c = side right (fst (arg_decl fam e s r nm)) /\
  ch_ty_2 c = side right (snd (arg_decl fam e s r nm)) /\
  ch_ty_own c = result_decl fam e right s r nm.
Proof.
  intros fam e right P s r nm c He Hr. assert (He' : e = 1 \/ e = 2 \/ e = 3) by lia.
  destruct fam, He' as [->|[->| ->]], right; injection Hr as <-; cbn;
    rewrite ?dual_involutive; repeat split; reflexivity.
Qed.
Print Assumptions three_choice_typed.

(** The sessions inside a MeshedChannels type. *)
Definition mesh_sessions {P} (t : ty P) : list (ty P) :=
  match t with TMesh ss _ _ => ss | _ => [] end.

(** The sessions of any two roles with each other are dual. *)
Definition compatible {P} (meshes : list (list (ty P))) : Prop :=
  forall i p, 1 <= i <= 3 -> 1 <= p <= 3 -> i <> p ->
  exists a b t, nth_error meshes (i - 1) = Some a /\ nth_error meshes (p - 1) = Some b /\
    nth_error a (field_pos i p) = Some t /\ nth_error b (field_pos p i) = Some (dual t).

(** The signatures alone: in either branch the declared types of the three roles are pairwise dual,
    and the choices carry the names of the two other roles. *)
Theorem three_choice_compatible : forall fam e right P (s : nat -> ty P) (r : nat -> stack) nm,
  1 <= e <= 3 ->
  let m1 := side right (fst (arg_decl fam e s r nm)) in
  let m2 := side right (snd (arg_decl fam e s r nm)) in
  let own := result_decl fam e right s r nm in
  let others := filter (fun i => negb (i =? e)) [1; 2; 3] in
  compatible (firstn (e - 1) [mesh_sessions m1; mesh_sessions m2] ++
              mesh_sessions own :: skipn (e - 1) [mesh_sessions m1; mesh_sessions m2]) /\
  (exists l1 l2 lo q1 q2 qo,
     m1 = TMesh l1 q1 (nm (nth 0 others 0)) /\ m2 = TMesh l2 q2 (nm (nth 1 others 0)) /\
     own = TMesh lo qo (nm e)).
Proof.
  intros fam e right P s r nm He. assert (He' : e = 1 \/ e = 2 \/ e = 3) by lia.
  destruct fam, He' as [->|[->| ->]], right; cbn; (split; [|do 6 eexists; repeat split; reflexivity]);
    intros i p Hi Hp Hne; assert (Hi' : i = 1 \/ i = 2 \/ i = 3) by lia;
    assert (Hp' : p = 1 \/ p = 2 \/ p = 3) by lia;
    destruct Hi' as [->|[->| ->]], Hp' as [->|[->| ->]]; try congruence; cbn;
    do 3 eexists; (do 3 (split; [reflexivity|])); rewrite ?dual_involutive; reflexivity.
Qed.
Print Assumptions three_choice_compatible.

(** What a role is sent can be offered: the declared choice of either session is the [OfferMpst] of
    some session types and stacks, for the name of the role that receives it. *)
Theorem three_choice_offered : forall fam e P (s : nat -> ty P) (r : nat -> stack) nm,
  1 <= e <= 3 ->
  exists a b c d q1 q2 a' b' c' d' q1' q2' x y,
    fst (arg_decl fam e s r nm) = OfferMpst a b c d q1 q2 (nm x) /\
    snd (arg_decl fam e s r nm) = OfferMpst a' b' c' d' q1' q2' (nm y) /\
    1 <= x < y /\ y <= 3 /\ x <> e /\ y <> e.
Proof.
  intros fam e P s r nm He. assert (He' : e = 1 \/ e = 2 \/ e = 3) by lia.
  destruct fam, He' as [->|[->| ->]];
    (do 14 eexists; split; [reflexivity|split; [reflexivity|lia]]).
Qed.
Print Assumptions three_choice_offered.

(** ** send, recv, offer *)

(** Role [me] and role [peer] of the three: the stack at the head names the peer, exactly the field
    that faces the peer is wrapped in the declared argument, and the body replaces exactly this field
    by its continuation. *)
Theorem three_comm : forall me peer A (wrap : A -> A) (s1 s2 : A),
  1 <= me <= 3 -> 1 <= peer <= 3 -> me <> peer ->
  head3 me peer = peer /\
  literal3 me peer = field_pos me peer + 1 /\
  exists x y,
    nth_error [s1; s2] (field_pos me peer) = Some x /\
    nth_error [s1; s2] (1 - field_pos me peer) = Some y /\
    nth_error (decl3 me peer wrap s1 s2) (field_pos me peer) = Some (wrap x) /\
    nth_error (decl3 me peer wrap s1 s2) (1 - field_pos me peer) = Some y /\
    aux_simple (literal3 me peer) x (decl3 me peer wrap s1 s2) = Some [s1; s2].
Proof.
  intros me peer A wrap s1 s2 Hm Hp Hne.
  assert (Hm' : me = 1 \/ me = 2 \/ me = 3) by lia.
  assert (Hp' : peer = 1 \/ peer = 2 \/ peer = 3) by lia.
  destruct Hm' as [->|[->| ->]], Hp' as [->|[->| ->]]; try congruence;
    (split; [reflexivity|split; [reflexivity|]]);
    do 2 eexists; repeat split; reflexivity.
Qed.
Print Assumptions three_comm.

(** After fork, and after any choice, the field on which one role sends to another and the field on
    which the other receives from it are the two ends of one channel. *)
Theorem three_comm_one_channel : forall meshes me peer,
  (fork3_threads = Some meshes \/
   exists fam e right s r nm (c : chosen unit), 1 <= e <= 3 /\
     run_choose fam e right s r nm = Some c /\
     meshes = meshes_after e [ch_sent_1 c; ch_sent_2 c] (ch_own c)) ->
  1 <= me <= 3 -> 1 <= peer <= 3 -> me <> peer ->
  exists a b k x,
    nth_error meshes (me - 1) = Some a /\ nth_error meshes (peer - 1) = Some b /\
    nth_error a (literal3 me peer - 1) = Some (k, x) /\
    nth_error b (literal3 peer me - 1) = Some (k, negb x).
Proof.
  intros meshes me peer Hm Hi Hp Hne.
  assert (Hc : connected 3 meshes).
  { destruct Hm as [Hf|(fam & e & right & s & r & nm & c & He & Hr & ->)].
    - destruct (three_fork unit TEnd TEnd TEnd) as (m' & Hf' & Hc & _).
      rewrite Hf in Hf'. injection Hf' as ->. exact Hc.
    - destruct (three_choice_connects fam e right unit s r nm He) as (c' & Hr' & Hc & _).
      rewrite Hr in Hr'. injection Hr' as ->. exact Hc. }
  destruct (conn_pair 3 meshes Hc me peer Hi Hp Hne) as (k & x & H1 & H2).
  destruct (three_comm me peer unit (fun x => x) tt tt Hi Hp Hne) as (_ & -> & _).
  destruct (three_comm peer me unit (fun x => x) tt tt Hp Hi (not_eq_sym Hne)) as (_ & -> & _).
  unfold session_with in *.
  destruct (nth_error meshes (me - 1)) as [a|]; [|discriminate].
  destruct (nth_error meshes (peer - 1)) as [b|]; [|discriminate].
  exists a, b, k, x. rewrite !Nat.add_sub. auto.
Qed.
Print Assumptions three_comm_one_channel.

(** ** Examples *)

(** B chooses right, with functionmpst: A sends an integer to C, then B closes. *)
Example three_choice_b :
  let s k := match k with 1 => TSend 7 TEnd | _ => TEnd end in
  run_choose FunctionMpst 2 true s (fun _ => SEnd) (fun i => i) =
  Some (Chosen [(1, false); (2, false)] [(2, true); (3, false)] [(1, true); (3, true)]
          (TMesh [TEnd; TRecv 7 TEnd] SEnd 1) (TMesh [TSend 7 TEnd; TEnd] SEnd 3)
          (TMesh [TEnd; TEnd] SEnd 2)).
Proof. reflexivity. Qed.

Example three_comm_c_b :
  decl3 3 2 (fun x => 10 + x) 1 2 = [1; 12] /\
  aux_simple (literal3 3 2) 2 [1; 12] = Some [1; 2].
Proof. split; reflexivity. Qed.
