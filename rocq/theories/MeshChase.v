(** A crashed role that never gets to the end of its drops: the messages it drops hold the MeshedChannels of
    the next round, in which the chooser has already sent again. Witness for Properties_Fair.v. *)
From Coq Require Import List Arith Bool Lia.
From Verif Require Import Types Diag Wiring Session Mesh MeshSpec Links LinksProofs MeshInv MeshStep MeshSafe MeshReach Refine Sim Global
  MeshGlobal MeshProgress MeshFair Properties_Mesh Properties_Global FairSpec MeshLive FairTurns.
Import ListNotations.

(** Role 1 chooses again and again; in every round role 3 has to send a number to role 2. *)
Definition chase : protocol := Protocol ([Msg3 3 2 7], GChoose 1 0) (fun _ _ => ([Msg3 3 2 7], GChoose 1 0)).
Definition one_label (b : nat) : nat := 1.

Notation ch := (branch_g 3 chase).
Notation exec_c := (exec link_ops 3 ch one_label false).

Definition t12 : sty := Snd (PChoice 0 2) End.
Definition t13 : sty := Snd (PChoice 0 3) End.
Definition t23 : sty := Rcv (PVal 7) End.

Definition grown (L : links) : links :=
  Links (fun x => if x =? S (S (lnext L)) then new_link t23 else if x =? S (lnext L) then new_link t13 else
                  if x =? lnext L then new_link t12 else lk L x) (S (S (S (lnext L)))).
Definition mesh2 (m : nat) : list handle := [(m, false, true); (S (S m), true, true)].
Definition mesh3 (m : nat) : list handle := [(S m, false, true); (S (S m), false, true)].

Lemma choice_made : forall L a b, make_choice link_ops 3 ch 1 0 0 [a; b] L =
  Some (PChoose 0 0 [(2, a, mesh2 (lnext L)); (3, b, mesh3 (lnext L))] [(lnext L, true, true); (S (lnext L), true, true)], grown L).
Proof. intros [f m] a b. reflexivity. Qed.

Definition chooser (a b : handle) (r : nat) (log : list event) : @thread handle :=
  Thread (PRun [t12; t13] SBroadcast [a; b]) [] r log.
Definition receiver : @thread handle :=
  Thread (PRun [Rcv (PChoice 0 2) End; t23] (SRole 3 (SRole 1 SEnd)) (mesh2 0)) [] 0 [].


(** One turn on the specification store, for the roles in the list one after the other. *)
Notation lst := (@state links handle).
Definition zero (b : nat) : nat := 0.
Definition one (p : nat) (st : lst) : lst := match attempt exec_c zero p st with Some (_, st') => st' | None => st end.

Lemma one_tau : forall p L thr th' L', 1 <= p <= 3 -> tstep link_ops 3 ch one_label false p ITau (thr p) L = Some (th', L') ->
  one p (State L thr) = State L' (set_thr thr p th').
Proof.
  intros p L thr th' L' Hp H. unfold one, attempt, exec. cbn [st_thr st_store]. rewrite H.
  destruct (Nat.leb_spec 1 p), (Nat.leb_spec p 3); try lia. reflexivity.
Qed.

Lemma set_two : forall (thr : nat -> @thread handle) p a, set_thr thr p a p = a.
Proof. intros. unfold set_thr. rewrite Nat.eqb_refl. reflexivity. Qed.
Lemma set_not : forall (thr : nat -> @thread handle) p a q, q <> p -> set_thr thr p a q = thr q.
Proof. intros thr p a q H. unfold set_thr. destruct (Nat.eqb_spec q p); [congruence|reflexivity]. Qed.

(** Role 1 takes a branch. *)
Lemma takes : forall L thr a b r log, thr 1 = chooser a b r log ->
  one 1 (State L thr) = State (grown L) (set_thr thr 1 (Thread
    (PChoose 0 0 [(2, a, mesh2 (lnext L)); (3, b, mesh3 (lnext L))] [(lnext L, true, true); (S (lnext L), true, true)]) [] r log)).
Proof.
  intros L thr a b r log E.
  assert (Hl : tstep link_ops 3 ch one_label false 1 (ILabel 0) (thr 1) L = Some (Thread
    (PChoose 0 0 [(2, a, mesh2 (lnext L)); (3, b, mesh3 (lnext L))] [(lnext L, true, true); (S (lnext L), true, true)]) [] r log, grown L)).
  { unfold tstep. rewrite E. unfold chooser. cbn [t_trash t_prog t_round t_log]. change (choice_of 1 [t12; t13]) with (Some 0).
    cbv iota beta. change (0 <? one_label 0) with true. cbv iota. rewrite choice_made. reflexivity. }
  assert (Hn : forall i, i = ITau \/ i = IVal 0 -> tstep link_ops 3 ch one_label false 1 i (thr 1) L = None).
  { intros i Hi. unfold tstep. rewrite E. destruct Hi as [-> | ->]; reflexivity. }
  unfold one, attempt, exec. cbn [st_thr st_store Nat.leb andb]. rewrite !Hn by auto.
  assert (Ep : t_prog (thr 1) = PRun [t12; t13] SBroadcast [a; b]) by (rewrite E; reflexivity). rewrite Ep.
  change (choice_of 1 [t12; t13]) with (Some 0). cbv iota beta. change (zero 0) with 0. rewrite Hl. reflexivity.
Qed.

(** Role 1 sends to one role and drops what is left of the end. *)
Definition filled (q : pty) (v : value) (c : list handle) (k : link) : Prop :=
  pending k false = Some (v, c, End) /\ l_ty k false = Rcv q End.

Lemma three : forall L (thr : nat -> @thread handle) x a q (m : list handle) (pend : list (nat * handle * list handle)) (own : list handle) r log, thr 1 = Thread (PChoose 0 0 ((x, (a, true, true), m) :: pend) own) [] r log ->
  lk L a = new_link (Snd q End) -> exists L' thr' log',
  one 1 (one 1 (one 1 (State L thr))) = State L' thr' /\ thr' 1 = Thread (PChoose 0 0 pend own) [] r log' /\
  (forall p, p <> 1 -> thr' p = thr p) /\ lnext L' = lnext L /\ (forall b, b <> a -> lk L' b = lk L b) /\ filled q (VLabel 0 0 x) m (lk L' a).
Proof.
  intros L thr x a q m pend own r log E Ea.
  set (k1 := Link (upd (fun s : bool => if s then Snd q End else Rcv q End) true End) [(VLabel 0 0 x, m, End)] false (fun _ => true) (fun _ => true) (fun _ => None)).
  set (th1 := @Thread handle (PChoose 0 0 pend own) [(a, true, true)] r (log ++ [EvSend r x (VLabel 0 0 x)])).
  rewrite (one_tau 1 L thr th1 (set_link L a k1) ltac:(lia)).
  2: { unfold tstep. rewrite E. cbn [t_trash t_prog]. unfold do_choose_send. cbn [op_send link_ops lk_send]. rewrite Ea. reflexivity. }
  set (k2 := Link (l_ty k1) (l_q k1) (l_to k1) (upd (l_open k1) true false) (l_rx k1) (l_sig k1)).
  set (th2 := @Thread handle (PChoose 0 0 pend own) [(a, true, false)] r (log ++ [EvSend r x (VLabel 0 0 x)])).
  rewrite (one_tau 1 _ _ th2 (set_link (set_link L a k1) a k2) ltac:(lia)).
  2: { rewrite set_two. unfold tstep, th1. cbn [t_trash]. cbn [op_drop link_ops lk_drop]. rewrite lk_set_same. reflexivity. }
  set (k3 := Link (l_ty k2) (l_q k2) (l_to k2) (l_open k2) (upd (l_rx k2) true false) (upd (l_sig k2) false None)).
  set (th3 := @Thread handle (PChoose 0 0 pend own) [] r (log ++ [EvSend r x (VLabel 0 0 x)])).
  rewrite (one_tau 1 _ _ th3 (set_link (set_link (set_link L a k1) a k2) a k3) ltac:(lia)).
  2: { rewrite set_two. unfold tstep, th2. cbn [t_trash]. cbn [op_drop link_ops lk_drop]. rewrite lk_set_same. reflexivity. }
  eexists _, _, _. split; [reflexivity|]. split; [apply set_two|]. split; [intros p Hp; rewrite !set_not by exact Hp; reflexivity|].
  split; [reflexivity|]. split; [intros b Hb; rewrite !lk_set_other by exact Hb; reflexivity|].
  rewrite lk_set_same. split; reflexivity.
Qed.

(** The state at the beginning of each period: role 1 is about to choose in a round of which role 3 drops the
    first end. *)
Definition chased (st : lst) : Prop := exists a b r log pr rest r' log',
  st_thr st 1 = chooser (a, true, true) (b, true, true) r log /\
  st_thr st 2 = receiver /\
  st_thr st 3 = Thread pr ((b, false, true) :: rest) r' log' /\
  lk (st_store st) a = new_link t12 /\ lk (st_store st) b = new_link t13 /\ lk (st_store st) 2 = new_link t23 /\
  a < lnext (st_store st) /\ b < lnext (st_store st) /\ 2 < lnext (st_store st) /\ a <> b /\ a <> 2 /\ b <> 2.

Lemma waits_on : forall st, chased st -> attempt exec_c zero 2 st = None.
Proof.
  intros st (a & b & r & log & pr & rest & r' & log' & _ & E2 & _ & _ & _ & H2 & _). unfold attempt, exec. cbn [Nat.leb andb].
  assert (H : forall i, i <> ICrash -> tstep link_ops 3 ch one_label false 2 i (st_thr st 2) (st_store st) = None).
  { intros i Hi. rewrite E2. unfold tstep, receiver. cbn [t_trash t_prog]. destruct i; try reflexivity; [|congruence].
    cbn. unfold do_recv. cbn [op_recv link_ops lk_recv]. rewrite H2. reflexivity. }
  rewrite !H by discriminate. rewrite E2. reflexivity.
Qed.

Lemma period : forall st, chased st -> chased (one 3 (one 1 (one 1 (one 1 (one 1 (one 1 (one 1 (one 1 (one 1 st))))))))).
Proof.
  intros [L thr] (a & b & r & log & pr & rest & r' & log' & E1 & E2 & E3 & La & Lb & L2 & Ha & Hb & H2 & Hab & Ha2 & Hb2).
  cbn [st_thr st_store] in *. rewrite (takes L thr _ _ r log E1). set (m := lnext L) in *.
  assert (Lold : forall y, y < m -> lk (grown L) y = lk L y).
  { intros y Hy. unfold grown. cbn [lk]. fold m. destruct (Nat.eqb_spec y (S (S m))); [lia|]. destruct (Nat.eqb_spec y (S m)); [lia|].
    destruct (Nat.eqb_spec y m); [lia|reflexivity]. }
  assert (L0 : lk (grown L) m = new_link t12).
  { unfold grown. cbn [lk]. fold m. destruct (Nat.eqb_spec m (S (S m))); [lia|]. destruct (Nat.eqb_spec m (S m)); [lia|].
    rewrite Nat.eqb_refl. reflexivity. }
  assert (L1 : lk (grown L) (S m) = new_link t13).
  { unfold grown. cbn [lk]. fold m. destruct (Nat.eqb_spec (S m) (S (S m))); [lia|]. rewrite Nat.eqb_refl. reflexivity. }
  match goal with |- context [State (grown L) ?f] => destruct (three (grown L) f 2 a (PChoice 0 2) (mesh2 m) [(3, (b, true, true), mesh3 m)]
    [(m, true, true); (S m, true, true)] r log (set_two _ _ _)) as (L' & thr' & log1 & -> & T1 & To & Ln & Lo & _) end.
  { rewrite Lold by exact Ha. exact La. }
  destruct (three L' thr' 3 b (PChoice 0 3) (mesh3 m) [] [(m, true, true); (S m, true, true)] r log1 T1)
    as (L'' & thr'' & log2 & -> & T1' & To' & Ln' & Lo' & Hfill).
  { rewrite Lo by congruence. rewrite Lold by exact Hb. exact Lb. }
  rewrite (one_tau 1 L'' thr'' (chooser (m, true, true) (S m, true, true) (S r) log2) L'' ltac:(lia)) by (rewrite T1'; reflexivity).
  destruct Hfill as [Hp Ht].
  rewrite (one_tau 3 L'' _ (Thread pr ((mesh3 m ++ [(b, false, true)]) ++ rest) r' log') (set_link L'' b (popped (lk L'' b) false End)) ltac:(lia)).
  2: { rewrite set_not by lia. rewrite To' by lia. rewrite To by lia. rewrite set_not by lia. rewrite E3. unfold tstep. cbn [t_trash t_prog t_round t_log op_drop link_ops].
       unfold lk_drop. rewrite Ht. cbn [is_fin]. rewrite Hp. reflexivity. }
  assert (Lm : lnext L'' = S (S (S m))) by (rewrite Ln', Ln; reflexivity).
  exists m, (S m), (S r), log2, pr, ((S (S m), false, true) :: (b, false, true) :: rest), r', log'. cbn [st_thr st_store].
  split; [rewrite set_not by lia; apply set_two|].
  split; [rewrite !set_not by lia; rewrite To', To by lia; rewrite set_not by lia; exact E2|].
  split; [apply set_two|].
  split; [rewrite lk_set_other by lia; rewrite Lo' by lia; rewrite Lo by lia; exact L0|].
  split; [rewrite lk_set_other by lia; rewrite Lo' by lia; rewrite Lo by lia; exact L1|].
  split; [rewrite lk_set_other by lia; rewrite Lo' by lia; rewrite Lo by lia; rewrite Lold by lia; exact L2|].
  cbn [lnext set_link]. rewrite Lm. lia.
Qed.

(** The turns: role 3 crashes at once; then again and again eight turns of role 1, one of role 3, one of role 2. *)
Definition plan (t : nat) : nat * bool :=
  match t with 0 => (3, true) | S u => (match u mod 10 with 8 => 3 | 9 => 2 | _ => 1 end, false) end.

Lemma plan_at : forall k j, j < 10 -> plan (S (10 * k) + j) = (match j with 8 => 3 | 9 => 2 | _ => 1 end, false).
Proof.
  intros k j Hj. replace (S (10 * k) + j) with (S (j + k * 10)) by lia. unfold plan. rewrite Nat.mod_add, Nat.mod_small by lia. reflexivity.
Qed.

Notation turn_c := (turn exec_c zero plan (init link_ops 3 (T_g 3 chase) empty_links)).

Lemma turn_one : forall k j p, j < 10 -> (match j with 8 => 3 | 9 => 2 | _ => 1 end) = p -> turn_c (S (S (10 * k) + j)) = one p (turn_c (S (10 * k) + j)).
Proof.
  intros k j p Hj <-. set (t := S (10 * k) + j). cbn [turn]. cbv zeta. unfold act. unfold t at 1 2 3 4. rewrite plan_at by exact Hj. reflexivity.
Qed.

Lemma nine : forall k, turn_c (S (10 * k) + 9) = one 3 (one 1 (one 1 (one 1 (one 1 (one 1 (one 1 (one 1 (one 1 (turn_c (S (10 * k))))))))))).
Proof.
  intros k. 
  replace (S (10 * k) + 9) with (S (S (10 * k) + 8)) by lia. rewrite (turn_one k 8 3) by (lia || reflexivity). f_equal.
  replace (S (10 * k) + 8) with (S (S (10 * k) + 7)) by lia. rewrite (turn_one k 7 1) by (lia || reflexivity). f_equal.
  replace (S (10 * k) + 7) with (S (S (10 * k) + 6)) by lia. rewrite (turn_one k 6 1) by (lia || reflexivity). f_equal.
  replace (S (10 * k) + 6) with (S (S (10 * k) + 5)) by lia. rewrite (turn_one k 5 1) by (lia || reflexivity). f_equal.
  replace (S (10 * k) + 5) with (S (S (10 * k) + 4)) by lia. rewrite (turn_one k 4 1) by (lia || reflexivity). f_equal.
  replace (S (10 * k) + 4) with (S (S (10 * k) + 3)) by lia. rewrite (turn_one k 3 1) by (lia || reflexivity). f_equal.
  replace (S (10 * k) + 3) with (S (S (10 * k) + 2)) by lia. rewrite (turn_one k 2 1) by (lia || reflexivity). f_equal.
  replace (S (10 * k) + 2) with (S (S (10 * k) + 1)) by lia. rewrite (turn_one k 1 1) by (lia || reflexivity). f_equal.
  replace (S (10 * k) + 1) with (S (S (10 * k) + 0)) by lia. rewrite (turn_one k 0 1) by (lia || reflexivity). f_equal.
  f_equal. lia.
Qed.

Lemma always_chased : forall k, chased (turn_c (S (10 * k))) /\ chased (turn_c (S (10 * k) + 9)).
Proof.
  induction k as [|k [_ IH]].
  - assert (H : chased (turn_c 1)).
    { exists 0, 1, 0, [], (PFin RCrash), [(2, false, true)], 0, []. repeat split; vm_compute; try reflexivity; try lia. }
    split; [exact H|]. rewrite (nine 0). apply period. exact H.
  - assert (H : chased (turn_c (S (10 * S k)))).
    { replace (S (10 * S k)) with (S (S (10 * k) + 9)) by lia. rewrite (turn_one k 9 2) by (lia || reflexivity).
      unfold one. rewrite (waits_on _ IH). exact IH. }
    split; [exact H|]. rewrite (nine (S k)). apply period. exact H.
Qed.

Lemma two_waits : forall t, fst (plan t) = 2 -> act exec_c zero plan t (turn_c t) = None.
Proof.
  intros t Ht. destruct t as [|u]; [discriminate|].
  pose proof (Nat.div_mod u 10 ltac:(lia)) as Hu. pose proof (Nat.mod_upper_bound u 10 ltac:(lia)) as Hm.
  assert (E : u mod 10 = 9).
  { cbn [plan fst] in Ht. destruct (u mod 10) as [|[|[|[|[|[|[|[|[|[|j]]]]]]]]]]; try discriminate; try reflexivity; try lia. }
  replace (S u) with (S (10 * (u / 10)) + 9) by lia. unfold act. rewrite plan_at by lia. cbn [fst snd].
  apply waits_on. apply always_chased.
Qed.
