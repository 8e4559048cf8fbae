(** C50: the [impl] blocks written by generate!: they compile together, and they give a MeshedChannels exactly the
    methods of its type. Model: Methods.v; specification: MethodsSpec.v. *)
From Coq Require Import List Arith Bool String ZArith Lia.
From Verif Require Import Types Diag DiagProofs Wiring WiringProofs Session Mesh Methods MethodsSpec MethodsProofs.
Import ListNotations.
Open Scope nat_scope.
Open Scope list_scope.

Definition abc : list string := ["A"; "B"; "C"]%string.
Definition bits : rty := RApp (CUser 0) [].
Definition words : rty := RApp (CUser 1) [].
Lemma abc_distinct : NoDup abc.
Proof. repeat constructor; cbn; intuition discriminate. Qed.
Definition win : window := Window 97 0 true 10 false 97.
Definition win2 : window := Window 97 0 true 20 false 97.

(** * The blocks compile *)

(** For two roles or more, each block declares the type parameters it uses, uses in its self type those it declares. *)
Theorem generated_compile : forall timed mesh roles, 2 <= List.length roles ->
  exists l, impls timed mesh roles = Some l /\ Forall compiles l.
Proof.
  intros timed mesh roles Hn. destruct (impls_some timed mesh roles) as [l E]. exists l. split; [exact E|].
  apply Forall_forall. intros im Him. apply (in_impls _ _ _ _ _ E) in Him as (t & V & G). exact (gen_compiles _ _ _ _ _ Hn V G).
Qed.
Print Assumptions generated_compile.
Example generated_compile_example : exists l, impls true "MeshedChannelsThree" abc = Some l /\ List.length l = 29.
Proof. eexists. split; vm_compute; reflexivity. Qed.

(** With one role the timed blocks do not: the block of the choice has no field that uses the constants (E0207). *)
Theorem one_role_refuted : exists l, impls true "M" ["A"%string] = Some l /\ ~ Forall compiles l.
Proof.
  eexists. split; [vm_compute; reflexivity|]. intros H. rewrite Forall_forall in H.
  match type of H with forall x, In x (?c :: _) -> _ => destruct (H c (or_introl eq_refl)) as (_ & _ & K & _) end.
  specialize (K (PK 1)). cbn in K. intuition discriminate.
Qed.
Print Assumptions one_role_refuted.

(** If the names of the roles differ, no type has the same method twice. *)
Theorem generated_apart : forall timed mesh roles l, NoDup roles -> impls timed mesh roles = Some l -> apart l.
Proof. exact impls_apart. Qed.
Print Assumptions generated_apart.
Example generated_apart_example : NoDup abc /\ exists l, impls false "MeshedChannelsThree" abc = Some l.
Proof. split; [exact abc_distinct|apply impls_some]. Qed.

Lemma apart_not : forall l a b im1 im2 m outs1 outs2 sg1 sg2 T, nth_error l a = Some im1 -> nth_error l b = Some im2 -> a <> b ->
  In (m, outs1) (i_methods im1) -> In (m, outs2) (i_methods im2) -> fits im1 sg1 T -> fits im2 sg2 T -> ~ apart l.
Proof. intros l a b im1 im2 m outs1 outs2 sg1 sg2 T Ha Hb Hne H1 H2 F1 F2 H. apply Hne. exact (H _ _ _ _ _ _ _ _ _ _ Ha Hb H1 H2 F1 F2). Qed.

(** A name given to two roles: two blocks for one type (E0592). *)
Definition plain (v : param) : rty := match v with PRole => role_end_t | PName | PN _ => name_t "A" | PR _ => role_end_t | _ => end_t end.
Lemma plain_fits : forall ps, (forall v, In v ps -> match v with PK _ => False | _ => True end) -> forall v, In v ps -> ok_for v (plain v) = true.
Proof. intros ps H v Hv. specialize (H v Hv). destruct v; try reflexivity. destruct H. Qed.
Theorem repeated_role_refuted : exists l, impls false "M" ["A"; "A"]%string = Some l /\ ~ apart l.
Proof.
  eexists. split; [vm_compute; reflexivity|].
  eapply (apart_not _ 0 1 _ _ MSend _ _ plain plain); [reflexivity|reflexivity|discriminate|left; reflexivity|left; reflexivity| |].
  - split; [apply plain_fits; cbn; intuition; subst; exact Logic.I|cbn; reflexivity].
  - split; [apply plain_fits; cbn; intuition; subst; exact Logic.I|cbn; reflexivity].
Qed.
Print Assumptions repeated_role_refuted.

(** Two interleaved protocols: no clash if their MeshedChannels have different names, else there may be one. *)
Theorem interleaved_apart : forall timed mesh1 mesh2 roles1 roles2 l, mesh1 <> mesh2 -> NoDup roles1 -> NoDup roles2 ->
  impls_two timed mesh1 mesh2 roles1 roles2 = Some l -> apart l.
Proof. exact two_apart_lemma. Qed.
Print Assumptions interleaved_apart.
Example interleaved_apart_example : "MeshedChannelsTwo"%string <> "MeshedChannelsThree"%string /\ NoDup ["A"; "D"]%string /\ NoDup abc /\
  exists l, impls_two true "MeshedChannelsTwo" "MeshedChannelsThree" ["A"; "D"]%string abc = Some l.
Proof.
  split; [discriminate|]. split; [repeat constructor; cbn; intuition discriminate|]. split; [exact abc_distinct|].
  unfold impls_two. destruct (impls_some true "MeshedChannelsTwo" ["A"; "D"]%string) as [l1 ->].
  destruct (impls_some true "MeshedChannelsThree" abc) as [l2 ->]. eauto.
Qed.
Theorem interleaved_same_refuted : exists l, impls_two false "M" "M" ["A"; "B"]%string ["C"; "D"]%string = Some l /\ ~ apart l.
Proof.
  eexists. split; [vm_compute; reflexivity|].
  eapply (apart_not _ 10 22 _ _ MClose _ _ plain plain); [reflexivity|reflexivity|discriminate|left; reflexivity|left; reflexivity| |].
  - split; [apply plain_fits; cbn; intuition; subst; exact Logic.I|cbn; reflexivity].
  - split; [apply plain_fits; cbn; intuition; subst; exact Logic.I|cbn; reflexivity].
Qed.
Print Assumptions interleaved_same_refuted.

(** Hence a call has at most one answer. *)
Theorem call_determined : forall timed mesh roles l m T outs outs', NoDup roles -> 2 <= List.length roles -> impls timed mesh roles = Some l ->
  resolves l m T outs -> resolves l m T outs' -> outs = outs'.
Proof.
  intros timed mesh roles l m T outs outs' Hr Hn E H H'. destruct (generated_compile timed mesh roles Hn) as (l' & E' & Hc).
  rewrite E in E'. injection E' as <-. apply (resolves_once l m T outs outs' Hc (impls_apart _ _ _ _ Hr E)); [|exact H|exact H'].
  intros im o o' Him Ho Ho'. exact (impls_methods _ _ _ _ _ _ _ _ E Him Ho Ho').
Qed.
Print Assumptions call_determined.

(** * Which calls a MeshedChannels answers *)

(** [send]: the top of the stack names a role, and the session with that role sends. *)
Theorem send_exactly : forall timed mesh roles l p F stack outs, NoDup roles -> impls timed mesh roles = Some l ->
  1 <= p <= List.length roles -> (forall q, 1 <= q <= List.length roles -> q <> p -> is_session (F q) = true) -> is_role stack = true ->
  (resolves l MSend (endpoint mesh roles p F stack) outs <->
   exists q V s R w, (1 <= q <= List.length roles /\ q <> p) /\ stack = RApp (CRole (role_name roles q)) [R] /\ F q = sending timed w V s /\
     outs = [endpoint mesh roles p (update F q s) R]).
Proof. intros timed mesh roles l p F stack outs Hr Hl Hp HF Hs. exact (exact_send timed mesh roles l Hr Hl p F stack Hp HF Hs outs). Qed.
Print Assumptions send_exactly.

(** [recv]: the same with a session that receives; the value comes first. *)
Theorem recv_exactly : forall timed mesh roles l p F stack outs, NoDup roles -> impls timed mesh roles = Some l ->
  1 <= p <= List.length roles -> (forall q, 1 <= q <= List.length roles -> q <> p -> is_session (F q) = true) -> is_role stack = true ->
  (resolves l MRecv (endpoint mesh roles p F stack) outs <->
   exists q V s R w, (1 <= q <= List.length roles /\ q <> p) /\ stack = RApp (CRole (role_name roles q)) [R] /\ F q = receiving timed w V s /\
     outs = [V; endpoint mesh roles p (update F q s) R]).
Proof. intros timed mesh roles l p F stack outs Hr Hl Hp HF Hs. exact (exact_recv timed mesh roles l Hr Hl p F stack Hp HF Hs outs). Qed.
Print Assumptions recv_exactly.

Theorem recv_from_all_exactly : forall timed mesh roles l p F stack outs, NoDup roles -> impls timed mesh roles = Some l ->
  1 <= p <= List.length roles -> (forall q, 1 <= q <= List.length roles -> q <> p -> is_session (F q) = true) ->
  (resolves l MRecvAll (endpoint mesh roles p F stack) outs <->
   exists q V s w, (1 <= q <= List.length roles /\ q <> p) /\ stack = RApp (CAllTo (role_name roles q)) [role_end_t; role_end_t] /\
     F q = receiving timed w V s /\ outs = [V; endpoint mesh roles p (update F q s) role_end_t]).
Proof. intros timed mesh roles l p F stack outs Hr Hl Hp HF. exact (exact_recv_all timed mesh roles l Hr Hl p F stack Hp HF outs). Qed.
Print Assumptions recv_from_all_exactly.

(** [offer]: an [Either] of two MeshedChannels of the same role comes from the role whose choice it is, and no other
    session is left. *)
Theorem offer_exactly : forall timed mesh roles l p F stack outs, NoDup roles -> impls timed mesh roles = Some l ->
  1 <= p <= List.length roles -> (forall q, 1 <= q <= List.length roles -> q <> p -> is_session (F q) = true) ->
  (resolves l MOffer (endpoint mesh roles p F stack) outs <->
   exists q w GL GR R1 R2, (1 <= q <= List.length roles /\ q <> p) /\ stack = RApp (CAllTo (role_name roles q)) [role_end_t; role_end_t] /\
     (forall x, 1 <= x <= List.length roles -> x <> p -> is_session (GL x) = true /\ is_session (GR x) = true) /\
     is_role R1 = true /\ is_role R2 = true /\
     F q = receiving timed w (RApp CEither [endpoint mesh roles p GL R1; endpoint mesh roles p GR R2]) end_t /\
     (forall x, 1 <= x <= List.length roles -> x <> p -> x <> q -> F x = end_t) /\
     outs = [endpoint mesh roles p GL R1; endpoint mesh roles p GR R2]).
Proof. intros timed mesh roles l p F stack outs Hr Hl Hp HF. exact (exact_offer timed mesh roles l Hr Hl p F stack Hp HF outs). Qed.
Print Assumptions offer_exactly.

(** [choose_left], [choose_right]: all other roles are sent an [Either] of their MeshedChannels; the sessions of all roles
    after the choice are dual to each other; in the timed blocks all the sends have one window. *)
Theorem choose_exactly : forall timed mesh roles l p F stack (left : bool) outs, NoDup roles -> impls timed mesh roles = Some l ->
  2 <= List.length roles -> 1 <= p <= List.length roles ->
  (forall q, 1 <= q <= List.length roles -> q <> p -> is_session (F q) = true) -> is_role stack = true ->
  (resolves l (if left then MChooseLeft else MChooseRight) (endpoint mesh roles p F stack) outs <->
   exists w GL GR RL RR R1 R2, stack = RApp (CToAll (role_name roles p)) [R1; R2] /\
     dual_family (List.length roles) GL /\ dual_family (List.length roles) GR /\
     (forall q, 1 <= q <= List.length roles -> q <> p -> is_role (RL q) = true /\ is_role (RR q) = true) /\
     (forall q, 1 <= q <= List.length roles -> q <> p ->
        F q = sending timed w (RApp CEither [endpoint mesh roles q (GL q) (RL q); endpoint mesh roles q (GR q) (RR q)]) end_t) /\
     outs = [if left then endpoint mesh roles p (GL p) R1 else endpoint mesh roles p (GR p) R2]).
Proof.
  intros timed mesh roles l p F stack left outs Hr Hl Hn Hp HF Hs. exact (exact_choose timed mesh roles l Hr Hl p F stack Hp HF Hs left outs Hn).
Qed.
Print Assumptions choose_exactly.

(** [close]: nothing is left. [cancel]: always. *)
Theorem close_exactly : forall timed mesh roles l p F stack outs, impls timed mesh roles = Some l -> 1 <= p <= List.length roles ->
  (resolves l MClose (endpoint mesh roles p F stack) outs <->
   (forall q, 1 <= q <= List.length roles -> q <> p -> F q = end_t) /\ stack = role_end_t /\ outs = []).
Proof. intros timed mesh roles l p F stack outs Hl Hp. exact (exact_close timed mesh roles l Hl p F stack Hp outs). Qed.
Print Assumptions close_exactly.
Theorem cancel_always : forall timed mesh roles l p F stack, impls timed mesh roles = Some l ->
  1 <= p <= List.length roles -> (forall q, 1 <= q <= List.length roles -> q <> p -> is_session (F q) = true) -> is_role stack = true ->
  resolves l MCancel (endpoint mesh roles p F stack) [].
Proof. intros timed mesh roles l p F stack Hl Hp HF Hs. exact (exact_cancel timed mesh roles l Hl p F stack Hp HF Hs). Qed.
Print Assumptions cancel_always.

(** * Two sides of a call *)

(** If p may send to q and the stack of q names p, then q may receive the same payload, and afterwards the sessions of all
    roles are dual again. *)
Theorem send_answered : forall timed mesh roles l p q G R R' outs, NoDup roles -> impls timed mesh roles = Some l ->
  1 <= p <= List.length roles -> 1 <= q <= List.length roles -> q <> p -> dual_family (List.length roles) G -> is_role R = true -> is_role R' = true ->
  resolves l MSend (endpoint mesh roles p (G p) (RApp (CRole (role_name roles q)) [R])) outs ->
  exists V G', dual_family (List.length roles) G' /\ outs = [endpoint mesh roles p (G' p) R] /\
    resolves l MRecv (endpoint mesh roles q (G q) (RApp (CRole (role_name roles p)) [R'])) [V; endpoint mesh roles q (G' q) R'] /\
    (forall a b, (a, b) <> (p, q) -> (a, b) <> (q, p) -> G' a b = G a b).
Proof.
  intros timed mesh roles l p q G R R' outs Hr Hl Hp Hq Hne HG HR HR' H.
  assert (HS : forall a b, 1 <= a <= List.length roles -> 1 <= b <= List.length roles -> b <> a -> is_session (G a b) = true).
  { intros a b Ha Hb Hab. apply (HG a b); auto. }
  apply (send_exactly timed mesh roles l p (G p) (RApp (CRole (role_name roles q)) [R]) outs Hr Hl Hp (fun x Hx Hn => HS p x Hp Hx Hn) HR) in H as (q' & V & s & R1 & w & [Hq' Hn'] & E & EF & ->).
  injection E as E ->. apply (role_name_inj roles q q' Hr Hq Hq') in E. subst q'.
  assert (Hs : is_session s = true) by (rewrite <- (is_session_sending timed w V s), <- EF; apply HS; assumption).
  exists V, (update2 G p q s). split; [|split; [|split]].
  - apply update2_dual; [exact HG|congruence|exact Hs].
  - f_equal. apply endpoint_ext. intros x Hx Hn. unfold update, update2. rewrite Nat.eqb_refl. destruct (Nat.eqb_spec x q); [reflexivity|].
    destruct (Nat.eqb_spec p q); [congruence|reflexivity].
  - apply (recv_exactly timed mesh roles l q (G q) (RApp (CRole (role_name roles p)) [R']) _ Hr Hl Hq (fun x Hx Hn => HS q x Hq Hx Hn) HR').
    exists p, V, (gdual s), R', w. split; [auto|]. split; [reflexivity|]. split.
    + destruct (HG q p Hq Hp Hne) as [_ ->]. rewrite EF. apply gdual_sending.
    + f_equal. f_equal. apply endpoint_ext. intros x Hx Hn. unfold update, update2. rewrite Nat.eqb_refl.
      destruct (Nat.eqb_spec q p); [contradiction|]. destruct (Nat.eqb_spec x p); reflexivity.
  - intros a b H1 H2. unfold update2. destruct (Nat.eqb_spec a p), (Nat.eqb_spec b q); cbn [andb]; try (exfalso; apply H1; congruence);
      destruct (Nat.eqb_spec a q), (Nat.eqb_spec b p); cbn [andb]; try reflexivity; exfalso; apply H2; congruence.
Qed.
Print Assumptions send_answered.

(** If p may choose and every other role waits for the choice of p with no other session left, then every other role may
    offer, both sides of the choice give all roles sessions that are dual to each other, and all take the same side. *)
Theorem choice_answered : forall timed mesh roles l p G stack (left : bool) outs, NoDup roles -> impls timed mesh roles = Some l ->
  2 <= List.length roles -> 1 <= p <= List.length roles -> dual_family (List.length roles) G -> is_role stack = true ->
  (forall q x, 1 <= q <= List.length roles -> 1 <= x <= List.length roles -> q <> p -> x <> p -> x <> q -> G q x = end_t) ->
  resolves l (if left then MChooseLeft else MChooseRight) (endpoint mesh roles p (G p) stack) outs ->
  exists GL GR RL RR, dual_family (List.length roles) GL /\ dual_family (List.length roles) GR /\
    outs = [endpoint mesh roles p (if left then GL p else GR p) (if left then RL p else RR p)] /\
    (forall q, 1 <= q <= List.length roles -> q <> p ->
       resolves l MOffer (endpoint mesh roles q (G q) (RApp (CAllTo (role_name roles p)) [role_end_t; role_end_t]))
         [endpoint mesh roles q (GL q) (RL q); endpoint mesh roles q (GR q) (RR q)]).
Proof.
  intros timed mesh roles l p G stack left outs Hr Hl Hn Hp HG Hst HE H.
  assert (HS : forall a b, 1 <= a <= List.length roles -> 1 <= b <= List.length roles -> b <> a -> is_session (G a b) = true).
  { intros a b Ha Hb Hab. apply (HG a b); auto. }
  apply (choose_exactly timed mesh roles l p (G p) stack left outs Hr Hl Hn Hp (fun x Hx Hne => HS p x Hp Hx Hne) Hst)
    in H as (w & GL & GR & RL & RR & R1 & R2 & Est & HL & HR & HRR & HF & ->).
  exists GL, GR, (fun q => if q =? p then R1 else RL q), (fun q => if q =? p then R2 else RR q).
  split; [exact HL|]. split; [exact HR|]. split; [rewrite Nat.eqb_refl; destruct left; reflexivity|].
  intros q Hq Hne. destruct (Nat.eqb_spec q p) as [|_]; [contradiction|].
  apply (offer_exactly timed mesh roles l q (G q) _ _ Hr Hl Hq (fun x Hx Hnx => HS q x Hq Hx Hnx)).
  exists p, w, (GL q), (GR q), (RL q), (RR q). split; [auto|]. split; [reflexivity|]. split; [|split; [|split; [|split; [|split]]]].
  - intros x Hx Hnx. split; [apply (HL q x)|apply (HR q x)]; auto.
  - apply HRR; assumption.
  - apply HRR; assumption.
  - destruct (HG q p Hq Hp Hne) as [_ ->]. rewrite (HF q Hq Hne). apply gdual_sending.
  - intros x Hx Hnx Hxp. apply HE; auto.
  - reflexivity.
Qed.
Print Assumptions choice_answered.

(** * The machine of Mesh.v only makes calls that compile *)

(** What a thread does is a call that its MeshedChannels answers, and it goes on with the type the call returns. *)
Theorem machine_calls_compile : forall (St Hd : Type) (O : ops St Hd) branch labels strict mesh roles l p i th s th' s' ss r hs e,
  NoDup roles -> impls false mesh roles = Some l -> 1 <= p <= List.length roles -> List.length ss = List.length roles - 1 ->
  t_trash th = [] -> t_prog th = PRun ss r hs -> tstep O (List.length roles) branch labels strict p i th s = Some (th', s') ->
  t_log th' = t_log th ++ [e] ->
  match e with
  | EvSend _ x (VData t _) => exists ss' r' hs', t_prog th' = PRun ss' r' hs' /\
      resolves l MSend (thread_t mesh roles p ss r) [thread_t mesh roles p ss' r']
  | EvSend _ _ (VLabel _ _ _) => False
  | EvRecv _ x (VData t _) => exists ss' r' hs', t_prog th' = PRun ss' r' hs' /\
      resolves l MRecv (thread_t mesh roles p ss r) [pty_t (PVal t); thread_t mesh roles p ss' r']
  | EvRecv _ x (VLabel b _ j) => exists rest, resolves l MRecv (thread_t mesh roles p ss r) [pty_t (PChoice b j); rest]
  | EvClose => resolves l MClose (thread_t mesh roles p ss r) []
  end.
Proof.
  intros St Hd O branch labels strict mesh roles l p i th s th' s' ss r hs e Hr Hl Hp Hlen Htr Hpr Hstep Hlog.
  set (n := List.length roles) in *.
  assert (Hnil : forall (A : Type) (x : list A) y, x = x ++ [y] -> False).
  { intros A x y E. apply (f_equal (@List.length A)) in E. rewrite app_length in E. cbn in E. lia. }
  assert (Hcall : forall x, callable n p x = true -> 1 <= x <= n /\ x <> p).
  { intros x Hx. unfold callable in Hx. apply andb_prop in Hx as [Hx H3]. apply andb_prop in Hx as [H1 H2].
    apply negb_true_iff, Nat.eqb_neq in H1. apply Nat.leb_le in H2, H3. lia. }
  assert (HF : forall q, 1 <= q <= n -> q <> p -> is_session (facing p ss q) = true) by (intros; apply is_session_sty).
  rewrite thread_endpoint by assumption.
  assert (Hnth : forall x t, nth_error ss (comm_field p x - 1) = Some t -> facing p ss x = sty_t t).
  { intros x t E. unfold facing. rewrite (nth_error_nth _ _ _ E). reflexivity. }
  unfold tstep in Hstep. rewrite Htr, Hpr in Hstep. destruct i as [|v|lb|].
  - destruct r as [| |x r| | |]; try discriminate.
    + destruct (forallb is_end ss) eqn:Ee; [|discriminate]. injection Hstep as <- <-. cbn in Hlog. apply app_inv_head in Hlog. injection Hlog as <-.
      apply (close_exactly false mesh roles l p _ _ _ Hl Hp). split; [|split; reflexivity]. intros q Hq Hne. rewrite forallb_forall in Ee.
      unfold facing. destruct (nth_in_or_default (comm_field p q - 1) ss End) as [Hin|E]; [|rewrite E; reflexivity].
      apply Ee in Hin. destruct (nth (comm_field p q - 1) ss End); try discriminate Hin. reflexivity.
    + destruct (callable n p x) eqn:Ec; [|discriminate]. destruct (Hcall x Ec) as [Hx Hne].
      destruct (nth_error ss (comm_field p x - 1)) as [[|q k|q k]|] eqn:Es; try discriminate.
      destruct (nth_error hs (comm_field p x - 1)) as [h|] eqn:Eh; [|destruct q as [t|b j]; [|destruct k]; discriminate].
      destruct q as [t|b j].
      * unfold do_recv in Hstep. destruct (op_recv O h s) as [[t' v|b l0 j] m h' s1|s1| |]; try discriminate;
          try (injection Hstep as <- <-; cbn in Hlog; exfalso; exact (Hnil _ _ _ Hlog)).
        destruct m as [|]; [|injection Hstep as <- <-; cbn in Hlog; exfalso; exact (Hnil _ _ _ Hlog)].
        destruct (t' =? t); [|injection Hstep as <- <-; cbn in Hlog; exfalso; exact (Hnil _ _ _ Hlog)].
        injection Hstep as <- <-. cbn in Hlog. apply app_inv_head in Hlog. injection Hlog as <-. eexists _, _, _. split; [reflexivity|].
        apply (recv_exactly false mesh roles l p _ _ _ Hr Hl Hp HF (is_role_stack roles _)).
        exists x, (pty_t (PVal t)), (sty_t k), (stack_t roles r), win. split; [auto|]. split; [reflexivity|]. split; [rewrite (Hnth _ _ Es); reflexivity|].
        rewrite thread_set by assumption. reflexivity.
      * destruct k; try discriminate. destruct (Nat.eqb_spec j p) as [->|]; [|discriminate].
        unfold do_offer in Hstep. destruct (op_recv O h s) as [[t' v|b' l0 j'] m h' s1|s1| |]; try discriminate;
          try (injection Hstep as <- <-; cbn in Hlog; exfalso; exact (Hnil _ _ _ Hlog)).
        destruct ((b' =? b) && (j' =? p) && (l0 <? labels b)); [|injection Hstep as <- <-; cbn in Hlog; exfalso; exact (Hnil _ _ _ Hlog)].
        injection Hstep as <- <-. cbn in Hlog. apply app_inv_head in Hlog. injection Hlog as <-. eexists.
        apply (recv_exactly false mesh roles l p _ _ _ Hr Hl Hp HF (is_role_stack roles _)).
        exists x, (pty_t (PChoice b p)), end_t, (stack_t roles r), win. split; [auto|]. split; [reflexivity|]. split; [rewrite (Hnth _ _ Es); reflexivity|].
        reflexivity.
  - destruct r as [| |x r| | |]; try discriminate. destruct (callable n p x) eqn:Ec; [|discriminate]. destruct (Hcall x Ec) as [Hx Hne].
    destruct (nth_error ss (comm_field p x - 1)) as [[|[t|b j] k|q k]|] eqn:Es; try discriminate.
    destruct (nth_error hs (comm_field p x - 1)) as [h|] eqn:Eh; [|discriminate].
    assert (G : resolves l MSend (endpoint mesh roles p (facing p ss) (stack_t roles (SRole x r))) [thread_t mesh roles p (set_nth (comm_field p x - 1) k ss) r]).
    { apply (send_exactly false mesh roles l p _ _ _ Hr Hl Hp HF (is_role_stack roles _)).
      exists x, (pty_t (PVal t)), (sty_t k), (stack_t roles r), win. split; [auto|]. split; [reflexivity|]. split; [rewrite (Hnth _ _ Es); reflexivity|].
      rewrite thread_set by assumption. reflexivity. }
    unfold do_send in Hstep. destruct (op_send O h (VData t v) [] k s) as [here s1|here lost s1| |]; try discriminate;
      try (injection Hstep as <- <-; cbn in Hlog; exfalso; exact (Hnil _ _ _ Hlog)).
    + injection Hstep as <- <-. cbn in Hlog. apply app_inv_head in Hlog. injection Hlog as <-. eexists _, _, _. split; [reflexivity|exact G].
    + destruct strict; injection Hstep as <- <-; cbn in Hlog; [exfalso; exact (Hnil _ _ _ Hlog)|].
      apply app_inv_head in Hlog. injection Hlog as <-. eexists _, _, _. split; [reflexivity|exact G].
  - destruct r; try discriminate. destruct (choice_of p ss) as [b|]; [|discriminate]. destruct (lb <? labels b); [|discriminate].
    destruct (make_choice O n branch p b lb hs s) as [[pr s1]|]; injection Hstep as <- <-; cbn in Hlog; exfalso; exact (Hnil _ _ _ Hlog).
  - injection Hstep as <- <-. cbn in Hlog. exfalso. exact (Hnil _ _ _ Hlog).
Qed.
Print Assumptions machine_calls_compile.

(** Conversely a call of [send], [recv] or [close] that compiles is a move of the machine, unless the channel is full or
    empty. (Enums are sent and received by the choice macros, not by hand.) *)
Theorem calls_are_moves : forall (St Hd : Type) (O : ops St Hd) branch labels strict mesh roles l p th s ss r hs outs,
  NoDup roles -> impls false mesh roles = Some l -> 1 <= p <= List.length roles -> List.length ss = List.length roles - 1 ->
  List.length hs = List.length ss -> top_ok (List.length roles) r -> data_only ss -> t_trash th = [] -> t_prog th = PRun ss r hs ->
  (resolves l MSend (thread_t mesh roles p ss r) outs -> forall v, tstep O (List.length roles) branch labels strict p (IVal v) th s = None ->
     exists h t k, In h hs /\ op_send O h (VData t v) [] k s = SentWait) /\
  (resolves l MRecv (thread_t mesh roles p ss r) outs -> tstep O (List.length roles) branch labels strict p ITau th s = None ->
     exists h, In h hs /\ op_recv O h s = GotWait) /\
  (resolves l MClose (thread_t mesh roles p ss r) outs -> tstep O (List.length roles) branch labels strict p ITau th s <> None).
Proof.
  intros St Hd O branch labels strict mesh roles l p th s ss r hs outs Hr Hl Hp Hlen Hhs Htop Hdata Htr Hpr.
  set (n := List.length roles) in *.
  assert (Hcall : forall x, 1 <= x <= n -> x <> p -> callable n p x = true).
  { intros x Hx Hne. unfold callable. rewrite !andb_true_iff, negb_true_iff, Nat.eqb_neq, !Nat.leb_le. lia. }
  assert (HF : forall q, 1 <= q <= n -> q <> p -> is_session (facing p ss q) = true) by (intros; apply is_session_sty).
  assert (Hfield : forall q, 1 <= q <= n -> q <> p -> exists h, nth_error hs (comm_field p q - 1) = Some h /\
     nth_error ss (comm_field p q - 1) = Some (nth (comm_field p q - 1) ss End)).
  { intros q Hq Hne. destruct (peer_onto n p q Hp Hq (not_eq_sym Hne)) as (k & Hk & <-). rewrite comm_field_peer by lia.
    destruct (nth_error hs (k - 1)) as [h|] eqn:Eh; [|apply nth_error_None in Eh; lia]. exists h. split; [reflexivity|]. apply nth_error_nth'. lia. }
  rewrite thread_endpoint by assumption. unfold tstep. rewrite Htr, Hpr. split; [|split].
  - intros H v. apply (send_exactly false mesh roles l p _ _ _ Hr Hl Hp HF (is_role_stack roles _)) in H as (q & V & k0 & R & w & [Hq Hne] & Est & EF & _).
    destruct r as [| |x r| | |]; try discriminate Est. injection Est as Ex _. apply (role_name_inj roles x q Hr Htop Hq) in Ex. subst x.
    destruct (Hfield q Hq Hne) as (h & Eh & Es). rewrite (Hcall q Hq Hne), Es, Eh.
    unfold facing in EF. pose proof (Hdata _ (nth_error_In _ _ Es)) as HD.
    destruct (nth (comm_field p q - 1) ss End) as [|[t|b j] k|[t|b j] k]; try discriminate EF; try destruct HD.
    unfold do_send. destruct (op_send O h (VData t v) [] k s) as [here s1|here lost s1| |] eqn:Eo; intros E; try discriminate.
    + destruct strict; discriminate.
    + exists h, t, k. split; [exact (nth_error_In _ _ Eh)|exact Eo].
  - intros H. apply (recv_exactly false mesh roles l p _ _ _ Hr Hl Hp HF (is_role_stack roles _)) in H as (q & V & k0 & R & w & [Hq Hne] & Est & EF & _).
    destruct r as [| |x r| | |]; try discriminate Est. injection Est as Ex _. apply (role_name_inj roles x q Hr Htop Hq) in Ex. subst x.
    destruct (Hfield q Hq Hne) as (h & Eh & Es). rewrite (Hcall q Hq Hne), Es, Eh.
    unfold facing in EF. pose proof (Hdata _ (nth_error_In _ _ Es)) as HD.
    destruct (nth (comm_field p q - 1) ss End) as [|[t|b j] k|[t|b j] k]; try discriminate EF; try destruct HD.
    unfold do_recv. destruct (op_recv O h s) as [[t' v|b l0 j] m h' s1|s1| |] eqn:Eo; intros E; try discriminate.
    + destruct m; [|discriminate]. destruct (t' =? t); discriminate.
    + exists h. split; [exact (nth_error_In _ _ Eh)|exact Eo].
  - intros H. apply (close_exactly false mesh roles l p _ _ _ Hl Hp) in H as (HE & Est & _).
    destruct r as [| |x r|x r|x r1 r2|x r1 r2]; try discriminate Est.
    assert (Ee : forallb is_end ss = true).
    { apply forallb_forall. intros t Ht. apply In_nth_error in Ht as [k Hk].
      assert (k < n - 1) by (rewrite <- Hlen; apply nth_error_Some; congruence).
      pose proof (peer_range n p (k + 1) Hp ltac:(lia)) as Hq. specialize (HE (peer p (k + 1)) Hq (peer_neq p (k + 1))).
      unfold facing in HE. rewrite comm_field_peer in HE by lia. replace (k + 1 - 1) with k in HE by lia. rewrite (nth_error_nth _ _ _ Hk) in HE.
      destruct t; try discriminate HE. reflexivity. }
    rewrite Ee. discriminate.
Qed.
Print Assumptions calls_are_moves.

(** * Examples *)
Lemma three : forall q, 1 <= q <= 3 -> q = 1 \/ q = 2 \/ q = 3.
Proof. intros q H. lia. Qed.
(** A of A, B, C sends data to B, then receives from C. *)
Definition fam_a (q : nat) : rty := match q with 2 => sending true win bits end_t | 3 => receiving true win words end_t | _ => end_t end.
Definition stack_a : rty := RApp (CRole "B") [RApp (CRole "C") [role_end_t]].
Example calls_example : exists l, impls true "M" abc = Some l /\
  resolves l MSend (endpoint "M" abc 1 fam_a stack_a) [endpoint "M" abc 1 (update fam_a 2 end_t) (RApp (CRole "C") [role_end_t])] /\
  resolves l MRecv (endpoint "M" abc 1 (update fam_a 2 end_t) (RApp (CRole "C") [role_end_t]))
    [words; endpoint "M" abc 1 (update (update fam_a 2 end_t) 3 end_t) role_end_t] /\
  resolves l MClose (endpoint "M" abc 1 (update (update fam_a 2 end_t) 3 end_t) role_end_t) [] /\
  (forall outs, ~ resolves l MRecv (endpoint "M" abc 1 fam_a stack_a) outs) /\
  (forall outs, ~ resolves l MClose (endpoint "M" abc 1 fam_a stack_a) outs).
Proof.
  destruct (impls_some true "M" abc) as [l Hl]. exists l. split; [exact Hl|].
  assert (HS : forall q, 1 <= q <= List.length abc -> q <> 1 -> is_session (fam_a q) = true) by (intros q Hq _; destruct (three q Hq) as [-> |[-> | ->]]; reflexivity).
  assert (HS2 : forall q, 1 <= q <= List.length abc -> q <> 1 -> is_session (update fam_a 2 end_t q) = true) by (intros q Hq _; destruct (three q Hq) as [-> |[-> | ->]]; reflexivity).
  split; [|split; [|split; [|split]]].
  - apply (send_exactly true "M" abc l 1 fam_a stack_a _ abc_distinct Hl); [cbn; lia|exact HS|reflexivity|].
    exists 2, bits, end_t, (RApp (CRole "C") [role_end_t]), win. repeat split; cbn; try lia; reflexivity.
  - apply (recv_exactly true "M" abc l 1 (update fam_a 2 end_t) _ _ abc_distinct Hl); [cbn; lia|exact HS2|reflexivity|].
    exists 3, words, end_t, role_end_t, win. repeat split; cbn; try lia; reflexivity.
  - apply (close_exactly true "M" abc l 1 _ _ _ Hl); [cbn; lia|]. split; [|split; reflexivity].
    intros q Hq Hne. destruct (three q Hq) as [-> |[-> | ->]]; reflexivity.
  - intros outs H. apply (recv_exactly true "M" abc l 1 fam_a stack_a _ abc_distinct Hl) in H as (q & V & s & R & w & [Hq Hne] & E & EF & _); [|cbn; lia|exact HS|reflexivity].
    destruct (three q Hq) as [-> |[-> | ->]]; [congruence|discriminate EF|discriminate E].
  - intros outs H. apply (close_exactly true "M" abc l 1 _ _ _ Hl) in H as (_ & E & _); [discriminate E|cbn; lia].
Qed.

(** C chooses for A and B: left, A sends data to B; right, nothing. With different windows the choice does not compile. *)
Definition after (left : bool) (p q : nat) : rty :=
  match left, p, q with true, 1, 2 => sending true win bits end_t | true, 2, 1 => receiving true win bits end_t | _, _, _ => end_t end.
Definition after_stack (left : bool) (p : nat) : rty :=
  match left, p with true, 1 => RApp (CRole "B") [role_end_t] | true, 2 => RApp (CRole "A") [role_end_t] | _, _ => role_end_t end.
Definition either (q : nat) : rty :=
  RApp CEither [endpoint "M" abc q (after true q) (after_stack true q); endpoint "M" abc q (after false q) (after_stack false q)].
Definition at_choice (wa wb : window) (p q : nat) : rty :=
  match p, q with
  | 3, 1 => sending true wa (either 1) end_t | 3, 2 => sending true wb (either 2) end_t
  | 1, 3 => receiving true wa (either 1) end_t | 2, 3 => receiving true wb (either 2) end_t
  | _, _ => end_t
  end.
Definition choice_stack : rty := RApp (CToAll "C") [role_end_t; role_end_t].
Lemma after_dual : forall left, dual_family 3 (after left).
Proof.
  intros left p q Hp Hq Hne. destruct (three p Hp) as [-> |[-> | ->]], (three q Hq) as [-> |[-> | ->]]; try congruence; destruct left; split; reflexivity.
Qed.
Lemma at_choice_dual : forall wa wb, dual_family 3 (at_choice wa wb).
Proof. intros wa wb p q Hp Hq Hne. destruct (three p Hp) as [-> |[-> | ->]], (three q Hq) as [-> |[-> | ->]]; try congruence; split; reflexivity. Qed.
Example choice_example : exists l, impls true "M" abc = Some l /\
  resolves l MChooseLeft (endpoint "M" abc 3 (at_choice win win 3) choice_stack) [endpoint "M" abc 3 (after true 3) role_end_t] /\
  (forall q x, 1 <= q <= 3 -> 1 <= x <= 3 -> q <> 3 -> x <> 3 -> x <> q -> at_choice win win q x = end_t).
Proof.
  destruct (impls_some true "M" abc) as [l Hl]. exists l. split; [exact Hl|]. split.
  - apply (choose_exactly true "M" abc l 3 (at_choice win win 3) choice_stack true _ abc_distinct Hl); [cbn; lia|cbn; lia| |reflexivity|].
    + intros q Hq Hne. apply (at_choice_dual win win 3 q); cbn in *; lia.
    + exists win, (after true), (after false), (after_stack true), (after_stack false), role_end_t, role_end_t.
      split; [reflexivity|]. split; [apply after_dual|]. split; [apply after_dual|]. split; [|split; [|reflexivity]].
      * intros q Hq Hne. destruct (three q Hq) as [-> |[-> | ->]]; split; reflexivity.
      * intros q Hq Hne. destruct (three q Hq) as [-> |[-> | ->]]; [reflexivity|reflexivity|congruence].
  - intros q x Hq Hx Hq3 Hx3 Hne. destruct (three q Hq) as [-> |[-> | ->]], (three x Hx) as [-> |[-> | ->]]; try congruence; reflexivity.
Qed.

(** A binary choice cannot have different windows for its receivers, though each field alone may have any. *)
Theorem choice_windows_refuted : exists G, dual_family 3 G /\ forall l, impls true "M" abc = Some l ->
  (forall q, 1 <= q <= 3 -> q <> 3 -> exists w, G 3 q = sending true w (either q) end_t) /\
  forall outs, ~ resolves l MChooseLeft (endpoint "M" abc 3 (G 3) choice_stack) outs.
Proof.
  exists (at_choice win win2). split; [apply at_choice_dual|]. intros l Hl. split.
  - intros q Hq Hne. destruct (three q Hq) as [-> |[-> | ->]]; [exists win|exists win2|congruence]; reflexivity.
  - intros outs H.
    apply (choose_exactly true "M" abc l 3 (at_choice win win2 3) choice_stack true _ abc_distinct Hl) in H
      as (w & GL & GR & RL & RR & R1 & R2 & _ & _ & _ & _ & HF & _); [|cbn; lia|cbn; lia| |reflexivity].
    + pose proof (HF 1 ltac:(cbn; lia) ltac:(lia)) as E1. pose proof (HF 2 ltac:(cbn; lia) ltac:(lia)) as E2.
      cbn [at_choice sending] in E1, E2. injection E1 as _ _ _ _ E1. injection E2 as _ _ _ _ E2. congruence.
    + intros q Hq Hne. apply (at_choice_dual win win2 3 q); cbn in *; lia.
Qed.
Print Assumptions choice_windows_refuted.

(** A thread of the machine that sends, and its types. *)
Definition heap0 : heap := snd (bounded1 empty_heap).
Definition thread0 : thread := Thread (PRun [Snd (PVal 0) End] (SRole 2 SEnd) [ETx 0]) [] 0 [].
Example machine_calls_compile_example : exists l th' h', impls false "M" ["A"; "B"]%string = Some l /\ NoDup ["A"; "B"]%string /\
  tstep heap_ops 2 (fun _ _ _ => ([], SEnd)) (fun _ => 0) true 1 (IVal 7) thread0 heap0 = Some (th', h') /\
  t_log th' = t_log thread0 ++ [EvSend 0 2 (VData 0 7)] /\ top_ok 2 (SRole 2 SEnd) /\ data_only [Snd (PVal 0) End] /\
  resolves l MSend (thread_t "M" ["A"; "B"]%string 1 [Snd (PVal 0) End] (SRole 2 SEnd)) [thread_t "M" ["A"; "B"]%string 1 [End] SEnd].
Proof.
  destruct (impls_some false "M" ["A"; "B"]%string) as [l Hl]. exists l. eexists _, _.
  assert (ND : NoDup ["A"; "B"]%string) by (repeat constructor; cbn; intuition discriminate).
  split; [exact Hl|]. split; [exact ND|]. split; [reflexivity|]. split; [reflexivity|]. split; [cbn; lia|].
  split; [intros t [<-|[]]; exact Logic.I|].
  destruct (machine_calls_compile _ _ heap_ops (fun _ _ _ => ([], SEnd)) (fun _ => 0) true "M" ["A"; "B"]%string l 1 (IVal 7) thread0 heap0 _ _
    [Snd (PVal 0) End] (SRole 2 SEnd) [ETx 0] _ ND Hl ltac:(cbn; lia) eq_refl eq_refl eq_refl eq_refl eq_refl) as (ss' & r' & hs' & E & R).
  injection E as <- <- _. exact R.
Qed.
