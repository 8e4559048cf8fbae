(** C63: the functions declared by [create_send_mpst_session!] and its relatives: for which index they compile, what they
    do, and that with the right index, and only with it, they are the methods of [generate!]. Model: FnForms.v,
    specification: FnSpec.v, the declarations of the repository: FnCorpus.v. *)
From Coq Require Import Arith Bool String Lia.
From Verif Require Import Types Diag Wiring Methods MethodsSpec MethodsProofs FnForms FnSpec FnProofs FnCorpus.
From Coq Require Import List.
Import ListNotations.
Open Scope nat_scope.
Open Scope list_scope.

Definition abc : list string := ["A"; "B"; "C"]%string.
Definition bits : rty := RApp (CUser 0) [].
Definition M : string := "MeshedChannels".

(** * For which index the functions compile *)

(** The functions that receive compile for the numbers of the fields; so do those that offer. *)
Theorem recv_function_compiles : forall mesh n sender receiver e, fn_ok mesh n (recv_fn mesh n sender receiver e) <-> 1 <= e < n.
Proof. exact recv_fn_ok. Qed.
Print Assumptions recv_function_compiles.
Theorem offer_function_compiles : forall mesh n role name e, fn_ok mesh n (offer_fn mesh n role name e) <-> 1 <= e < n.
Proof. exact offer_fn_ok. Qed.
Print Assumptions offer_function_compiles.
Example compiles_example : fn_ok M 3 (recv_fn M 3 "B" "A" 1) /\ ~ fn_ok M 3 (recv_fn M 3 "B" "A" 3) /\ fn_ok M 4 (offer_fn M 4 "B" "A" 3).
Proof.
  split; [apply recv_function_compiles; lia|]. split; [|apply offer_function_compiles; lia].
  intros H. apply recv_function_compiles in H. lia.
Qed.

(** The function that first looks at the channel of the broadcaster cannot send on that channel. *)
Theorem check_function_compiles : forall mesh n receiver sender e,
  fn_ok mesh n (send_check_fn mesh n receiver sender e) <-> 2 <= n /\ e <> 1.
Proof. exact check_fn_ok. Qed.
Print Assumptions check_function_compiles.

(** The functions that send compile for every index: also if no field has it. *)
Theorem send_function_compiles : forall mesh n receiver sender e, fn_ok mesh n (send_fn mesh n receiver sender e).
Proof. exact send_fn_ok. Qed.
Print Assumptions send_function_compiles.

(** * What they do *)

(** The function uses the field of its index, once, and puts what comes back in the same place; other fields stay. *)
Theorem function_uses_its_field : forall (H : Type) (after : H -> H) mesh peer own (a b : list H) h,
  let hs := a ++ h :: b in let n := S (List.length hs) in let e := S (List.length a) in
  run_fn H after (send_fn mesh n peer own e) hs = Some ([Sent e], a ++ after h :: b) /\
  run_fn H after (recv_fn mesh n peer own e) hs = Some ([Received e], a ++ after h :: b) /\
  run_fn H after (offer_fn mesh n peer own e) hs = Some ([Received e], a ++ after h :: b) /\
  (a <> [] -> run_fn H after (send_check_fn mesh n peer own e) hs = Some ([Looked 1; Sent e], a ++ after h :: b)).
Proof.
  intros H after mesh peer own a b h hs n e. split; [apply send_runs|]. split; [apply recv_runs|]. split; [apply offer_runs|]. apply check_runs.
Qed.
Print Assumptions function_uses_its_field.
Example function_uses_its_field_example :
  run_fn nat S (send_fn M 4 "D" "A" 3) [10; 20; 30] = Some ([Sent 3], [10; 20; 31]) /\
  run_fn nat S (send_check_fn M 4 "D" "A" 3) [10; 20; 30] = Some ([Looked 1; Sent 3], [10; 20; 31]).
Proof. split; reflexivity. Qed.

(** "A send function that compiles sends": false. With an index that is no field the call is accepted for every
    MeshedChannels with the role on the stack, drops the value, sends nothing, and takes the role off the stack. *)
Theorem send_function_sends_refuted : exists mesh n receiver sender e, fn_ok mesh n (send_fn mesh n receiver sender e) /\
  (forall (H : Type) (after : H -> H) hs, List.length hs = n - 1 -> run_fn H after (send_fn mesh n receiver sender e) hs = Some ([], hs)) /\
  accepts_call (send_fn mesh n receiver sender e) (Some bits) (mesh_t mesh [end_t; end_t] (RApp (CRole receiver) [role_end_t]) (name_t sender))
    [mesh_t mesh [end_t; end_t] role_end_t (name_t sender)].
Proof.
  exists M, 3, "B"%string, "A"%string, 3. split; [apply send_fn_ok|]. split.
  - intros H after hs Hl. pose proof (send_silent H after M "B" "A" hs 3) as E. cbn in Hl. rewrite Hl in E. apply E. lia.
  - exists (fun v => match v with PT => bits | PRole => role_end_t | _ => end_t end). split; [|split; [reflexivity|split; reflexivity]].
    intros v Hv. cbn in Hv. destruct Hv as [<-|[<-|[<-|[<-|[]]]]]; reflexivity.
Qed.
Print Assumptions send_function_sends_refuted.

(** * Which calls they take *)

(** For an index that is a field: the session of the field sends a value of that type, the stack starts with the receiver,
    the name is the sender. Nothing asks that the field be that of the receiver. *)
Theorem send_function_calls : forall mesh n receiver sender e fields stack name V outs, 1 <= e < n -> List.length fields = n - 1 ->
  Forall (fun t => is_session t = true) fields -> is_role stack = true ->
  (accepts_call (send_fn mesh n receiver sender e) (Some V) (mesh_t mesh fields stack name) outs <->
   exists a b s R, fields = a ++ RApp CSend [V; s] :: b /\ List.length a = e - 1 /\ stack = RApp (CRole receiver) [R] /\
     name = name_t sender /\ outs = [mesh_t mesh (a ++ s :: b) R (name_t sender)]).
Proof. exact send_call. Qed.
Print Assumptions send_function_calls.
Theorem recv_function_calls : forall mesh n sender receiver e fields stack name outs, 1 <= e < n -> List.length fields = n - 1 ->
  Forall (fun t => is_session t = true) fields -> is_role stack = true ->
  (accepts_call (recv_fn mesh n sender receiver e) None (mesh_t mesh fields stack name) outs <->
   exists a b V s R, fields = a ++ RApp CRecv [V; s] :: b /\ List.length a = e - 1 /\ stack = RApp (CRole sender) [R] /\
     name = name_t receiver /\ outs = [V; mesh_t mesh (a ++ s :: b) R (name_t receiver)]).
Proof. exact recv_call. Qed.
Print Assumptions recv_function_calls.
Theorem check_function_calls : forall mesh n receiver sender e fields stack name V outs, 2 <= e < n -> List.length fields = n - 1 ->
  Forall (fun t => is_session t = true) fields -> is_role stack = true ->
  (accepts_call (send_check_fn mesh n receiver sender e) (Some V) (mesh_t mesh fields stack name) outs <->
   nth_error fields 0 = Some end_t /\ accepts_call (send_fn mesh n receiver sender e) (Some V) (mesh_t mesh fields stack name) outs).
Proof. exact check_call. Qed.
Print Assumptions check_function_calls.
Example function_calls_example :
  let T := mesh_t M [end_t; RApp CSend [bits; end_t]] (RApp (CRole "C") [role_end_t]) (name_t "A") in
  accepts_call (send_fn M 3 "C" "A" 2) (Some bits) T [mesh_t M [end_t; end_t] role_end_t (name_t "A")] /\
  accepts_call (send_check_fn M 3 "C" "A" 2) (Some bits) T [mesh_t M [end_t; end_t] role_end_t (name_t "A")].
Proof.
  assert (A : accepts_call (send_fn M 3 "C" "A" 2) (Some bits) (mesh_t M [end_t; RApp CSend [bits; end_t]] (RApp (CRole "C") [role_end_t]) (name_t "A"))
                [mesh_t M [end_t; end_t] role_end_t (name_t "A")]).
  { apply send_function_calls; [lia|reflexivity|repeat constructor|reflexivity|]. exists [end_t], [], end_t, role_end_t. repeat split. }
  split; [exact A|]. apply check_function_calls; [lia|reflexivity|repeat constructor|reflexivity|]. split; [reflexivity|exact A].
Qed.

(** * Functions and methods *)

(** A function has the type of the method of [generate!] for its two roles exactly if its index is the field of the peer. *)
Theorem send_function_is_method : forall mesh roles p q e im, let n := List.length roles in 1 <= p <= n -> 1 <= q <= n -> p <> q ->
  send_impl false mesh roles p q = Some im ->
  (same_as (send_fn mesh n (role_name roles q) (role_name roles p) e) im MSend <-> e = comm_field p q).
Proof. exact send_same. Qed.
Print Assumptions send_function_is_method.
Theorem recv_function_is_method : forall mesh roles p q e im, let n := List.length roles in 1 <= p <= n -> 1 <= q <= n -> p <> q ->
  recv_impl false mesh roles p q = Some im ->
  (same_as (recv_fn mesh n (role_name roles q) (role_name roles p) e) im MRecv <-> e = comm_field p q).
Proof. exact recv_same. Qed.
Print Assumptions recv_function_is_method.
Theorem offer_function_is_method : forall mesh roles p q e im, let n := List.length roles in 1 <= p <= n -> 1 <= q <= n -> p <> q ->
  offer_impl false mesh roles q p = Some im ->
  (same_as (offer_fn mesh n (role_name roles q) (role_name roles p) e) im MOffer <-> e = comm_field p q).
Proof. exact offer_same. Qed.
Print Assumptions offer_function_is_method.

(** Then the same calls are accepted, with the same results. *)
Theorem same_type_same_calls : forall f im m T outs, same_as f im m ->
  ((exists arg, accepts_call f arg T outs) <-> resolves [im] m T outs).
Proof. exact same_calls. Qed.
Print Assumptions same_type_same_calls.
Example function_is_method_example : exists im, send_impl false M abc 1 3 = Some im /\
  same_as (send_fn M 3 "C" "A" 2) im MSend /\ ~ same_as (send_fn M 3 "C" "A" 1) im MSend.
Proof.
  eexists. split; [reflexivity|]. split.
  - apply (send_function_is_method M abc 1 3 2); [cbn; lia|cbn; lia|lia|reflexivity|reflexivity].
  - intros H. apply (send_function_is_method M abc 1 3 1) in H; [discriminate H|cbn; lia|cbn; lia|lia|reflexivity].
Qed.

(** With any other field there are dual sessions for which the function is accepted although the method is not, and others
    for which the method is accepted and the function is not. *)
Definition only (p r : nat) (V : rty) : nat -> nat -> rty :=
  fun a b => if (a =? p) && (b =? r) then RApp CSend [V; end_t] else if (a =? r) && (b =? p) then RApp CRecv [V; end_t] else end_t.
Lemma only_dual : forall n p r V, p <> r -> dual_family n (only p r V).
Proof.
  intros n p r V Hne a b _ _ Hab. unfold only.
  destruct (Nat.eqb_spec a p), (Nat.eqb_spec b r), (Nat.eqb_spec a r), (Nat.eqb_spec b p); cbn [andb]; try (exfalso; congruence); split; reflexivity.
Qed.
Theorem wrong_index_differs : forall mesh roles p q e im, let n := List.length roles in 1 <= p <= n -> 1 <= q <= n -> p <> q ->
  1 <= e < n -> e <> comm_field p q -> send_impl false mesh roles p q = Some im ->
  let f := send_fn mesh n (role_name roles q) (role_name roles p) e in
  let T G := endpoint mesh roles p (G p) (RApp (CRole (role_name roles q)) [role_end_t]) in
  (exists G outs, dual_family n G /\ accepts_call f (Some bits) (T G) outs /\ forall outs', ~ resolves [im] MSend (T G) outs') /\
  (exists G outs, dual_family n G /\ resolves [im] MSend (T G) outs /\ forall arg outs', ~ accepts_call f arg (T G) outs').
Proof.
  intros mesh roles p q e im n Hp Hq Hne He Hw Him f T.
  assert (Hs : same_as (send_fn mesh n (role_name roles q) (role_name roles p) (comm_field p q)) im MSend)
    by (apply (send_function_is_method mesh roles p q _ im Hp Hq Hne Him); reflexivity).
  assert (Hsess : forall r, p <> r -> forall x, 1 <= x <= n -> x <> p -> is_session (only p r bits p x) = true).
  { intros r Hr x Hx Hxp. apply (only_dual n p r bits Hr p x Hp Hx). auto. }
  assert (Hlen : forall F : nat -> rty, List.length (map F (others n p)) = n - 1)
    by (intros F; rewrite map_length, others_peers, map_length, seq_length by exact Hp; reflexivity).
  (* the role whose field is e *)
  assert (Hr : exists r, 1 <= r <= n /\ p <> r /\ r <> q /\ comm_field p r = e).
  { exists (if e <? p then e else S e). unfold comm_field in *. destruct (Nat.ltb_spec e p); destruct (Nat.leb_spec p q);
      match goal with |- context[p <=? ?r] => destruct (Nat.leb_spec p r) end; lia. }
  destruct Hr as (r & Hr & Hpr & Hrq & Er). split.
  - exists (only p r bits). destruct (others_split n p r Hp Hr Hpr) as (o1 & o2 & Eo & Hl & H1 & H2). eexists. split; [apply only_dual; exact Hpr|]. split.
    + unfold T, endpoint, f. fold n. apply send_function_calls; [exact He|apply Hlen| |reflexivity|].
      * apply Forall_forall. intros t Ht. apply in_map_iff in Ht as (x & <- & Hx). apply in_others in Hx as [Hx Hxp]. apply Hsess; auto.
      * exists (map (only p r bits p) o1), (map (only p r bits p) o2), end_t, role_end_t. rewrite Eo, map_app. cbn [map].
        assert (only p r bits p r = RApp CSend [bits; end_t]) as -> by (unfold only; rewrite !Nat.eqb_refl; reflexivity).
        split; [reflexivity|]. split; [rewrite map_length; lia|]. repeat split.
    + intros outs' H. apply (same_type_same_calls _ _ _ _ _ Hs) in H as (arg & sg & Hsg & Es & Ea & Eo').
      assert (H : accepts_call (send_fn mesh n (role_name roles q) (role_name roles p) (comm_field p q)) (Some (sg PT)) (T (only p r bits)) outs').
      { exists sg. split; [exact Hsg|]. split; [exact Es|]. split; [reflexivity|exact Eo']. }
      apply (send_endpoint mesh roles p q (only p r bits p) (RApp (CRole (role_name roles q)) [role_end_t]) Hp Hq Hne (Hsess r Hpr) eq_refl) in H as (s & R & _ & EF & _).
      unfold only in EF. destruct (Nat.eqb_spec q r); [congruence|]. rewrite andb_false_r in EF.
      destruct (Nat.eqb_spec p r); [contradiction|]. discriminate EF.
  - exists (only p q bits). eexists. split; [apply only_dual; exact Hne|]. split.
    + apply (same_type_same_calls _ _ _ _ _ Hs). exists (Some bits).
      apply (send_endpoint mesh roles p q (only p q bits p) (RApp (CRole (role_name roles q)) [role_end_t]) Hp Hq Hne (Hsess q Hne) eq_refl). exists end_t, role_end_t.
      split; [reflexivity|]. split; [unfold only; rewrite !Nat.eqb_refl; reflexivity|reflexivity].
    + intros arg outs' H. destruct arg as [V|]; [|destruct H as (sg & _ & _ & Ea & _); discriminate Ea].
      unfold T, endpoint, f in H. fold n in H. apply send_function_calls in H as (a & b & s & R & E & Ha & _); [|exact He|apply Hlen| |reflexivity].
      * destruct (others_split n p r Hp Hr Hpr) as (o1 & o2 & Eo & Hl & H1 & H2). rewrite Eo, map_app in E. cbn [map] in E.
        apply app_eq_len in E as [_ E]; [|rewrite map_length; lia]. injection E as E _. unfold only in E.
        destruct (Nat.eqb_spec r q); [contradiction|]. rewrite andb_false_r in E. destruct (Nat.eqb_spec r p); [congruence|]. rewrite andb_false_r in E. discriminate E.
      * apply Forall_forall. intros t Ht. apply in_map_iff in Ht as (x & <- & Hx). apply in_others in Hx as [Hx Hxp]. apply Hsess; auto.
Qed.
Print Assumptions wrong_index_differs.
Example wrong_index_differs_example : exists im, send_impl false M abc 1 2 = Some im /\ 1 <= 2 < 3 /\ 2 <> comm_field 1 2.
Proof. eexists. split; [reflexivity|]. split; [lia|discriminate]. Qed.

(** A send function and a receive function with the right indices fit together: if p can send to q and the stack of q names
    p, then q can receive, the value has the same type, and the sessions of all roles are dual afterwards. *)
Theorem functions_answer : forall mesh roles p q G R R' V outs, let n := List.length roles in 1 <= p <= n -> 1 <= q <= n -> q <> p ->
  dual_family n G -> is_role R = true -> is_role R' = true ->
  accepts_call (send_fn mesh n (role_name roles q) (role_name roles p) (comm_field p q)) (Some V)
    (endpoint mesh roles p (G p) (RApp (CRole (role_name roles q)) [R])) outs ->
  exists G', dual_family n G' /\ outs = [endpoint mesh roles p (G' p) R] /\
    accepts_call (recv_fn mesh n (role_name roles p) (role_name roles q) (comm_field q p)) None
      (endpoint mesh roles q (G q) (RApp (CRole (role_name roles p)) [R'])) [V; endpoint mesh roles q (G' q) R'] /\
    (forall a b, (a, b) <> (p, q) -> (a, b) <> (q, p) -> G' a b = G a b).
Proof.
  intros mesh roles p q G R R' V outs n Hp Hq Hne HG HR HR' H.
  assert (HS : forall a b, 1 <= a <= n -> 1 <= b <= n -> b <> a -> is_session (G a b) = true) by (intros a b Ha Hb Hab; apply (HG a b); auto).
  apply (send_endpoint mesh roles p q (G p) (RApp (CRole (role_name roles q)) [R]) Hp Hq (not_eq_sym Hne) (fun x Hx Hn => HS p x Hp Hx Hn) HR) in H as (s & R1 & E & EF & ->).
  injection E as <-.
  assert (Hs : is_session s = true) by (change (is_session (RApp CSend [V; s]) = true); rewrite <- EF; apply HS; auto).
  exists (update2 G p q s). split; [apply update2_dual; [exact HG|congruence|exact Hs]|]. split; [|split].
  - f_equal. apply endpoint_ext. intros x Hx Hn. unfold update, update2. rewrite Nat.eqb_refl. destruct (Nat.eqb_spec x q); [reflexivity|].
    destruct (Nat.eqb_spec p q); [congruence|reflexivity].
  - apply (recv_endpoint mesh roles q p (G q) (RApp (CRole (role_name roles p)) [R']) Hq Hp Hne (fun x Hx Hn => HS q x Hq Hx Hn) HR').
    exists V, (gdual s), R'. split; [reflexivity|]. split.
    + destruct (HG q p Hq Hp Hne) as [_ ->]. rewrite EF. reflexivity.
    + f_equal. f_equal. apply endpoint_ext. intros x Hx Hn. unfold update, update2. rewrite Nat.eqb_refl.
      destruct (Nat.eqb_spec q p); [contradiction|]. destruct (Nat.eqb_spec x p); reflexivity.
  - intros a b H1 H2. unfold update2. destruct (Nat.eqb_spec a p), (Nat.eqb_spec b q); cbn [andb]; try (exfalso; apply H1; congruence);
      destruct (Nat.eqb_spec a q), (Nat.eqb_spec b p); cbn [andb]; try reflexivity; exfalso; apply H2; congruence.
Qed.
Print Assumptions functions_answer.
Example functions_answer_example : dual_family 3 (only 1 3 bits) /\ exists outs,
  accepts_call (send_fn M 3 "C" "A" (comm_field 1 3)) (Some bits) (endpoint M abc 1 (only 1 3 bits 1) (RApp (CRole "C") [role_end_t])) outs.
Proof.
  split; [apply only_dual; lia|]. eexists.
  apply (send_endpoint M abc 1 3 (only 1 3 bits 1) (RApp (CRole "C") [role_end_t])); [cbn; lia|cbn; lia|lia| |reflexivity|].
  - intros x Hx Hn. apply (only_dual 3 1 3 bits ltac:(lia) 1 x); [lia|exact Hx|auto].
  - exists end_t, role_end_t. repeat split.
Qed.

(** * The functions of the repository *)

Definition right_use (roles : list string) (k : kind) (own peer idx : nat) : bool :=
  let n := List.length roles in
  (1 <=? own) && (own <=? n) && (1 <=? peer) && (peer <=? n) && negb (own =? peer) && (idx =? comm_field own peer) &&
  match k with KCheck => negb (idx =? 1) | _ => true end.
Definition right_program (P : program) : bool :=
  forallb (fun b : bundle => let '(k, own, l) := b in forallb (fun x => right_use (p_roles P) k own (fst x) (snd x)) l) (p_bundles P).
Lemma programs_right : forallb right_program programs = true.
Proof. vm_compute. reflexivity. Qed.

(** Every function declared in a test, example or benchmark of the repository compiles and is the method for its roles; the
    functions that look at the broadcaster are that method for the MeshedChannels whose first session is [End]. *)
Theorem corpus_functions_are_methods : forall P k own l peer idx mesh, In P programs -> In (k, own, l) (p_bundles P) -> In (peer, idx) l ->
  let roles := p_roles P in let n := List.length roles in let me := role_name roles own in let you := role_name roles peer in
  1 <= own <= n /\ 1 <= peer <= n /\ own <> peer /\
  match k with
  | KSend | KCancel => fn_ok mesh n (send_fn mesh n you me idx) /\
      exists im, send_impl false mesh roles own peer = Some im /\ same_as (send_fn mesh n you me idx) im MSend
  | KRecv => fn_ok mesh n (recv_fn mesh n you me idx) /\
      exists im, recv_impl false mesh roles own peer = Some im /\ same_as (recv_fn mesh n you me idx) im MRecv
  | KCheck => fn_ok mesh n (send_check_fn mesh n you me idx) /\
      exists im, send_impl false mesh roles own peer = Some im /\ same_as (send_fn mesh n you me idx) im MSend /\
        forall fields stack name V outs, List.length fields = n - 1 -> Forall (fun t => is_session t = true) fields -> is_role stack = true ->
          (accepts_call (send_check_fn mesh n you me idx) (Some V) (mesh_t mesh fields stack name) outs <->
           nth_error fields 0 = Some end_t /\ accepts_call (send_fn mesh n you me idx) (Some V) (mesh_t mesh fields stack name) outs)
  end.
Proof.
  intros P k own l peer idx mesh HP Hb Hl roles n me you.
  assert (A := programs_right). rewrite forallb_forall in A. specialize (A P HP). unfold right_program in A. rewrite forallb_forall in A.
  specialize (A _ Hb). cbn beta iota in A. rewrite forallb_forall in A. specialize (A _ Hl). cbn [fst snd] in A.
  unfold right_use in A. fold roles n in A. rewrite !andb_true_iff in A. destruct A as [[[[[[A1 A2] A3] A4] A5] A6] A7].
  apply Nat.leb_le in A1, A2, A3, A4. apply negb_true_iff, Nat.eqb_neq in A5. apply Nat.eqb_eq in A6.
  assert (Ho : 1 <= own <= n) by lia. assert (Hpe : 1 <= peer <= n) by lia. split; [exact Ho|]. split; [exact Hpe|]. split; [exact A5|].
  assert (Hr := comm_field_range n own peer Ho Hpe A5). rewrite <- A6 in Hr.
  destruct k.
  - split; [apply send_fn_ok|]. eexists. split; [apply send_eq; assumption|]. apply (send_same mesh roles own peer idx _ Ho Hpe A5); [apply send_eq; assumption|exact A6].
  - split; [apply send_fn_ok|]. eexists. split; [apply send_eq; assumption|]. apply (send_same mesh roles own peer idx _ Ho Hpe A5); [apply send_eq; assumption|exact A6].
  - apply negb_true_iff, Nat.eqb_neq in A7. split; [apply check_fn_ok; lia|]. eexists. split; [apply send_eq; assumption|].
    split; [apply (send_same mesh roles own peer idx _ Ho Hpe A5); [apply send_eq; assumption|exact A6]|].
    intros fields stack name V outs Hlen Hf Hs. apply check_call; auto. lia.
  - split; [apply recv_fn_ok; exact Hr|]. eexists. split; [apply recv_eq; assumption|]. apply (recv_same mesh roles own peer idx _ Ho Hpe A5); [apply recv_eq; assumption|exact A6].
Qed.
Print Assumptions corpus_functions_are_methods.
Example corpus_example : List.length programs = 83 /\
  exists P l, In P programs /\ List.length (p_roles P) = 21 /\ In (KCheck, 21, l) (p_bundles P) /\ In (2, 2) l.
Proof.
  split; [reflexivity|]. destruct (find (fun P => (List.length (p_roles P) =? 21) && existsb (fun b : bundle => let '(k, o, l) := b in
    match k with KCheck => (o =? 21) && existsb (fun x => (fst x =? 2) && (snd x =? 2)) l | _ => false end) (p_bundles P)) programs) as [P|] eqn:E; [|vm_compute in E; discriminate E].
  pose proof (find_some _ _ E) as [HP HE]. apply andb_prop in HE as [H1 H2]. apply Nat.eqb_eq in H1. apply existsb_exists in H2 as ([[k o] l] & Hb & H2).
  destruct k; try discriminate H2. apply andb_prop in H2 as [H2 H3]. apply Nat.eqb_eq in H2. subst o. apply existsb_exists in H3 as ([x y] & Hx & H3).
  cbn in H3. apply andb_prop in H3 as [H3 H4]. apply Nat.eqb_eq in H3, H4. subst. exists P, l. auto.
Qed.
