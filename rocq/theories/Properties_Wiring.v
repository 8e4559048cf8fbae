(** Properties C08-C13: wiring of the generated fork and choice code. *)
From Coq Require Import List Arith Bool Lia Permutation.
From Verif Require Import Diag DiagProofs Wiring WiringProofs.
Import ListNotations.

(** ** C08: fork *)

(** Every number of roles: the n MeshedChannels given to the n threads form a complete private
    network ([connected]), all ends of the n(n-1)/2 channels are given out ([uses_all]), and the
    fields of role i have exactly the types declared for F_i in the signature of [fork_mpst]. *)
Theorem fork_connects_all_pairs : forall n, 2 <= n ->
  exists meshes, fork_threads n = Some meshes /\
    connected n meshes /\
    uses_all (n * (n - 1) / 2) meshes /\
    (forall i, 1 <= i <= n -> nth_error meshes (i - 1) = fork_decl n i).
Proof.
  intros n Hn. exists (map (mesh_of b_fork n) (seq 1 n)).
  rewrite fork_threads_spec. split; [reflexivity|]. split; [apply mesh_of_connected, b_fork_antisym|].
  split.
  - rewrite Nat.mul_comm. fold (npairs n). rewrite npairs_tri.
    apply mesh_of_uses_all, b_fork_antisym.
  - intros i Hi. rewrite fork_decl_spec by exact Hi.
    rewrite nth_error_map, nth_error_seq by lia. cbn [option_map].
    replace (1 + (i - 1)) with i by lia. reflexivity.
Qed.
Print Assumptions fork_connects_all_pairs.

(** Each type parameter is used for exactly one pair of roles. *)
Theorem fork_type_parameter_one_pair : forall n meshes i p i' p' k b b',
  2 <= n -> fork_threads n = Some meshes ->
  1 <= i <= n -> 1 <= p <= n -> i <> p -> 1 <= i' <= n -> 1 <= p' <= n -> i' <> p' ->
  session_with meshes i p = Some (k, b) -> session_with meshes i' p' = Some (k, b') ->
  (i = i' /\ p = p' /\ b = b') \/ (i = p' /\ p = i' /\ b = negb b').
Proof.
  intros n meshes i p i' p' k b b' Hn Hf Hi Hp Hne Hi' Hp' Hne' H1 H2.
  rewrite fork_threads_spec in Hf. inversion Hf; subst meshes.
  rewrite session_with_mesh_of in H1, H2 by assumption.
  unfold end_of in *. inversion H1; subst. inversion H2 as [[Hidx Hb]].
  apply idx_inj in Hidx; try lia.
  assert (Hc : (i = i' /\ p = p') \/ (i = p' /\ p = i')) by lia.
  destruct Hc as [[-> ->]|[-> ->]]; [left; auto|right].
  repeat split. apply (b_fork_antisym n); auto.
Qed.
Print Assumptions fork_type_parameter_one_pair.

Example fork_4_roles :
  fork_threads 4 =
  Some [ [(1, true); (2, true); (3, true)];
         [(1, false); (4, true); (5, true)];
         [(2, false); (4, false); (6, true)];
         [(3, false); (5, false); (6, false)] ].
Proof. reflexivity. Qed.

(** ** C09: send and recv *)

(** For role [s] sending to (receiving from) role [r]: among the n-1 declared fields exactly one is
    wrapped in Send (Recv); it is the one the body acts on; and it faces r. *)
Theorem comm_acts_on_the_field_of_the_peer : forall n s r,
  1 <= s <= n -> 1 <= r <= n -> s <> r ->
  1 <= comm_field s r <= n - 1 /\
  comm_field s r = field_pos s r + 1 /\
  (forall k, 1 <= k <= n - 1 -> (comm_wrapped s r k = true <-> k = comm_field s r)).
Proof.
  intros n s r Hs Hr Hne. unfold comm_field, comm_wrapped, field_pos.
  repeat match goal with
  | |- context [?a <=? ?b] => destruct (Nat.leb_spec a b)
  | |- context [?a <? ?b] => destruct (Nat.ltb_spec a b)
  end; try lia; (split; [lia|split; [lia|]]); intros k Hk; cbn zeta;
  destruct (Nat.leb_spec s k); rewrite Nat.eqb_eq; lia.
Qed.
Print Assumptions comm_acts_on_the_field_of_the_peer.

(** Together with the wiring: the field on which s acts when sending to r and the field on which r
    acts when receiving from s are the two ends of one channel. *)
Theorem send_and_recv_use_one_channel : forall n meshes s r,
  2 <= n -> fork_threads n = Some meshes ->
  1 <= s <= n -> 1 <= r <= n -> s <> r ->
  exists ms mr k b,
    nth_error meshes (s - 1) = Some ms /\ nth_error meshes (r - 1) = Some mr /\
    nth_error ms (comm_field s r - 1) = Some (k, b) /\
    nth_error mr (comm_field r s - 1) = Some (k, negb b).
Proof.
  intros n meshes s r Hn Hf Hs Hr Hne.
  destruct (fork_connects_all_pairs n Hn) as (meshes' & Hf' & Hc & _).
  rewrite Hf in Hf'. inversion Hf'; subst meshes'.
  destruct (conn_pair n meshes Hc s r Hs Hr Hne) as (k & b & H1 & H2).
  destruct (comm_acts_on_the_field_of_the_peer n s r Hs Hr Hne) as (_ & E1 & _).
  destruct (comm_acts_on_the_field_of_the_peer n r s Hr Hs (not_eq_sym Hne)) as (_ & E2 & _).
  unfold session_with in *.
  destruct (nth_error meshes (s - 1)) as [ms|]; [|discriminate].
  destruct (nth_error meshes (r - 1)) as [mr|]; [|discriminate].
  exists ms, mr, k, b. rewrite E1, E2, !Nat.add_sub. auto.
Qed.
Print Assumptions send_and_recv_use_one_channel.

Example comm_field_3_1 : comm_field 3 1 = 1 /\ comm_field 1 3 = 2 /\
  map (comm_wrapped 3 5) [1; 2; 3; 4; 5] = [false; false; false; true; false].
Proof. repeat split; reflexivity. Qed.

(** ** C10: enum choice *)

(** The MeshedChannels of all roles after the choice, in the order of the roles: those sent to the
    passive roles, with the chooser's own inserted at its place. *)
Definition meshes_after (e : nat) (sent : list (list endp)) (own : list endp) : list (list endp) :=
  firstn (e - 1) sent ++ own :: skipn (e - 1) sent.

Lemma meshes_after_eq : forall (f : nat -> list endp) n e, 1 <= e <= n ->
  meshes_after e (map (fun i => f (served e i)) (seq 1 (n - 1))) (f e) = map f (seq 1 n).
Proof.
  intros f n e He. unfold meshes_after.
  replace (n - 1) with ((e - 1) + (n - e)) by lia. rewrite seq_app, map_app.
  rewrite firstn_app, skipn_app.
  rewrite map_length, seq_length, Nat.sub_diag. cbn [firstn skipn].
  rewrite firstn_all2 by (rewrite map_length, seq_length; lia).
  rewrite skipn_all2 by (rewrite map_length, seq_length; lia).
  rewrite app_nil_r. cbn [app].
  replace n with ((e - 1) + S (n - e)) at 2 by lia. rewrite seq_app, map_app. f_equal.
  - apply map_ext_in. intros i Hi. apply in_seq in Hi. unfold served.
    replace (e <=? i) with false by (symmetry; apply Nat.leb_gt; lia). reflexivity.
  - replace (1 + (e - 1)) with e by lia. cbn [seq map]. f_equal.
    rewrite <- seq_shift, map_map. apply map_ext_in. intros i Hi. apply in_seq in Hi. unfold served.
    replace (e <=? i) with true by (symmetry; apply Nat.leb_le; lia). f_equal. lia.
Qed.

Theorem choice_reconnects_all_roles : forall n e, 2 <= n -> 1 <= e <= n ->
  exists sends own,
    choose_sends n e = Some sends /\ choose_own n e = Some own /\
    connected n (meshes_after e (map snd sends) own) /\
    uses_all (n * (n - 1) / 2) (meshes_after e (map snd sends) own) /\
    (forall r, 1 <= r <= n -> r <> e ->
       exists fields, In (field_pos e r + 1, fields) sends /\
         nth_error (meshes_after e (map snd sends) own) (r - 1) = Some fields) /\
    NoDup (map fst sends).
Proof.
  intros n e Hn He.
  exists (map (fun i => (i, mesh_of b_fork n (served e i))) (seq 1 (n - 1))), (mesh_of b_fork n e).
  split; [apply choose_sends_spec, He|]. split; [apply choose_own_spec, He|].
  rewrite map_map. cbn [snd]. rewrite (meshes_after_eq (mesh_of b_fork n)) by exact He.
  split; [apply mesh_of_connected, b_fork_antisym|].
  split. { rewrite Nat.mul_comm. fold (npairs n). rewrite npairs_tri.
           apply mesh_of_uses_all, b_fork_antisym. }
  split.
  - intros r Hr Hne. exists (mesh_of b_fork n r). split.
    + apply in_map_iff. exists (field_pos e r + 1).
      assert (Hs : served e (field_pos e r + 1) = r /\ 1 <= field_pos e r + 1 < n).
      { unfold served, field_pos. destruct (r <? e) eqn:E;
          [apply Nat.ltb_lt in E|apply Nat.ltb_ge in E].
        - replace (e <=? r - 1 + 1) with false by (symmetry; apply Nat.leb_gt; lia). lia.
        - replace (e <=? r - 2 + 1) with true by (symmetry; apply Nat.leb_le; lia). lia. }
      destruct Hs as [Hs Hs']. rewrite Hs. split; [reflexivity|]. apply in_seq. lia.
    + rewrite nth_error_map, nth_error_seq by lia. cbn [option_map].
      replace (1 + (r - 1)) with r by lia. reflexivity.
  - rewrite map_map. cbn [fst]. rewrite map_id. apply seq_NoDup.
Qed.
Print Assumptions choice_reconnects_all_roles.

Example choice_4_roles_by_3 :
  choose_sends 4 3 = Some [ (1, [(1, true); (2, true); (3, true)]);
                            (2, [(1, false); (4, true); (5, true)]);
                            (3, [(3, false); (5, false); (6, false)]) ]
  /\ choose_own 4 3 = Some [(2, false); (4, false); (6, true)].
Proof. split; reflexivity. Qed.

(** ** C11: choose_left / choose_right *)

(** For every chooser s: the fields of each receiver's new MeshedChannels and of the returned one
    have exactly the declared types, the fields of the returned one are filled in order
    session1..session(n-1), all MeshedChannels together are [connected], each receiver gets its
    choice on the field that faces it, with the declared stack parameter. *)
Theorem choose_left_right_well_typed : forall n s, 2 <= n -> 1 <= s <= n ->
  exists recv own,
    (forall j, 1 <= j <= n -> j <> s ->
       bchoose_receiver n s j = Some (recv j) /\ bchoose_receiver_decl n s j = Some (recv j) /\
       bchoose_choice s j = field_pos s j + 1 /\
       bchoose_stack_body s j = bchoose_stack_decl s j) /\
    bchoose_sender n s = Some own /\ map fst own = seq 1 (n - 1) /\
    bchoose_sender_decl n s = Some (map snd own) /\
    connected n (map (fun j => if j =? s then map snd own else recv j) (seq 1 n)).
Proof.
  intros n s Hn Hs.
  exists (mesh_of (b_choice s) n),
         (map (fun j => (j, end_of (b_choice s) n s (peer s j))) (seq 1 (n - 1))).
  split.
  { intros j Hj Hne. split; [apply bchoose_receiver_spec; assumption|].
    split; [apply bchoose_receiver_decl_spec; assumption|].
    unfold bchoose_choice, bchoose_stack_body, bchoose_stack_decl, field_pos.
    destruct (Nat.ltb_spec s j), (Nat.ltb_spec j s); lia. }
  split; [apply bchoose_sender_spec, Hs|].
  split; [rewrite map_map; cbn [fst]; apply map_id|].
  rewrite map_map. cbn [snd]. fold (mesh_of (b_choice s) n s).
  split; [apply bchoose_sender_decl_spec, Hs|].
  assert (Heq : map (fun j => if j =? s then mesh_of (b_choice s) n s else mesh_of (b_choice s) n j)
                  (seq 1 n) = map (mesh_of (b_choice s) n) (seq 1 n)).
  { apply map_ext. intros j. destruct (Nat.eqb_spec j s); subst; reflexivity. }
  rewrite Heq. apply mesh_of_connected, b_choice_antisym.
Qed.
Print Assumptions choose_left_right_well_typed.

(** Function form (chooser = role n). *)
Theorem create_choose_well_typed : forall n, 2 <= n ->
  exists recv own,
    (forall i, 1 <= i < n ->
       cchoose_receiver n i = Some (recv i) /\ cchoose_receiver_decl n i = Some (recv i)) /\
    cchoose_sender n = Some own /\ cchoose_sender_decl n = own /\
    connected n (map (fun i => if i =? n then own else recv i) (seq 1 n)).
Proof.
  intros n Hn. exists (mesh_of b_fork n), (mesh_of b_fork n n).
  split.
  { intros i Hi. split; [apply cchoose_receiver_spec; lia|apply cchoose_receiver_decl_spec; lia]. }
  split; [apply cchoose_sender_spec|]. split; [apply cchoose_sender_decl_spec|].
  assert (Heq : map (fun i => if i =? n then mesh_of b_fork n n else mesh_of b_fork n i) (seq 1 n)
                = map (mesh_of b_fork n) (seq 1 n)).
  { apply map_ext. intros j. destruct (Nat.eqb_spec j n); subst; reflexivity. }
  rewrite Heq. apply mesh_of_connected, b_fork_antisym.
Qed.
Print Assumptions create_choose_well_typed.

Example choose_left_3_roles_by_2 :
  bchoose_receiver 3 2 1 = Some [(1, true); (2, true)] /\
  bchoose_receiver 3 2 3 = Some [(2, false); (3, true)] /\
  bchoose_sender 3 2 = Some [(1, (1, false)); (2, (3, false))] /\
  cchoose_sender 3 = Some [(2, false); (3, false)].
Proof. repeat split; reflexivity. Qed.

(** ** C12: interleaved fork *)

Theorem interleaved_fork_consistent : forall n1 n2 idx1 idx2,
  2 <= n1 -> 2 <= n2 -> 1 <= idx1 <= n1 -> 1 <= idx2 <= n2 ->
  (forall f, 1 <= f <= n1 + n2 - 2 ->
     exists fields, il_decl_fun n1 n2 idx1 idx2 f = [Some fields] /\
                    il_mesh n1 n2 (il_thread n1 idx1 idx2 f) = Some fields) /\
  (exists f1 f2,
     il_decl_one n1 idx1 = Some f1 /\ il_mesh n1 n2 (fst (il_interleaved n1 idx1 idx2)) = Some f1 /\
     il_decl_two n1 n2 idx2 = Some f2 /\ il_mesh n1 n2 (snd (il_interleaved n1 idx1 idx2)) = Some f2) /\
  Permutation (map (il_thread n1 idx1 idx2) (seq 1 (n1 + n2 - 2)) ++
               [fst (il_interleaved n1 idx1 idx2); snd (il_interleaved n1 idx1 idx2)])
              (seq 1 (n1 + n2)).
Proof.
  intros n1 n2 idx1 idx2 Hn1 Hn2 H1 H2. split; [|split].
  - intros f Hf. destruct (lt_dec f n1) as [Hlt|Hge].
    + rewrite il_decl_fun_low by lia.
      assert (Hr : 1 <= il_thread n1 idx1 idx2 f <= n1).
      { unfold il_thread. destruct (Nat.ltb_spec f idx1); [lia|].
        destruct (Nat.leb_spec idx1 f); [|lia].
        destruct (Nat.ltb_spec f (n1 - 1 + idx2)); cbn; lia. }
      exists (mesh_of b_fork n1 (il_thread n1 idx1 idx2 f)).
      rewrite <- (fork_decl_spec n1) by exact Hr. split; [reflexivity|].
      apply (il_mesh_one_spec n1 n2 (il_thread n1 idx1 idx2 f) Hr).
    + destruct (il_decl_fun_high n1 n2 idx1 idx2 f) as (i & Hi & Ht & Hd); try lia.
      rewrite Hd, Ht. exists (mesh_two n1 n2 i).
      rewrite il_decl_two_eq by exact Hi. split; [reflexivity|].
      apply (il_mesh_two_eq n1 n2 i Hi).
  - exists (mesh_of b_fork n1 idx1), (mesh_two n1 n2 idx2). cbn [il_interleaved fst snd].
    split; [apply fork_decl_spec, H1|].
    split. { pose proof (il_mesh_one_spec n1 n2 idx1 H1) as H. unfold il_mesh_one in H. rewrite H.
             apply fork_decl_spec, H1. }
    split; [apply il_decl_two_eq, H2|]. apply (il_mesh_two_eq n1 n2 idx2 H2).
  - assert (Hinj : forall f, 1 <= f <= n1 + n2 - 2 ->
      1 <= il_thread n1 idx1 idx2 f <= n1 + n2 /\
      il_thread n1 idx1 idx2 f <> idx1 /\ il_thread n1 idx1 idx2 f <> n1 + idx2 /\
      forall f', 1 <= f' <= n1 + n2 - 2 ->
        il_thread n1 idx1 idx2 f = il_thread n1 idx1 idx2 f' -> f = f').
    { intros f Hf. unfold il_thread.
      destruct (Nat.ltb_spec f idx1); [|destruct (Nat.leb_spec idx1 f); [|lia];
        destruct (Nat.ltb_spec f (n1 - 1 + idx2))]; cbn [andb];
      (repeat split; try lia); intros f' Hf';
      (destruct (Nat.ltb_spec f' idx1); [|destruct (Nat.leb_spec idx1 f'); [|lia];
        destruct (Nat.ltb_spec f' (n1 - 1 + idx2))]); cbn [andb]; lia. }
    apply NoDup_Permutation_bis.
    + apply NoDup_app_intro.
      * apply NoDup_map_inj; [apply seq_NoDup|]. intros x y Hx Hy He.
        apply in_seq in Hx, Hy. destruct (Hinj x ltac:(lia)) as (_ & _ & _ & Hi).
        apply Hi; [lia|exact He].
      * cbn. constructor; [|constructor; [intros []|constructor]].
        intros [He|[]]. cbn in He. lia.
      * intros x Hx Hx'. apply in_map_iff in Hx. destruct Hx as (f & <- & Hf). apply in_seq in Hf.
        destruct (Hinj f ltac:(lia)) as (_ & Ha & Hb & _).
        cbn in Hx'. destruct Hx' as [Hx'|[Hx'|[]]]; congruence.
    + rewrite app_length, map_length, !seq_length. cbn [length]. lia.
    + intros x Hx. apply in_seq. apply in_app_iff in Hx. destruct Hx as [Hx|Hx].
      * apply in_map_iff in Hx. destruct Hx as (f & <- & Hf). apply in_seq in Hf.
        destruct (Hinj f ltac:(lia)) as (Hr & _). lia.
      * cbn in Hx. destruct Hx as [<-|[<-|[]]]; lia.
Qed.
Print Assumptions interleaved_fork_consistent.

Example interleaved_3_4 : map (il_thread 3 2 3) (seq 1 5) = [1; 3; 4; 5; 7].
Proof. reflexivity. Qed.

(** ** C13: choice with broadcaster *)

(** Every n >= 2 (broadcaster = role 1), every chooser e >= 2: every other role carries exactly
    one broadcaster end, and after forwarding, the map "broadcaster's field for role r is connected
    to role q" is a bijection of the roles 2..n. *)
Theorem cancel_choice_broadcaster_bijection : forall n e, 2 <= n -> 2 <= e <= n ->
  exists carriers, cancel_carriers n e = Some carriers /\
    (forall r, 2 <= r <= n -> exists q, 2 <= q <= n /\ broadcaster_peer carriers r = Some q) /\
    (forall q, 2 <= q <= n -> exists r, 2 <= r <= n /\ broadcaster_peer carriers r = Some q) /\
    (forall r r' q, 2 <= r <= n -> 2 <= r' <= n ->
       broadcaster_peer carriers r = Some q -> broadcaster_peer carriers r' = Some q -> r = r').
Proof.
  intros n e Hn He. exists (carriers_spec n e). split; [apply cancel_carriers_spec, Hn|].
  split; [|split].
  - intros r Hr. exists (peer_after n e r). split; [apply peer_after_range; assumption|].
    apply broadcaster_peer_spec; assumption.
  - intros q Hq. destruct (peer_after_surj n e q Hn He Hq) as (r & Hr & Hrq).
    exists r. split; [exact Hr|]. rewrite broadcaster_peer_spec by assumption. congruence.
  - intros r r' q Hr Hr'. rewrite !broadcaster_peer_spec by assumption. intros E1 E2.
    apply (peer_after_inj n e); try assumption. congruence.
Qed.
Print Assumptions cancel_choice_broadcaster_bijection.

(** The stronger reading is false: in a 3-role session with chooser 3, the broadcaster's field for
    role 2 ends up connected to role 3, and the field for role 3 to role 2. *)
Theorem cancel_choice_broadcaster_field_identity_refuted :
  exists n e carriers r q, 3 <= n /\ 2 <= e <= n /\ 2 <= r <= n /\
    cancel_carriers n e = Some carriers /\ broadcaster_peer carriers r = Some q /\ q <> r.
Proof.
  exists 3, 3, [(2, (1, 3)); (3, (1, 2))], 2, 3. repeat split; try lia; reflexivity.
Qed.
Print Assumptions cancel_choice_broadcaster_field_identity_refuted.

(** Exactly: the chooser's field goes to role 2, and role r's to role n+2-r or n+3-r. *)
Theorem cancel_choice_broadcaster_exact : forall n e r, 2 <= n -> 2 <= e <= n -> 2 <= r <= n ->
  exists carriers, cancel_carriers n e = Some carriers /\
    broadcaster_peer carriers r =
      Some (if r =? e then 2 else if r <? e then n + 2 - r else n + 3 - r).
Proof.
  intros n e r Hn He Hr. exists (carriers_spec n e). split; [apply cancel_carriers_spec, Hn|].
  rewrite broadcaster_peer_spec by assumption. reflexivity.
Qed.
Print Assumptions cancel_choice_broadcaster_exact.

Example cancel_carriers_5_by_3 :
  cancel_carriers 5 3 = Some [(2, (1, 5)); (4, (1, 4)); (5, (1, 3)); (3, (1, 2))].
Proof. reflexivity. Qed.
