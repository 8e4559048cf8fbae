(** C73: the fork functions for two protocols with a shared thread, and for one thread, ask of the types exactly that the
    sessions of every two roles of each protocol are dual; the two protocols do not restrict each other. Model: ForkIL.v. *)
From Coq Require Import Arith Bool String Lia.
From Verif Require Import Types Session Mesh MeshSpec Diag DiagProofs Wiring WiringProofs Methods MethodsSpec MethodsProofs ForkTypes ForkSpec ForkProofs ForkIL.
From Verif Require Import Properties_Mesh.
From Coq Require Import List.
Import ListNotations.
Open Scope nat_scope.
Open Scope list_scope.

(** * Specification *)

(** The type parameters are distinct, all that are used are declared, all are determined by the bounds (other than below
    [Dual]); each F has one bound and one argument; each function is called once with the type it takes. *)
Definition il_ok (f : il_forked) : Prop :=
  let all := map snd (il_bounds f) ++ [fst (il_shared f); snd (il_shared f)] in
  NoDup (il_params f) /\ (forall t, In t all -> incl (vars t) (il_params f)) /\
  (forall v, In v (il_params f) -> exists t, In t all /\ In v (fixed t)) /\
  NoDup (il_funs f) /\ il_inputs f = il_funs f /\ map fst (il_bounds f) = il_funs f /\
  il_calls f = il_bounds f /\ il_call f = il_shared f.

(** The function is called with functions number f that take a value of type A f, and one that takes I1 and I2. *)
Definition il_accepts (f : il_forked) (A : nat -> rty) (I1 I2 : rty) : Prop :=
  exists sg, (forall v, In v (il_params f) -> ok_for v (sg v) = true) /\
    (forall k t, In (k, t) (il_bounds f) -> A k = inst sg t) /\
    I1 = inst sg (fst (il_shared f)) /\ I2 = inst sg (snd (il_shared f)).

(** The roles of one protocol: As for those other than idx, in their order, I for idx, for some pairwise dual sessions. *)
Definition plays (mesh : string) (n idx : nat) (As : list rty) (I : rty) : Prop :=
  exists G st nm, dual_family n G /\ (forall p, 1 <= p <= n -> is_role (st p) = true /\ is_name (nm p) = true) /\
    As = map (as_role mesh n G st nm) (others n idx) /\ I = as_role mesh n G st nm idx.

(** * Proofs *)

(** The types of protocol two are those of a fork of its own, with all numbers shifted. *)
Definition shift (n1 : nat) (sg : param -> rty) (v : param) : rty :=
  match v with PS m => sg (PS (tri n1 + m)) | PR i => sg (PR (n1 + i)) | PN i => sg (PN (n1 + i)) | _ => sg v end.

Lemma inst_two : forall mesh n1 n2 i sg, inst sg (role_mesh mesh (n1 + i) (mesh_two n1 n2 i)) =
  inst (shift n1 sg) (role_mesh mesh i (mesh_of b_fork n2 i)).
Proof.
  intros mesh n1 n2 i sg. unfold role_mesh. rewrite !inst_mesh. f_equal. unfold mesh_two, mesh_of. rewrite !map_map.
  apply map_ext. intros j. unfold session_of, end_of. cbn [fst snd]. unfold b_fork. rewrite !Nat.add_0_l, npairs_tri.
  destruct (i <? peer i j); reflexivity.
Qed.

Definition one_t (mesh : string) (n i : nat) : rty := role_mesh mesh i (mesh_of b_fork n i).
Definition two_t (mesh : string) (n1 n2 i : nat) : rty := role_mesh mesh (n1 + i) (mesh_two n1 n2 i).

Lemma all_some_in : forall (A B : Type) (f : A -> option B) g l, (forall x, In x l -> f x = Some (g x)) -> all_some (map f l) = Some (map g l).
Proof. intros A B f g l H. apply all_some_map. exact H. Qed.

(** The function. *)
Definition il_meant (mesh1 mesh2 : string) (n1 n2 idx1 idx2 : nat) : il_forked :=
  let bounds := map (fun k => (k, one_t mesh1 n1 (peer idx1 k))) (seq 1 (n1 - 1)) ++
                map (fun k => (n1 - 1 + k, two_t mesh2 n1 n2 (peer idx2 k))) (seq 1 (n2 - 1)) in
  let shared := (one_t mesh1 n1 idx1, two_t mesh2 n1 n2 idx2) in
  ILForked (map PS (seq 1 (tri n1 + tri n2)) ++ map PR (seq 1 (n1 + n2)) ++ map PN (seq 1 (n1 + n2)))
    (seq 1 (n1 + n2 - 2)) (seq 1 (n1 + n2 - 2)) bounds shared bounds shared.

Lemma seq_two : forall n1 n2, 1 <= n1 -> 1 <= n2 -> seq 1 (n1 + n2 - 2) = seq 1 (n1 - 1) ++ map (fun i => n1 - 1 + i) (seq 1 (n2 - 1)).
Proof.
  intros n1 n2 H1 H2. replace (n1 + n2 - 2) with ((n1 - 1) + (n2 - 1)) by lia. rewrite seq_app. f_equal.
  generalize (n2 - 1). intros m. replace (1 + (n1 - 1)) with (n1 - 1 + 1) by lia. generalize 1, (n1 - 1). intros a b.
  revert a. induction m as [|m IH]; intros a; cbn [seq map]; [reflexivity|]. f_equal. rewrite <- IH. f_equal. lia.
Qed.

Lemma filter_peers : forall n p, 1 <= p <= n -> filter (fun i => negb (i =? p)) (seq 1 n) = map (peer p) (seq 1 (n - 1)).
Proof. intros n p Hp. exact (others_peers n p Hp). Qed.

Lemma variable_one : forall mesh1 mesh2 n1 n2 i, 1 <= i <= n1 -> il_variable mesh1 mesh2 n1 n2 i = Some (one_t mesh1 n1 i).
Proof.
  intros mesh1 mesh2 n1 n2 i Hi. unfold il_variable. pose proof (il_mesh_one_spec n1 n2 i Hi) as H. unfold il_mesh_one in H.
  rewrite H. unfold il_decl_one. rewrite fork_decl_spec by exact Hi. destruct (Nat.leb_spec i n1); [reflexivity|lia].
Qed.
Lemma variable_two : forall mesh1 mesh2 n1 n2 i, 1 <= i <= n2 -> il_variable mesh1 mesh2 n1 n2 (n1 + i) = Some (two_t mesh2 n1 n2 i).
Proof.
  intros mesh1 mesh2 n1 n2 i Hi. unfold il_variable. pose proof (il_mesh_two_eq n1 n2 i Hi) as H. unfold il_mesh_two in H.
  rewrite H. destruct (Nat.leb_spec (n1 + i) n1); [lia|reflexivity].
Qed.

Lemma fork_il_eq : forall mesh1 mesh2 n1 n2 idx1 idx2, 1 <= idx1 <= n1 -> 1 <= idx2 <= n2 ->
  fork_il mesh1 mesh2 n1 n2 idx1 idx2 = Some (il_meant mesh1 mesh2 n1 n2 idx1 idx2).
Proof.
  intros mesh1 mesh2 n1 n2 idx1 idx2 H1 H2. unfold fork_il.
  replace ((n1 =? 0) || (n2 =? 0) || (idx1 =? 0) || (idx2 =? 0) || (n1 <? idx1) || (n2 <? idx2)) with false.
  2: { symmetry. repeat (apply orb_false_iff; split); try (apply Nat.eqb_neq; lia); apply Nat.ltb_ge; lia. }
  cbv zeta. rewrite !filter_peers by assumption. rewrite !map_map.
  rewrite (all_some_in _ _ _ (fun k => (k, one_t mesh1 n1 (peer idx1 k)))).
  2: { intros k Hk. apply in_seq in Hk. unfold il_bound, il_decl_one. rewrite fork_decl_spec by (apply peer_range; lia). unfold il_mesh_one, one_t.
       do 2 f_equal. unfold il_fun_one, peer. destruct (Nat.ltb_spec k idx1); [destruct (Nat.ltb_spec k idx1); lia|]. destruct (Nat.ltb_spec (S k) idx1); lia. }
  rewrite (all_some_in _ _ _ (fun k => (n1 - 1 + k, two_t mesh2 n1 n2 (peer idx2 k)))).
  2: { intros k Hk. apply in_seq in Hk. unfold il_bound. rewrite il_decl_two_eq by (apply peer_range; lia). unfold il_mesh_two, two_t.
       do 2 f_equal. unfold il_fun_two, peer. destruct (Nat.ltb_spec k idx2); [destruct (Nat.ltb_spec k idx2); lia|]. destruct (Nat.ltb_spec (S k) idx2); lia. }
  unfold il_bound at 1 2. unfold il_decl_one. rewrite fork_decl_spec, il_decl_two_eq by assumption.
  rewrite (all_some_in _ _ _ (fun f => (f, if f <? n1 then one_t mesh1 n1 (peer idx1 f) else two_t mesh2 n1 n2 (peer idx2 (f - (n1 - 1)))))).
  2: { intros f Hf. apply in_seq in Hf. destruct (Nat.ltb_spec f n1).
       - replace (il_thread n1 idx1 idx2 f) with (peer idx1 f).
         + rewrite variable_one by (apply peer_range; lia). reflexivity.
         + unfold peer, il_thread. destruct (Nat.ltb_spec f idx1); [reflexivity|]. destruct (Nat.leb_spec idx1 f); [|lia].
           destruct (Nat.ltb_spec f (n1 - 1 + idx2)); cbn [andb]; lia.
       - replace (il_thread n1 idx1 idx2 f) with (n1 + peer idx2 (f - (n1 - 1))).
         + rewrite variable_two by (apply peer_range; lia). reflexivity.
         + unfold peer, il_thread. destruct (Nat.ltb_spec f idx1); [lia|]. destruct (Nat.leb_spec idx1 f); [|lia].
           destruct (Nat.ltb_spec (f - (n1 - 1)) idx2), (Nat.ltb_spec f (n1 - 1 + idx2)); cbn [andb]; lia. }
  unfold il_interleaved. cbn [fst snd]. rewrite variable_one, variable_two by assumption. unfold il_meant. rewrite !npairs_tri, seq_two by lia.
  rewrite map_app, map_map. do 2 f_equal. f_equal.
  - apply map_ext_in. intros k Hk. apply in_seq in Hk. destruct (Nat.ltb_spec k n1); [reflexivity|lia].
  - apply map_ext_in. intros k Hk. apply in_seq in Hk. destruct (Nat.ltb_spec (n1 - 1 + k) n1); [lia|].
    replace (n1 - 1 + k - (n1 - 1)) with k by lia. reflexivity.
Qed.

Lemma fork_il_some : forall mesh1 mesh2 n1 n2 idx1 idx2 f, fork_il mesh1 mesh2 n1 n2 idx1 idx2 = Some f ->
  1 <= idx1 <= n1 /\ 1 <= idx2 <= n2 /\ f = il_meant mesh1 mesh2 n1 n2 idx1 idx2.
Proof.
  intros mesh1 mesh2 n1 n2 idx1 idx2 f E.
  assert (1 <= idx1 <= n1 /\ 1 <= idx2 <= n2) as [H1 H2].
  { unfold fork_il in E. destruct (n1 =? 0) eqn:E1; [discriminate E|]. destruct (n2 =? 0) eqn:E2; [discriminate E|].
    destruct (idx1 =? 0) eqn:E3; [discriminate E|]. destruct (idx2 =? 0) eqn:E4; [discriminate E|].
    destruct (n1 <? idx1) eqn:E5; [discriminate E|]. destruct (n2 <? idx2) eqn:E6; [discriminate E|].
    apply Nat.eqb_neq in E3. apply Nat.eqb_neq in E4. apply Nat.ltb_ge in E5. apply Nat.ltb_ge in E6. lia. }
  rewrite fork_il_eq in E by assumption. injection E as <-. auto.
Qed.

Lemma il_in_params : forall n1 n2 v, In v (map PS (seq 1 (tri n1 + tri n2)) ++ map PR (seq 1 (n1 + n2)) ++ map PN (seq 1 (n1 + n2))) <->
  match v with PS m => 1 <= m <= tri n1 + tri n2 | PR i | PN i => 1 <= i <= n1 + n2 | _ => False end.
Proof.
  intros n1 n2 v. rewrite !in_app_iff, !in_map_iff. split.
  - intros [(m & <- & Hm)|[(m & <- & Hm)|(m & <- & Hm)]]; apply in_seq in Hm; lia.
  - destruct v; intros H; try contradiction; [left|right; left|right; right]; exists i; (split; [reflexivity|apply in_seq; lia]).
Qed.

Lemma vars_two : forall mesh n1 n2 i v, 1 <= i <= n2 -> In v (vars (two_t mesh n1 n2 i)) ->
  match v with PS m => tri n1 + 1 <= m <= tri n1 + tri n2 | PR i | PN i => n1 + 1 <= i <= n1 + n2 | _ => False end.
Proof.
  intros mesh n1 n2 i v Hi Hv. unfold two_t, role_mesh in Hv. rewrite vars_mesh in Hv. apply in_app_or in Hv as [Hv|Hv].
  - apply in_flat_map in Hv as (t & Ht & Hv). apply in_map_iff in Ht as (e & <- & He). unfold mesh_two in He.
    apply in_map_iff in He as (k & <- & Hk). apply in_seq in Hk. unfold session_of in Hv. cbn [fst snd] in Hv.
    assert (v = PS (npairs n1 + idx n2 (min i (peer i k)) (max i (peer i k)))) as -> by (destruct (i <? peer i k); cbn in Hv; destruct Hv as [<-|[]]; reflexivity).
    pose proof (peer_range n2 i k Hi ltac:(lia)). pose proof (peer_neq i k). rewrite npairs_tri.
    assert (1 <= idx n2 (min i (peer i k)) (max i (peer i k)) <= tri n2) by (apply idx_range; lia). lia.
  - cbn in Hv. destruct Hv as [<-|[<-|[]]]; lia.
Qed.

(** Every role has its bound. *)
Lemma has_bound : forall mesh1 mesh2 n1 n2 idx1 idx2, 1 <= idx1 <= n1 -> 1 <= idx2 <= n2 ->
  let f := il_meant mesh1 mesh2 n1 n2 idx1 idx2 in
  let all := map snd (il_bounds f) ++ [fst (il_shared f); snd (il_shared f)] in
  forall t, In t all <-> (exists i, 1 <= i <= n1 /\ t = one_t mesh1 n1 i) \/ (exists i, 1 <= i <= n2 /\ t = two_t mesh2 n1 n2 i).
Proof.
  intros mesh1 mesh2 n1 n2 idx1 idx2 H1 H2 f all t. unfold all, f, il_meant. cbn [il_bounds il_shared fst snd].
  rewrite map_app, !map_map. cbn [snd]. rewrite !in_app_iff, !in_map_iff. split.
  - intros [[(k & <- & Hk)|(k & <- & Hk)]|[<-|[<-|[]]]]; try (apply in_seq in Hk).
    + left. exists (peer idx1 k). split; [apply peer_range; lia|reflexivity].
    + right. exists (peer idx2 k). split; [apply peer_range; lia|reflexivity].
    + left. exists idx1. auto.
    + right. exists idx2. auto.
  - intros [(i & Hi & ->)|(i & Hi & ->)].
    + destruct (Nat.eq_dec i idx1) as [->|Hne]; [right; left; reflexivity|]. left. left.
      destruct (peer_onto n1 idx1 i H1 Hi ltac:(congruence)) as (k & Hk & <-). exists k. split; [reflexivity|apply in_seq; lia].
    + destruct (Nat.eq_dec i idx2) as [->|Hne]; [right; right; left; reflexivity|]. left. right.
      destruct (peer_onto n2 idx2 i H2 Hi ltac:(congruence)) as (k & Hk & <-). exists k. split; [reflexivity|apply in_seq; lia].
Qed.

Lemma fixed_two : forall mesh n1 n2 i v, In v (fixed (one_t mesh n2 i)) ->
  In (match v with PS m => PS (tri n1 + m) | PR j => PR (n1 + j) | PN j => PN (n1 + j) | _ => v end) (fixed (two_t mesh n1 n2 i)).
Proof.
  intros mesh n1 n2 i v Hv. unfold one_t, two_t, role_mesh in *. rewrite fixed_mesh in *. apply in_app_or in Hv as [Hv|Hv].
  - apply in_or_app. left. apply in_flat_map in Hv as (t & Ht & Hv). apply in_map_iff in Ht as (e & <- & He). unfold mesh_of in He.
    apply in_map_iff in He as (k & <- & Hk). apply in_flat_map. unfold session_of, end_of, b_fork in Hv. cbn [fst snd] in Hv.
    destruct (i <? peer i k) eqn:E; [|destruct Hv]. cbn in Hv. destruct Hv as [<-|[]].
    exists (session_of 0 (npairs n1 + idx n2 (min i (peer i k)) (max i (peer i k)), i <? peer i k)). split.
    + apply in_map. apply in_map_iff. exists k. split; [reflexivity|exact Hk].
    + unfold session_of. cbn [fst snd]. rewrite E, npairs_tri. left. reflexivity.
  - apply in_or_app. right. cbn in *. destruct Hv as [<-|[<-|[]]]; auto.
Qed.

Lemma one_fixed : forall mesh n v, 1 <= n -> match v with PS m => 1 <= m <= tri n | PR i | PN i => 1 <= i <= n | _ => False end ->
  exists i, 1 <= i <= n /\ In v (fixed (one_t mesh n i)).
Proof.
  intros mesh n v Hn Hv. pose proof (fork_fn_ok mesh n _ (fork_fn_eq mesh n Hn)) as (_ & _ & H & _). cbn [fk_params fk_args] in H.
  destruct (H v) as (t & Ht & Hf); [apply in_params; exact Hv|]. unfold fork_meshes in Ht. apply in_map_iff in Ht as (i & <- & Hi).
  apply in_seq in Hi. exists i. split; [lia|exact Hf].
Qed.

(** * Theorems *)

(** The function exists exactly if the indices are those of roles, and then it compiles. *)
Theorem il_compiles : forall mesh1 mesh2 n1 n2 idx1 idx2,
  ((exists f, fork_il mesh1 mesh2 n1 n2 idx1 idx2 = Some f) <-> 1 <= idx1 <= n1 /\ 1 <= idx2 <= n2) /\
  (forall f, fork_il mesh1 mesh2 n1 n2 idx1 idx2 = Some f -> il_ok f).
Proof.
  intros mesh1 mesh2 n1 n2 idx1 idx2. split.
  - split; [intros (f & E); apply fork_il_some in E; tauto|]. intros [H1 H2]. eexists. apply fork_il_eq; assumption.
  - intros f E. apply fork_il_some in E as (H1 & H2 & ->). unfold il_ok. cbv zeta.
    pose proof (has_bound mesh1 mesh2 n1 n2 idx1 idx2 H1 H2) as HB. cbv zeta in HB.
    split; [|split; [|split; [|split; [|split; [|split; [|split]]]]]].
    + unfold il_meant. cbn [il_params]. apply nodup_app; [apply nodup_map; [intros x y; congruence|apply seq_NoDup]| |].
      * apply nodup_app; [apply nodup_map; [intros x y; congruence|apply seq_NoDup]..|].
        intros x Hx Hy. apply in_map_iff in Hx as (a & <- & _). apply in_map_iff in Hy as (b & Hb & _). discriminate Hb.
      * intros x Hx Hy. apply in_map_iff in Hx as (a & <- & _). apply in_app_or in Hy as [Hy|Hy]; apply in_map_iff in Hy as (b & Hb & _); discriminate Hb.
    + intros t Ht v Hv. apply HB in Ht. unfold il_meant. cbn [il_params]. apply il_in_params. destruct Ht as [(i & Hi & ->)|(i & Hi & ->)].
      * apply (vars_role_mesh mesh1 n1 i v Hi) in Hv. destruct v; try contradiction; lia.
      * apply (vars_two mesh2 n1 n2 i v Hi) in Hv. destruct v; try contradiction; lia.
    + intros v Hv. unfold il_meant in Hv. cbn [il_params] in Hv. apply il_in_params in Hv.
      assert (match v with PS m => 1 <= m <= tri n1 | PR i | PN i => 1 <= i <= n1 | _ => False end \/
              exists w, match w with PS m => 1 <= m <= tri n2 | PR i | PN i => 1 <= i <= n2 | _ => False end /\
                v = match w with PS m => PS (tri n1 + m) | PR j => PR (n1 + j) | PN j => PN (n1 + j) | _ => w end) as [Hw|(w & Hw & ->)].
      { destruct v; try contradiction.
        - destruct (le_lt_dec i (tri n1)); [left; lia|right; exists (PS (i - tri n1))]. split; [lia|f_equal; lia].
        - destruct (le_lt_dec i n1); [left; lia|right; exists (PR (i - n1))]. split; [lia|f_equal; lia].
        - destruct (le_lt_dec i n1); [left; lia|right; exists (PN (i - n1))]. split; [lia|f_equal; lia]. }
      * destruct (one_fixed mesh1 n1 v ltac:(lia) Hw) as (i & Hi & Hf). exists (one_t mesh1 n1 i). split; [apply HB; left; eauto|exact Hf].
      * destruct (one_fixed mesh2 n2 w ltac:(lia) Hw) as (i & Hi & Hf). exists (two_t mesh2 n1 n2 i). split; [apply HB; right; eauto|].
        apply fixed_two. exact Hf.
    + apply seq_NoDup.
    + reflexivity.
    + unfold il_meant. cbn [il_bounds il_funs]. rewrite map_app, !map_map, seq_two by lia. cbn [fst]. rewrite map_id. reflexivity.
    + reflexivity.
    + reflexivity.
Qed.
Print Assumptions il_compiles.

Lemma plays_inst : forall mesh n idx sg, 1 <= idx <= n ->
  (forall m, 1 <= m <= tri n -> is_session (sg (PS m)) = true) ->
  (forall p, 1 <= p <= n -> is_role (sg (PR p)) = true /\ is_name (sg (PN p)) = true) ->
  plays mesh n idx (map (fun k => inst sg (one_t mesh n (peer idx k))) (seq 1 (n - 1))) (inst sg (one_t mesh n idx)).
Proof.
  intros mesh n idx sg Hi HS HR. exists (family sg n), (fun p => sg (PR p)), (fun p => sg (PN p)).
  split; [apply family_dual; exact HS|]. split; [exact HR|].
  assert (forall i, 1 <= i <= n -> inst sg (one_t mesh n i) = as_role mesh n (family sg n) (fun p => sg (PR p)) (fun p => sg (PN p)) i) as H.
  { intros i Hx. unfold one_t, role_mesh, as_role. rewrite inst_mesh, family_mesh by exact Hx. reflexivity. }
  split; [|apply H; exact Hi]. rewrite others_peers, map_map by exact Hi. apply map_ext_in. intros k Hk. apply in_seq in Hk.
  apply H. apply peer_range; lia.
Qed.

Lemma inst_plays : forall mesh n G st nm sg i, dual_family n G ->
  (forall m, 1 <= m <= tri n -> sg (PS m) = fam n G m) -> sg (PR i) = st i -> sg (PN i) = nm i -> 1 <= i <= n ->
  inst sg (one_t mesh n i) = as_role mesh n G st nm i.
Proof.
  intros mesh n G st nm sg i HG HS HR HN Hi. unfold one_t, role_mesh, as_role.
  rewrite inst_mesh, family_mesh, (others_family _ n G) by assumption. cbn [inst]. rewrite HR, HN. reflexivity.
Qed.

(** It is accepted exactly for functions that take the MeshedChannels of the roles of each protocol, in their order without the
    shared role, for pairwise dual sessions in each protocol. *)
Theorem il_accepts_exactly : forall mesh1 mesh2 n1 n2 idx1 idx2 f A I1 I2, fork_il mesh1 mesh2 n1 n2 idx1 idx2 = Some f ->
  (il_accepts f A I1 I2 <-> plays mesh1 n1 idx1 (map A (seq 1 (n1 - 1))) I1 /\
     plays mesh2 n2 idx2 (map (fun k => A (n1 - 1 + k)) (seq 1 (n2 - 1))) I2).
Proof.
  intros mesh1 mesh2 n1 n2 idx1 idx2 f A I1 I2 E. apply fork_il_some in E as (H1 & H2 & ->). unfold il_accepts. split.
  - intros (sg & Hsg & HA & -> & ->). unfold il_meant in Hsg, HA. cbn [il_params il_bounds] in Hsg, HA. cbn [il_meant il_shared fst snd]. split.
    + replace (map A (seq 1 (n1 - 1))) with (map (fun k => inst sg (one_t mesh1 n1 (peer idx1 k))) (seq 1 (n1 - 1))).
      * apply plays_inst; [exact H1| |].
        -- intros m Hm. apply (Hsg (PS m)), il_in_params. lia.
        -- intros p Hp. split; [apply (Hsg (PR p))|apply (Hsg (PN p))]; apply il_in_params; lia.
      * apply map_ext_in. intros k Hk. symmetry. apply HA. apply in_or_app. left. apply in_map_iff. exists k. auto.
    + replace (map (fun k => A (n1 - 1 + k)) (seq 1 (n2 - 1))) with (map (fun k => inst (shift n1 sg) (one_t mesh2 n2 (peer idx2 k))) (seq 1 (n2 - 1))).
      * unfold two_t. rewrite inst_two. apply plays_inst; [exact H2| |].
        -- intros m Hm. apply (Hsg (PS (tri n1 + m))), il_in_params. lia.
        -- intros p Hp. split; [apply (Hsg (PR (n1 + p)))|apply (Hsg (PN (n1 + p)))]; apply il_in_params; lia.
      * apply map_ext_in. intros k Hk. symmetry. unfold one_t. rewrite <- inst_two. apply HA. apply in_or_app. right.
        apply in_map_iff. exists k. auto.
  - intros [(G1 & st1 & nm1 & HG1 & HR1 & HA1 & ->) (G2 & st2 & nm2 & HG2 & HR2 & HA2 & ->)].
    set (sg := fun v => match v with
                        | PS m => if m <=? tri n1 then fam n1 G1 m else fam n2 G2 (m - tri n1)
                        | PR i => if i <=? n1 then st1 i else st2 (i - n1)
                        | PN i => if i <=? n1 then nm1 i else nm2 (i - n1)
                        | _ => end_t end).
    assert (forall i, 1 <= i <= n1 -> inst sg (one_t mesh1 n1 i) = as_role mesh1 n1 G1 st1 nm1 i) as HO.
    { intros i Hi. apply inst_plays; [exact HG1| | | |exact Hi]; cbn [sg].
      - intros m Hm. destruct (Nat.leb_spec m (tri n1)); [reflexivity|lia].
      - destruct (Nat.leb_spec i n1); [reflexivity|lia].
      - destruct (Nat.leb_spec i n1); [reflexivity|lia]. }
    assert (forall i, 1 <= i <= n2 -> inst sg (two_t mesh2 n1 n2 i) = as_role mesh2 n2 G2 st2 nm2 i) as HT.
    { intros i Hi. unfold two_t. rewrite inst_two. apply inst_plays; [exact HG2| | | |exact Hi]; cbn [sg shift].
      - intros m Hm. destruct (Nat.leb_spec (tri n1 + m) (tri n1)); [lia|]. f_equal. lia.
      - destruct (Nat.leb_spec (n1 + i) n1); [lia|]. f_equal. lia.
      - destruct (Nat.leb_spec (n1 + i) n1); [lia|]. f_equal. lia. }
    exists sg. split; [|split; [|split]].
    + intros v Hv. apply il_in_params in Hv. destruct v; try contradiction; cbn [sg ok_for].
      * destruct (Nat.leb_spec i (tri n1)); apply fam_session; auto; lia.
      * destruct (Nat.leb_spec i n1); [apply HR1|apply HR2]; lia.
      * destruct (Nat.leb_spec i n1); [apply HR1|apply HR2]; lia.
    + intros k t Hk. cbn [il_meant il_bounds] in Hk. rewrite others_peers, map_map, map_seq_eq in HA1, HA2 by assumption.
      apply in_app_or in Hk as [Hk|Hk]; apply in_map_iff in Hk as (k' & Ek & Hk); apply in_seq in Hk; injection Ek as <- <-.
      * rewrite HO by (apply peer_range; lia). apply HA1. lia.
      * rewrite HT by (apply peer_range; lia). apply HA2. lia.
    + symmetry. apply HO. exact H1.
    + symmetry. apply HT. exact H2.
Qed.
Print Assumptions il_accepts_exactly.

(** For the types of the machine: function k of protocol one is that of the k-th role other than the shared one, and so on;
    then [dual_mesh] of both protocols is what is asked, whatever they have in common. *)
Lemma plays_dual : forall mesh roles T idx, let n := List.length roles in 1 <= idx <= n ->
  (plays mesh n idx (map (content mesh roles T) (others n idx)) (content mesh roles T idx) <-> dual_mesh n T).
Proof.
  intros mesh roles T idx n Hi. pose proof (contents_dual mesh roles T) as CD. cbv zeta in CD. fold n in CD. rewrite CD.
  assert (forall F F' : nat -> rty, map F (others n idx) = map F' (others n idx) /\ F idx = F' idx <-> forall p, 1 <= p <= n -> F p = F' p) as HE.
  { intros F F'. split.
    - intros [HA HI] p Hp. destruct (Nat.eq_dec p idx) as [->|Hne]; [exact HI|]. rewrite others_peers, !map_map, map_seq_eq in HA by exact Hi.
      destruct (peer_onto n idx p Hi Hp ltac:(congruence)) as (k & Hk & <-). apply HA. lia.
    - intros H. split; [|apply H; exact Hi]. apply map_ext_in. intros p Hp. apply in_others in Hp as [Hp _]. apply H. exact Hp. }
  split.
  - intros (G & st & nm & HG & HR & HA & HI). exists G, st, nm. split; [exact HG|]. apply (HE (content mesh roles T) (as_role mesh n G st nm)). auto.
  - intros (G & st & nm & HG & H). exists G, st, nm. split; [exact HG|]. split.
    + intros p Hp. destruct (content_roles _ _ _ _ _ _ _ _ (H p Hp)) as (Hx & Hy & _). auto.
    + apply HE. exact H.
Qed.

Theorem il_asks_dual : forall mesh1 mesh2 roles1 roles2 T1 T2 idx1 idx2 f A, let n1 := List.length roles1 in let n2 := List.length roles2 in
  fork_il mesh1 mesh2 n1 n2 idx1 idx2 = Some f ->
  map A (seq 1 (n1 + n2 - 2)) = map (content mesh1 roles1 T1) (others n1 idx1) ++ map (content mesh2 roles2 T2) (others n2 idx2) ->
  (il_accepts f A (content mesh1 roles1 T1 idx1) (content mesh2 roles2 T2 idx2) <-> dual_mesh n1 T1 /\ dual_mesh n2 T2).
Proof.
  intros mesh1 mesh2 roles1 roles2 T1 T2 idx1 idx2 f A n1 n2 E HA. rewrite (il_accepts_exactly _ _ _ _ _ _ _ _ _ _ E).
  apply fork_il_some in E as (H1 & H2 & _).
  assert (map A (seq 1 (n1 - 1)) = map (content mesh1 roles1 T1) (others n1 idx1) /\
          map (fun k => A (n1 - 1 + k)) (seq 1 (n2 - 1)) = map (content mesh2 roles2 T2) (others n2 idx2)) as [HA1 HA2].
  { rewrite seq_two, map_app, map_map in HA by lia.
    assert (forall (l l' m m' : list rty), l ++ m = l' ++ m' -> List.length l = List.length l' -> l = l' /\ m = m') as Happ.
    { induction l as [|x l IH]; intros [|y l'] m m' Hl Hlen; cbn in *; try discriminate; auto. injection Hl as -> Hl. injection Hlen as Hlen.
      destruct (IH _ _ _ Hl Hlen) as [-> ->]. auto. }
    apply Happ; [exact HA|]. rewrite !map_length, others_peers, map_length by exact H1. reflexivity. }
  rewrite HA1, HA2. pose proof (plays_dual mesh1 roles1 T1 idx1) as P1. pose proof (plays_dual mesh2 roles2 T2 idx2) as P2. cbv zeta in P1, P2.
  fold n1 in P1. fold n2 in P2. rewrite P1, P2 by assumption. reflexivity.
Qed.
Print Assumptions il_asks_dual.

(** Two protocols [ask] of three roles A, B, C, with role C (3) of the first and role A (1) of the second in one thread. *)
Definition Ms : string * string := ("MeshedChannelsOne", "MeshedChannelsTwo")%string.
Definition names3 : list string := ["A"; "B"; "C"]%string.
Definition args6 (T1 T2 : nat -> mty) (k : nat) : rty :=
  nth (k - 1) (map (content (fst Ms) names3 T1) [1; 2] ++ map (content (snd Ms) names3 T2) [2; 3]) end_t.
Lemma ask_dual : dual_mesh 3 ask.
Proof.
  split.
  - intros p Hp. destruct p as [|[|[|[|p]]]]; try lia; reflexivity.
  - intros p q Hp Hq Hne. destruct p as [|[|[|[|p]]]], q as [|[|[|[|q]]]]; try lia; reflexivity.
Qed.
Example il_example : exists f, fork_il (fst Ms) (snd Ms) 3 3 3 1 = Some f /\
  il_accepts f (args6 ask ask) (content (fst Ms) names3 ask 3) (content (snd Ms) names3 ask 1) /\
  ~ il_accepts f (args6 ask (fun p => if p =? 3 then ([End; End], SEnd) else ask p)) (content (fst Ms) names3 ask 3) (content (snd Ms) names3 ask 1).
Proof.
  eexists. split; [reflexivity|]. split.
  - apply (il_asks_dual (fst Ms) (snd Ms) names3 names3 ask ask 3 1); [reflexivity|reflexivity|]. split; exact ask_dual.
  - intros H. apply (il_asks_dual (fst Ms) (snd Ms) names3 names3 ask (fun p => if p =? 3 then ([End; End], SEnd) else ask p) 3 1) in H; [|reflexivity|reflexivity].
    destruct H as [_ [_ H]]. specialize (H 1 3 ltac:(cbn; lia) ltac:(cbn; lia) ltac:(lia)). discriminate H.
Qed.

(** One thread for all roles: accepted for the same types as [fork_mpst]. *)
Theorem solo_asks_dual : forall mesh roles T f, let n := List.length roles in fork_solo mesh n = Some f ->
  fork_ok f /\ (fork_accepts f (map (content mesh roles T) (seq 1 n)) <-> dual_mesh n T).
Proof.
  intros mesh roles T f n E. assert (fork_solo mesh n = fork_fn mesh n) as Es by reflexivity. rewrite Es in E. split.
  - exact (fork_fn_ok mesh n f E).
  - exact (fork_accepts_dual mesh roles T f E).
Qed.
Print Assumptions solo_asks_dual.
Example solo_example : exists f, fork_solo "MeshedChannels" 3 = Some f /\ fork_accepts f (map (content "MeshedChannels" names3 ask) (seq 1 3)).
Proof. eexists. split; [reflexivity|]. apply (solo_asks_dual "MeshedChannels" names3 ask); [reflexivity|exact ask_dual]. Qed.
