(** Proofs for FnForms.v. *)
From Coq Require Import Arith Bool String Lia.
From Verif Require Import Types Diag DiagProofs Wiring WiringProofs Methods MethodsSpec MethodsProofs FnForms FnSpec.
From Coq Require Import List.
Import ListNotations.
Open Scope nat_scope.
Open Scope list_scope.

Lemma at_seq : forall (mk : nat -> stmt) e len a,
  flat_map (fun i => if negb (i =? e) then [] else [mk i]) (seq a len) = if (a <=? e) && (e <? a + len) then [mk e] else [].
Proof.
  intros mk e. induction len as [|len IH]; intros a; cbn [seq flat_map].
  - destruct (Nat.leb_spec a e), (Nat.ltb_spec e (a + 0)); cbn; try reflexivity; lia.
  - rewrite IH. destruct (Nat.eqb_spec a e) as [->|Hne]; cbn [negb app].
    + destruct (Nat.leb_spec (S e) e), (Nat.leb_spec e e), (Nat.ltb_spec e (e + S len)); cbn; try reflexivity; lia.
    + destruct (Nat.leb_spec (S a) e), (Nat.leb_spec a e), (Nat.ltb_spec e (S a + len)), (Nat.ltb_spec e (a + S len)); cbn; try reflexivity; lia.
Qed.
Lemma at_index_in : forall mk n e, 1 <= e < n -> at_index mk n e = [mk e].
Proof.
  intros mk n e He. unfold at_index. rewrite at_seq. destruct (Nat.leb_spec 1 e), (Nat.ltb_spec e (1 + (n - 1))); cbn; try reflexivity; lia.
Qed.
Lemma at_index_out : forall mk n e, ~ (1 <= e < n) -> at_index mk n e = [].
Proof.
  intros mk n e He. unfold at_index. rewrite at_seq. destruct (Nat.leb_spec 1 e), (Nat.ltb_spec e (1 + (n - 1))); cbn; try reflexivity; lia.
Qed.

Lemma nth_seq_map : forall (A : Type) (g : nat -> A) n i, 1 <= i < n -> nth_error (map g (seq 1 (n - 1))) (i - 1) = Some (g i).
Proof.
  intros A g n i Hi. rewrite nth_error_map. rewrite (nth_error_nth' _ 0) by (rewrite seq_length; lia).
  cbn. rewrite seq_nth by lia. f_equal. f_equal. lia.
Qed.
Lemma scope0_field : forall f g n i, 1 <= i < n -> sc_field (scope0 f (map g (seq 1 (n - 1)))) i = Some (g i).
Proof. intros f g n i Hi. cbn. destruct i as [|i]; [lia|]. rewrite <- (nth_seq_map rty g n (S i) Hi). f_equal. lia. Qed.
Lemma scope0_inv : forall f g n i T, sc_field (scope0 f (map g (seq 1 (n - 1)))) i = Some T -> 1 <= i < n /\ T = g i.
Proof.
  intros f g n i T E. assert (Hi : 1 <= i < n).
  { cbn in E. destruct i as [|i]; [discriminate|]. assert (i < List.length (map g (seq 1 (n - 1)))) by (apply nth_error_Some; congruence).
    rewrite map_length, seq_length in H. lia. }
  split; [exact Hi|]. rewrite scope0_field in E by exact Hi. congruence.
Qed.

Ltac field0 := match goal with |- context[nth_error (map ?g (seq 1 (?n - 1)))] =>
  etransitivity; [apply (scope0_field (Fn [] None end_t [] [] false [] EMesh) g n); lia|] end.

Lemma fst_new_fields : forall n e, map fst (new_fields n e) = seq 1 (n - 1).
Proof. intros n e. unfold new_fields. rewrite map_map. cbn. apply map_id. Qed.
Lemma snd_new_fields : forall n e, NoDup (map snd (new_fields n e)).
Proof.
  intros n e. unfold new_fields. rewrite map_map. cbn. apply NoDup_map_inj; [apply seq_NoDup|].
  intros x y E. destruct (Nat.eqb_spec x e), (Nat.eqb_spec y e); congruence.
Qed.
Lemma in_new_fields : forall n e i x, In (i, x) (new_fields n e) <-> 1 <= i < n /\ x = if i =? e then New else Old i.
Proof.
  intros n e i x. unfold new_fields. rewrite in_map_iff. split.
  - intros (k & E & Hk). injection E as -> <-. apply in_seq in Hk. split; [lia|reflexivity].
  - intros [Hi ->]. exists i. split; [reflexivity|apply in_seq; lia].
Qed.
Lemma literal_new : forall n e sc h, (forall i, 1 <= i < n -> source_type sc (if i =? e then New else Old i) = Some (h i)) ->
  literal n sc (new_fields n e) (map h (seq 1 (n - 1))).
Proof.
  intros n e sc h H. unfold literal. rewrite fst_new_fields. repeat split.
  - apply seq_NoDup.
  - apply in_seq in H0. lia.
  - apply in_seq in H0. lia.
  - intros Hi. apply in_seq. lia.
  - apply snd_new_fields.
  - rewrite map_length, seq_length. reflexivity.
  - intros i x Hi. apply in_new_fields in Hi as [Hi ->]. rewrite H, nth_seq_map by exact Hi. reflexivity.
Qed.
Lemma literal_inv : forall n e sc tys i, literal n sc (new_fields n e) tys -> 1 <= i < n ->
  exists t, source_type sc (if i =? e then New else Old i) = Some t.
Proof.
  intros n e sc tys i (_ & _ & _ & Hl & H) Hi. rewrite (H i _ (proj2 (in_new_fields n e i _) (conj Hi eq_refl))).
  destruct (nth_error tys (i - 1)) eqn:E; [eauto|]. apply nth_error_None in E. lia.
Qed.

Lemma PS_NoDup : forall a len, NoDup (map PS (seq a len)).
Proof. intros a len. apply NoDup_map_inj; [apply seq_NoDup|congruence]. Qed.
Lemma params_NoDup : forall a len, NoDup ([PT] ++ map PS (seq a len) ++ [PRole]).
Proof.
  intros a len. apply NoDup_app_intro; [repeat constructor; cbn; tauto|apply NoDup_app_intro|].
  - apply PS_NoDup.
  - repeat constructor; cbn; tauto.
  - intros v Hv [<-|[]]. apply in_map_iff in Hv as (k & E & _). discriminate E.
  - intros v [<-|[]] Hv. apply in_app_or in Hv as [Hv|[Hv|[]]]; [|discriminate Hv]. apply in_map_iff in Hv as (k & E & _). discriminate E.
Qed.

Lemma par_S : forall v l, In v l -> In v ([PT] ++ l ++ [PRole]).
Proof. intros v l Hv. apply in_or_app. right. apply in_or_app. left. exact Hv. Qed.
Lemma par_R : forall l, In PRole ([PT] ++ l ++ [PRole]).
Proof. intros l. apply in_or_app. right. apply in_or_app. right. left. reflexivity. Qed.

(** The fields of the two types of a send (or receive) for index e; sessions with the numbers of the field. *)
Definition wrap (c : con) (e i : nat) : rty := if i =? e then RApp c [RVar PT; RVar (PS i)] else RVar (PS i).
Definition wrap_check (e i : nat) : rty := if i =? 1 then end_t else wrap CSend e i.
Lemma wrap_vars : forall c e i v, In v (vars (wrap c e i)) -> v = PT \/ v = PS i.
Proof. intros c e i v. unfold wrap. destruct (i =? e); cbn; intuition. Qed.
Lemma check_fields : forall n e, 2 <= n ->
  end_t :: map (fun i => if i =? e then RApp CSend [RVar PT; RVar (PS i)] else RVar (PS i)) (seq 2 (n - 2)) = map (wrap_check e) (seq 1 (n - 1)) /\
  end_t :: svars 2 (n - 2) = map (fun i => if i =? 1 then end_t else RVar (PS i)) (seq 1 (n - 1)).
Proof.
  intros n e Hn. destruct n as [|[|n]]; try lia. cbn [Nat.sub]. rewrite Nat.sub_0_r. cbn [seq map]. split; f_equal.
  - apply map_ext_in. intros i Hi. apply in_seq in Hi. unfold wrap_check, wrap. destruct (Nat.eqb_spec i 1); [lia|reflexivity].
  - apply map_ext_in. intros i Hi. apply in_seq in Hi. destruct (Nat.eqb_spec i 1); [lia|reflexivity].
Qed.

Lemma comm_vars : forall c mesh n e st nm stack v, In v (vars (mesh_t mesh (map (wrap c e) (seq 1 (n - 1))) (RApp st [stack]) (name_t nm))) ->
  stack = RVar PRole -> In v ([PT] ++ map PS (seq 1 (n - 1)) ++ [PRole]).
Proof.
  intros c mesh n e st nm stack v Hv ->. apply vars_mesh in Hv as [(t & Ht & Hv)|[Hv|Hv]].
  - apply in_map_iff in Ht as (k & <- & Hk). apply wrap_vars in Hv as [-> | ->]; [left; reflexivity|].
    apply par_S. apply in_map. exact Hk.
  - cbn in Hv. destruct Hv as [<-|[]]. apply par_R.
  - destruct Hv.
Qed.
Lemma out_vars : forall mesh n nm v, In v (vars (mesh_t mesh (svars 1 (n - 1)) (RVar PRole) (name_t nm))) ->
  In v ([PT] ++ map PS (seq 1 (n - 1)) ++ [PRole]).
Proof.
  intros mesh n nm v Hv. apply vars_mesh in Hv as [(t & Ht & Hv)|[Hv|Hv]].
  - apply par_S. exact (vars_svars _ _ _ _ Ht Hv).
  - cbn in Hv. destruct Hv as [<-|[]]. apply par_R.
  - destruct Hv.
Qed.

(** * When the functions compile *)
Lemma send_fn_ok : forall mesh n receiver sender e, fn_ok mesh n (send_fn mesh n receiver sender e).
Proof.
  intros mesh n receiver sender e. split; [apply params_NoDup|]. split.
  - intros t [[<-|[<-|[]]]|E] v Hv.
    + exact (comm_vars CSend _ _ _ _ _ _ _ Hv eq_refl).
    + exact (out_vars _ _ _ _ Hv).
    + injection E as <-. destruct Hv as [<-|[]]. left. reflexivity.
  - exists (map (wrap CSend e) (seq 1 (n - 1))), (RApp (CRole receiver) [RVar PRole]), (RVar PRole), (name_t sender).
    destruct (Nat.le_gt_cases 1 e) as [H1|H1]; [destruct (Nat.lt_ge_cases e n) as [H2|H2]|].
    + eexists (Scope (moved (sc_field (scope0 (send_fn mesh n receiver sender e) (map (wrap CSend e) (seq 1 (n - 1))))) e) (Some (RVar (PS e))) None None), (svars 1 (n - 1)).
      split; [reflexivity|]. split; [rewrite map_length, seq_length; reflexivity|]. split; [|split; [|split; [constructor|reflexivity]]].
      * cbn [f_lets send_fn]. rewrite at_index_in by lia. econstructor; [|constructor].
        apply (TySend _ _ _ e (RVar PT) (RVar (PS e))). field0. unfold wrap. rewrite Nat.eqb_refl. reflexivity.
      * apply (literal_new n e _ (fun i => RVar (PS i))). intros i Hi. destruct (Nat.eqb_spec i e) as [->|Hne]; [reflexivity|].
        cbn [source_type sc_field]. unfold moved. destruct (Nat.eqb_spec i e); [contradiction|].
        rewrite scope0_field by exact Hi. unfold wrap. destruct (Nat.eqb_spec i e); [contradiction|reflexivity].
    + eexists _, (svars 1 (n - 1)).
      split; [reflexivity|]. split; [rewrite map_length, seq_length; reflexivity|]. split; [|split; [|split; [constructor|reflexivity]]].
      * cbn [f_lets send_fn]. rewrite at_index_out by lia. constructor.
      * apply (literal_new n e _ (fun i => RVar (PS i))). intros i Hi. destruct (Nat.eqb_spec i e) as [->|Hne]; [lia|].
        cbn [source_type]. rewrite scope0_field by exact Hi. unfold wrap. destruct (Nat.eqb_spec i e); [contradiction|reflexivity].
    + eexists _, (svars 1 (n - 1)).
      split; [reflexivity|]. split; [rewrite map_length, seq_length; reflexivity|]. split; [|split; [|split; [constructor|reflexivity]]].
      * cbn [f_lets send_fn]. rewrite at_index_out by lia. constructor.
      * apply (literal_new n e _ (fun i => RVar (PS i))). intros i Hi. destruct (Nat.eqb_spec i e) as [->|Hne]; [lia|].
        cbn [source_type]. rewrite scope0_field by exact Hi. unfold wrap. destruct (Nat.eqb_spec i e); [contradiction|reflexivity].
Qed.

Lemma recv_fn_ok : forall mesh n sender receiver e, fn_ok mesh n (recv_fn mesh n sender receiver e) <-> 1 <= e < n.
Proof.
  intros mesh n sender receiver e. split.
  - intros (_ & _ & fields & stack & stack' & name & sc & tys & Es & _ & Ht & _ & _ & v & Ev & _).
    destruct (Nat.le_gt_cases 1 e) as [H1|H1]; [destruct (Nat.lt_ge_cases e n) as [H2|H2]; [lia|]|];
      cbn [f_lets recv_fn] in Ht; rewrite at_index_out in Ht by lia; inversion Ht; subst; discriminate Ev.
  - intros He. split; [apply params_NoDup|]. split.
    + intros t [[<-|[<-|[<-|[]]]]|E] v Hv; try discriminate E.
      * exact (comm_vars CRecv _ _ _ _ _ _ _ Hv eq_refl).
      * destruct Hv as [<-|[]]. left. reflexivity.
      * exact (out_vars _ _ _ _ Hv).
    + exists (map (wrap CRecv e) (seq 1 (n - 1))), (RApp (CRole sender) [RVar PRole]), (RVar PRole), (name_t receiver).
      eexists (Scope (moved (sc_field (scope0 (recv_fn mesh n sender receiver e) (map (wrap CRecv e) (seq 1 (n - 1))))) e) (Some (RVar (PS e))) (Some (RVar PT)) None), (svars 1 (n - 1)).
      split; [reflexivity|]. split; [rewrite map_length, seq_length; reflexivity|]. split; [|split; [|split; [constructor|exists (RVar PT); split; reflexivity]]].
      * cbn [f_lets recv_fn]. rewrite at_index_in by lia. econstructor; [|constructor].
        apply (TyRecv _ _ _ _ e (RVar PT) (RVar (PS e))). field0. unfold wrap. rewrite Nat.eqb_refl. reflexivity.
      * apply (literal_new n e _ (fun i => RVar (PS i))). intros i Hi. destruct (Nat.eqb_spec i e) as [->|Hne]; [reflexivity|].
        cbn [source_type sc_field]. unfold moved. destruct (Nat.eqb_spec i e); [contradiction|].
        rewrite scope0_field by exact Hi. unfold wrap. destruct (Nat.eqb_spec i e); [contradiction|reflexivity].
Qed.

Lemma check_vars : forall n e v mesh st nm, 2 <= n ->
  In v (vars (mesh_t mesh (map (wrap_check e) (seq 1 (n - 1))) (RApp st [RVar PRole]) (name_t nm))) -> In v ([PT] ++ map PS (seq 2 (n - 2)) ++ [PRole]).
Proof.
  intros n e v mesh st nm Hn Hv. apply vars_mesh in Hv as [(t & Ht & Hv)|[Hv|Hv]].
  - apply in_map_iff in Ht as (k & <- & Hk). unfold wrap_check in Hv. apply in_seq in Hk. destruct (Nat.eqb_spec k 1); [destruct Hv|].
    apply wrap_vars in Hv as [-> | ->]; [left; reflexivity|]. apply par_S. apply in_map. apply in_seq. lia.
  - cbn in Hv. destruct Hv as [<-|[]]. apply par_R.
  - destruct Hv.
Qed.
Lemma check_fn_ok : forall mesh n receiver sender e, fn_ok mesh n (send_check_fn mesh n receiver sender e) <-> 2 <= n /\ e <> 1.
Proof.
  intros mesh n receiver sender e. split.
  - intros (_ & _ & fields & stack & stack' & name & sc & tys & Es & Hl & Ht & _).
    cbn [f_self send_check_fn] in Es. apply mesh_t_inj in Es as (_ & <- & _ & _). cbn [List.length] in Hl.
    rewrite map_length, seq_length in Hl. assert (Hn : 2 <= n) by lia. split; [exact Hn|]. intros ->.
    cbn [f_lets send_check_fn] in Ht. rewrite at_index_in in Ht by lia. inversion Ht as [|? ? sc1 ? ? Ha Hb]; subst.
    inversion Ha; subst. inversion Hb as [|? ? sc2 ? ? Hc Hd]; subst. inversion Hc as [f nw v i T S Hf| |]; subst. cbn in Hf. discriminate Hf.
  - intros [Hn He]. destruct (check_fields n e Hn) as [E1 E2]. split; [apply params_NoDup|]. split.
    + intros t [[<-|[<-|[]]]|E] v Hv.
      * cbn [f_self send_check_fn] in Hv. rewrite E1 in Hv. exact (check_vars _ _ _ _ _ _ Hn Hv).
      * cbn [f_params send_check_fn]. apply vars_mesh in Hv as [(t & [<-|Ht] & Hv)|[Hv|Hv]]; [destruct Hv| | |destruct Hv].
        -- apply par_S. exact (vars_svars _ _ _ _ Ht Hv).
        -- cbn in Hv. destruct Hv as [<-|[]]. apply par_R.
      * injection E as <-. destruct Hv as [<-|[]]. left. reflexivity.
    + set (g := wrap_check e). exists (map g (seq 1 (n - 1))), (RApp (CRole receiver) [RVar PRole]), (RVar PRole), (name_t sender).
      set (F := sc_field (scope0 (send_check_fn mesh n receiver sender e) (map g (seq 1 (n - 1))))).
      assert (Hself : f_self (send_check_fn mesh n receiver sender e) = mesh_t mesh (map g (seq 1 (n - 1))) (RApp (CRole receiver) [RVar PRole]) (name_t sender))
        by (cbn [f_self send_check_fn]; rewrite E1; reflexivity).
      destruct (Nat.le_gt_cases 1 e) as [H1|H1]; [destruct (Nat.lt_ge_cases e n) as [H2|H2]|].
      * exists (Scope (moved F e) (Some (RVar (PS e))) None None), (end_t :: svars 2 (n - 2)).
        split; [exact Hself|]. split; [rewrite map_length, seq_length; reflexivity|]. split; [|split; [|split; [constructor|reflexivity]]].
        -- cbn [f_lets send_check_fn]. rewrite at_index_in by lia. econstructor; [constructor; rewrite scope0_field by lia; reflexivity|].
           econstructor; [|constructor]. apply (TySend _ _ _ e (RVar PT) (RVar (PS e))). field0. unfold g, wrap_check, wrap.
           destruct (Nat.eqb_spec e 1); [contradiction|]. rewrite Nat.eqb_refl. reflexivity.
        -- rewrite E2. apply literal_new. intros i Hi. destruct (Nat.eqb_spec i e) as [->|Hne].
           ++ destruct (Nat.eqb_spec e 1); [contradiction|reflexivity].
           ++ cbn [source_type sc_field]. unfold moved. destruct (Nat.eqb_spec i e); [contradiction|]. unfold F. rewrite scope0_field by exact Hi.
              unfold g, wrap_check, wrap. destruct (i =? 1); [reflexivity|]. destruct (Nat.eqb_spec i e); [contradiction|reflexivity].
      * exists (scope0 (send_check_fn mesh n receiver sender e) (map g (seq 1 (n - 1)))), (end_t :: svars 2 (n - 2)).
        split; [exact Hself|]. split; [rewrite map_length, seq_length; reflexivity|]. split; [|split; [|split; [constructor|reflexivity]]].
        -- cbn [f_lets send_check_fn]. rewrite at_index_out by lia. econstructor; [constructor; rewrite scope0_field by lia; reflexivity|constructor].
        -- rewrite E2. apply literal_new. intros i Hi. destruct (Nat.eqb_spec i e) as [->|Hne]; [lia|].
           cbn [source_type]. rewrite scope0_field by exact Hi. unfold g, wrap_check, wrap. destruct (i =? 1); [reflexivity|]. destruct (Nat.eqb_spec i e); [contradiction|reflexivity].
      * exists (scope0 (send_check_fn mesh n receiver sender e) (map g (seq 1 (n - 1)))), (end_t :: svars 2 (n - 2)).
        split; [exact Hself|]. split; [rewrite map_length, seq_length; reflexivity|]. split; [|split; [|split; [constructor|reflexivity]]].
        -- cbn [f_lets send_check_fn]. rewrite at_index_out by lia. econstructor; [constructor; rewrite scope0_field by lia; reflexivity|constructor].
        -- rewrite E2. apply literal_new. intros i Hi. destruct (Nat.eqb_spec i e) as [->|Hne]; [lia|].
           cbn [source_type]. rewrite scope0_field by exact Hi. unfold g, wrap_check, wrap. destruct (i =? 1); [reflexivity|]. destruct (Nat.eqb_spec i e); [contradiction|reflexivity].
Qed.

Lemma offer_params_NoDup : forall n, NoDup (map PS (seq 1 (2 * n - 1 - 1)) ++ [PR 1; PR 2]).
Proof.
  intros n. apply NoDup_app_intro; [apply PS_NoDup|repeat constructor; cbn; intuition discriminate|].
  intros v Hv H. apply in_map_iff in Hv as (k & <- & _). cbn in H. intuition discriminate.
Qed.
Lemma offer_fn_ok : forall mesh n role name e, fn_ok mesh n (offer_fn mesh n role name e) <-> 1 <= e < n.
Proof.
  intros mesh n role name e. split.
  - intros (_ & _ & fields & stack & stack' & nm & sc & tys & Es & _ & Ht & _ & _ & l & r & Ev & _).
    destruct (Nat.le_gt_cases 1 e) as [H1|H1]; [destruct (Nat.lt_ge_cases e n) as [H2|H2]; [lia|]|];
      cbn [f_lets offer_fn] in Ht; rewrite at_index_out in Ht by lia; inversion Ht; subst; discriminate Ev.
  - intros He. set (L := mesh_t mesh (svars 1 (n - 1)) (RVar (PR 1)) (name_t name)).
    set (R := mesh_t mesh (svars n (2 * n - 1 - n)) (RVar (PR 2)) (name_t name)).
    assert (HL : forall v, In v (vars L) -> In v (map PS (seq 1 (2 * n - 1 - 1)) ++ [PR 1; PR 2])).
    { intros v Hv. apply in_or_app. apply vars_mesh in Hv as [(t & Ht & Hv)|[Hv|Hv]].
      - left. pose proof (vars_svars _ _ _ _ Ht Hv) as H. apply in_map_iff in H as (k & <- & Hk). apply in_map. apply in_seq in Hk. apply in_seq. lia.
      - right. cbn in Hv. destruct Hv as [<-|[]]. left. reflexivity.
      - destruct Hv. }
    assert (HR : forall v, In v (vars R) -> In v (map PS (seq 1 (2 * n - 1 - 1)) ++ [PR 1; PR 2])).
    { intros v Hv. apply in_or_app. apply vars_mesh in Hv as [(t & Ht & Hv)|[Hv|Hv]].
      - left. pose proof (vars_svars _ _ _ _ Ht Hv) as H. apply in_map_iff in H as (k & <- & Hk). apply in_map. apply in_seq in Hk. apply in_seq. lia.
      - right. cbn in Hv. destruct Hv as [<-|[]]. right. left. reflexivity.
      - destruct Hv. }
    split; [apply offer_params_NoDup|]. split.
    + intros t [[<-|[<-|[<-|[]]]]|E] v Hv; try discriminate E; [|exact (HL v Hv)|exact (HR v Hv)].
      apply vars_mesh in Hv as [(t & Ht & Hv)|[Hv|Hv]]; [|cbn in Hv; tauto|destruct Hv].
      apply in_map_iff in Ht as (k & <- & Hk). destruct (negb (k =? e)); [destruct Hv|].
      unfold offer_alias in Hv. fold L R in Hv. cbn [vars flat_map] in Hv. rewrite !app_nil_r in Hv.
      apply in_app_or in Hv as [Hv|Hv]; [exact (HL v Hv)|exact (HR v Hv)].
    + set (g := fun i => if negb (i =? e) then end_t else offer_alias mesh (svars 1 (n - 1)) (svars n (2 * n - 1 - n)) (RVar (PR 1)) (RVar (PR 2)) (name_t name)).
      exists (map g (seq 1 (n - 1))), (RApp (CAllTo role) [role_end_t; role_end_t]), role_end_t, (name_t name).
      exists (Scope (moved (sc_field (scope0 (offer_fn mesh n role name e) (map g (seq 1 (n - 1))))) e) (Some end_t) (Some (RApp CEither [L; R])) None), (map (fun _ => end_t) (seq 1 (n - 1))).
      split; [reflexivity|]. split; [rewrite map_length, seq_length; reflexivity|]. split; [|split; [|split; [constructor|]]].
      * cbn [f_lets offer_fn]. rewrite at_index_in by lia. econstructor; [|constructor].
        eapply (TyRecv _ _ _ _ e). field0. unfold g. rewrite Nat.eqb_refl. reflexivity.
      * apply (literal_new n e _ (fun _ => end_t)). intros i Hi. destruct (Nat.eqb_spec i e) as [->|Hne]; [reflexivity|].
        cbn [source_type sc_field]. unfold moved. destruct (Nat.eqb_spec i e); [contradiction|].
        rewrite scope0_field by exact Hi. unfold g. destruct (Nat.eqb_spec i e); [contradiction|reflexivity].
      * exists L, R. split; [reflexivity|]. split; [reflexivity|]. split.
        -- eexists _, _, _. split; [reflexivity|]. unfold svars. rewrite map_length, seq_length. reflexivity.
        -- eexists _, _, _. split; [reflexivity|]. unfold svars. rewrite map_length, seq_length. lia.
Qed.


(** * What a call does *)
Section Runs.
  Variable H : Type.
  Variable after : H -> H.
  Lemma run_fields_app : forall (hs : list H) nw l1 l2 r1 r2, run_fields H hs nw l1 = Some r1 -> run_fields H hs nw l2 = Some r2 ->
    run_fields H hs nw (l1 ++ l2) = Some (r1 ++ r2).
  Proof.
    intros hs nw. induction l1 as [|[i x] l1 IH]; intros l2 r1 r2 E1 E2; cbn in *.
    - injection E1 as <-. exact E2.
    - destruct (match x with New => nw | Old 0 => None | Old (S k) => nth_error hs k end) as [h|]; [|discriminate].
      destruct (run_fields H hs nw l1) as [r|]; [|discriminate]. injection E1 as <-. rewrite (IH l2 r r2 eq_refl E2). reflexivity.
  Qed.
  Lemma run_fields_old : forall (hs : list H) nw e suf pre post, hs = pre ++ suf ++ post ->
    (forall i, S (List.length pre) <= i < S (List.length pre) + List.length suf -> i <> e) ->
    run_fields H hs nw (map (fun i => (i, if i =? e then New else Old i)) (seq (S (List.length pre)) (List.length suf))) = Some suf.
  Proof.
    intros hs nw e. induction suf as [|h suf IH]; intros pre post E Hne; cbn [List.length seq map run_fields]; [reflexivity|].
    destruct (Nat.eqb_spec (S (List.length pre)) e) as [Ee|_]; [exfalso; apply (Hne (S (List.length pre))); [cbn; lia|exact Ee]|].
    replace (nth_error hs (List.length pre)) with (Some h) by (rewrite E, nth_error_app2, Nat.sub_diag by lia; reflexivity).
    specialize (IH (pre ++ [h]) post). rewrite app_length in IH. cbn [List.length] in IH.
    replace (S (List.length pre + 1)) with (S (S (List.length pre))) in IH by lia. rewrite IH; [reflexivity| |].
    - rewrite E, <- app_assoc. reflexivity.
    - intros i Hi. apply Hne. cbn. lia.
  Qed.
  Lemma run_new_out : forall (hs : list H) nw e, ~ (1 <= e < S (List.length hs)) ->
    run_fields H hs nw (new_fields (S (List.length hs)) e) = Some hs.
  Proof.
    intros hs nw e He. unfold new_fields. cbn [Nat.sub]. rewrite Nat.sub_0_r.
    apply (run_fields_old hs nw e hs [] []); [cbn; rewrite app_nil_r; reflexivity|]. cbn. intros i Hi ->. lia.
  Qed.
  Lemma run_new_in : forall (a b : list H) h h', let hs := a ++ h :: b in
    run_fields H hs (Some h') (new_fields (S (List.length hs)) (S (List.length a))) = Some (a ++ h' :: b).
  Proof.
    intros a b h h' hs. unfold new_fields. cbn [Nat.sub]. rewrite Nat.sub_0_r.
    replace (List.length hs) with (List.length a + S (List.length b)) by (unfold hs; rewrite app_length; reflexivity).
    rewrite seq_app, map_app. apply run_fields_app.
    - apply (run_fields_old hs _ _ a [] (h :: b)); [reflexivity|]. cbn. lia.
    - cbn [seq map run_fields]. destruct (Nat.eqb_spec (1 + List.length a) (S (List.length a))) as [_|C]; [|cbn in C; lia].
      pose proof (run_fields_old hs (Some h') (S (List.length a)) b (a ++ [h]) []) as R. rewrite app_length in R. cbn [List.length] in R.
      replace (S (List.length a + 1)) with (S (1 + List.length a)) in R by lia. rewrite R; [reflexivity| |lia].
      unfold hs. rewrite app_nil_r, <- app_assoc. reflexivity.
  Qed.
  Lemma nth_mid : forall (a b : list H) h, nth_error (a ++ h :: b) (List.length a) = Some h.
  Proof. intros a b h. rewrite nth_error_app2, Nat.sub_diag by lia. reflexivity. Qed.

  Lemma send_runs : forall mesh receiver sender (a b : list H) h,
    run_fn H after (send_fn mesh (S (List.length (a ++ h :: b))) receiver sender (S (List.length a))) (a ++ h :: b) =
    Some ([Sent (S (List.length a))], a ++ after h :: b).
  Proof.
    intros mesh receiver sender a b h. unfold run_fn. cbn [f_lets f_fields send_fn].
    rewrite at_index_in by (rewrite app_length; cbn; lia). cbn [run_lets]. cbn [Nat.sub]. rewrite Nat.sub_0_r, nth_mid.
    rewrite run_new_in. reflexivity.
  Qed.
  Lemma recv_runs : forall mesh receiver sender (a b : list H) h,
    run_fn H after (recv_fn mesh (S (List.length (a ++ h :: b))) receiver sender (S (List.length a))) (a ++ h :: b) =
    Some ([Received (S (List.length a))], a ++ after h :: b).
  Proof.
    intros mesh receiver sender a b h. unfold run_fn. cbn [f_lets f_fields recv_fn].
    rewrite at_index_in by (rewrite app_length; cbn; lia). cbn [run_lets]. cbn [Nat.sub]. rewrite Nat.sub_0_r, nth_mid.
    rewrite run_new_in. reflexivity.
  Qed.
  Lemma offer_runs : forall mesh role name (a b : list H) h,
    run_fn H after (offer_fn mesh (S (List.length (a ++ h :: b))) role name (S (List.length a))) (a ++ h :: b) =
    Some ([Received (S (List.length a))], a ++ after h :: b).
  Proof.
    intros mesh receiver sender a b h. unfold run_fn. cbn [f_lets f_fields offer_fn].
    rewrite at_index_in by (rewrite app_length; cbn; lia). cbn [run_lets]. cbn [Nat.sub]. rewrite Nat.sub_0_r, nth_mid.
    rewrite run_new_in. reflexivity.
  Qed.
  Lemma check_runs : forall mesh receiver sender (a b : list H) h, a <> [] ->
    run_fn H after (send_check_fn mesh (S (List.length (a ++ h :: b))) receiver sender (S (List.length a))) (a ++ h :: b) =
    Some ([Looked 1; Sent (S (List.length a))], a ++ after h :: b).
  Proof.
    intros mesh receiver sender a b h Ha. unfold run_fn. cbn [f_lets f_fields send_check_fn].
    rewrite at_index_in by (rewrite app_length; cbn; lia). destruct a as [|h0 a]; [contradiction|]. set (a1 := h0 :: a).
    cbn [run_lets]. cbn [Nat.sub]. replace (nth_error (a1 ++ h :: b) 0) with (Some h0) by reflexivity.
    rewrite Nat.sub_0_r, nth_mid. rewrite run_new_in. reflexivity.
  Qed.
  Lemma send_silent : forall mesh receiver sender (hs : list H) e, ~ (1 <= e < S (List.length hs)) ->
    run_fn H after (send_fn mesh (S (List.length hs)) receiver sender e) hs = Some ([], hs).
  Proof.
    intros mesh receiver sender hs e He. unfold run_fn. cbn [f_lets f_fields send_fn]. rewrite at_index_out by exact He.
    cbn [run_lets]. rewrite run_new_out by exact He. reflexivity.
  Qed.
End Runs.

(** * The functions and the methods *)
Lemma comm_field_range : forall n p q, 1 <= p <= n -> 1 <= q <= n -> p <> q -> 1 <= comm_field p q < n.
Proof. intros n p q Hp Hq Hne. unfold comm_field. destruct (Nat.leb_spec p q); lia. Qed.
Lemma wrapped_field : forall n p q k, 1 <= p <= n -> 1 <= q <= n -> p <> q -> 1 <= k <= n - 1 -> comm_wrapped p q k = (k =? comm_field p q).
Proof.
  intros n p q k Hp Hq Hne Hk. unfold comm_wrapped, comm_field.
  destruct (Nat.leb_spec p k), (Nat.leb_spec p q);
    match goal with |- (?a =? ?b) = (?c =? ?d) => destruct (Nat.eqb_spec a b), (Nat.eqb_spec c d) end; try reflexivity; lia.
Qed.

Definition same_as (f : fn) (im : impl) (m : meth) : Prop :=
  f_self f = i_self im /\ i_methods im = [(m, f_outs f)] /\ (forall v, In v (f_params f) <-> In v (i_params im)).

Lemma send_same : forall mesh roles p q e im, let n := List.length roles in 1 <= p <= n -> 1 <= q <= n -> p <> q ->
  send_impl false mesh roles p q = Some im ->
  (same_as (send_fn mesh n (role_name roles q) (role_name roles p) e) im MSend <-> e = comm_field p q).
Proof.
  intros mesh roles p q e im n Hp Hq Hne E. rewrite send_eq in E by assumption. fold n in E. injection E as <-. split.
  - intros (Es & _ & _). cbn [f_self send_fn i_self] in Es. apply mesh_t_inj in Es as (_ & Es & _ & _).
    unfold comm_fields in Es. assert (Hr := comm_field_range n p q Hp Hq Hne).
    pose proof (proj1 (map_seq_eq _ _ _ _ _) Es (comm_field p q) ltac:(lia)) as H. cbn beta in H.
    rewrite (wrapped_field n p q _ Hp Hq Hne) in H by lia. rewrite Nat.eqb_refl in H.
    destruct (Nat.eqb_spec (comm_field p q) e) as [<-|C]; [reflexivity|discriminate H].
  - intros ->. split; [|split; [reflexivity|]].
    + cbn [f_self send_fn i_self]. apply mesh_t_inj. split; [reflexivity|]. split; [|split; reflexivity].
      unfold comm_fields. apply map_seq_eq. intros k Hk. rewrite (wrapped_field n p q k Hp Hq Hne) by lia. destruct (k =? comm_field p q); reflexivity.
    + intros v. cbn [f_params send_fn i_params]. unfold kparams. rewrite !in_app_iff. cbn [In]. tauto.
Qed.
Lemma recv_same : forall mesh roles p q e im, let n := List.length roles in 1 <= p <= n -> 1 <= q <= n -> p <> q ->
  recv_impl false mesh roles p q = Some im ->
  (same_as (recv_fn mesh n (role_name roles q) (role_name roles p) e) im MRecv <-> e = comm_field p q).
Proof.
  intros mesh roles p q e im n Hp Hq Hne E. rewrite recv_eq in E by assumption. fold n in E. injection E as <-. split.
  - intros (Es & _ & _). cbn [f_self recv_fn i_self] in Es. apply mesh_t_inj in Es as (_ & Es & _ & _).
    unfold comm_fields in Es. assert (Hr := comm_field_range n p q Hp Hq Hne).
    pose proof (proj1 (map_seq_eq _ _ _ _ _) Es (comm_field p q) ltac:(lia)) as H. cbn beta in H.
    rewrite (wrapped_field n p q _ Hp Hq Hne) in H by lia. rewrite Nat.eqb_refl in H.
    destruct (Nat.eqb_spec (comm_field p q) e) as [<-|C]; [reflexivity|discriminate H].
  - intros ->. split; [|split; [reflexivity|]].
    + cbn [f_self recv_fn i_self]. apply mesh_t_inj. split; [reflexivity|]. split; [|split; reflexivity].
      unfold comm_fields. apply map_seq_eq. intros k Hk. rewrite (wrapped_field n p q k Hp Hq Hne) by lia. destruct (k =? comm_field p q); reflexivity.
    + intros v. cbn [f_params recv_fn i_params]. unfold kparams. rewrite !in_app_iff. cbn [In]. tauto.
Qed.
Lemma offer_same : forall mesh roles p q e im, let n := List.length roles in 1 <= p <= n -> 1 <= q <= n -> p <> q ->
  offer_impl false mesh roles q p = Some im ->
  (same_as (offer_fn mesh n (role_name roles q) (role_name roles p) e) im MOffer <-> e = comm_field p q).
Proof.
  intros mesh roles p q e im n Hp Hq Hne E. rewrite offer_eq in E by assumption. fold n in E. injection E as <-. split.
  - intros (Es & _ & _). cbn [f_self offer_fn i_self] in Es. apply mesh_t_inj in Es as (_ & Es & _ & _).
    unfold offer_fields in Es. fold n in Es. assert (Hr := comm_field_range n p q Hp Hq Hne).
    pose proof (proj1 (map_seq_eq _ _ _ _ _) Es (comm_field p q) ltac:(lia)) as H. cbn beta in H.
    rewrite (wrapped_field n p q _ Hp Hq Hne) in H by lia. rewrite Nat.eqb_refl in H.
    destruct (Nat.eqb_spec (comm_field p q) e) as [<-|C]; [reflexivity|discriminate H].
  - intros ->. split; [|split; [reflexivity|]].
    + cbn [f_self offer_fn i_self]. apply mesh_t_inj. split; [reflexivity|]. split; [|split; reflexivity].
      unfold offer_fields. fold n. apply map_seq_eq. intros k Hk. rewrite (wrapped_field n p q k Hp Hq Hne) by lia. destruct (k =? comm_field p q); reflexivity.
    + intros v. cbn [f_params offer_fn i_params]. unfold kparams. rewrite !in_app_iff. cbn [In]. tauto.
Qed.

Lemma same_calls : forall f im m T outs, same_as f im m ->
  ((exists arg, accepts_call f arg T outs) <-> resolves [im] m T outs).
Proof.
  intros f im m T outs (Es & Em & Ep). split.
  - intros (arg & sg & Hp & Hs & _ & ->). exists im, sg, (f_outs f). split; [left; reflexivity|]. split; [split|split; [rewrite Em; left; reflexivity|reflexivity]].
    + intros v Hv. apply Hp, Ep, Hv.
    + rewrite <- Es. exact Hs.
  - intros (im' & sg & outs0 & [<-|[]] & [Hp Hs] & Ho & ->). rewrite Em in Ho. destruct Ho as [Ho|[]]. injection Ho as <-.
    exists (option_map (inst sg) (f_arg f)), sg. split; [|split; [|split; reflexivity]].
    + intros v Hv. apply Hp, Ep, Hv.
    + rewrite Es. exact Hs.
Qed.

(** * Which calls a function takes, for any index *)
Lemma mid_nth : forall (A : Type) (l : list A) k, k < List.length l -> exists a x b, l = a ++ x :: b /\ List.length a = k.
Proof.
  intros A l k Hk. destruct (nth_error l k) as [x|] eqn:E; [|apply nth_error_None in E; lia].
  apply nth_error_split in E as (a & b & -> & Hl). eauto.
Qed.
Lemma map_as_seq : forall (l : list rty) n d, List.length l = n - 1 -> l = map (fun i => nth (i - 1) l d) (seq 1 (n - 1)).
Proof.
  intros l n d Hl. rewrite <- Hl. rewrite <- (map_id l) at 1. rewrite (nth_map_seq rty rty (fun x => x) l d). reflexivity.
Qed.
Lemma nth_set_mid : forall (A : Type) (a b : list A) x y i d, i <> List.length a -> nth i (a ++ x :: b) d = nth i (a ++ y :: b) d.
Proof.
  intros A a b x y i d Hi. destruct (Nat.lt_ge_cases i (List.length a)) as [H|H]; [rewrite !app_nth1 by exact H; reflexivity|].
  rewrite !app_nth2 by exact H. destruct (i - List.length a) as [|k] eqn:E; [lia|reflexivity].
Qed.

Section Exact.
  Variable c : con.
  Variables (mesh : string) (n e : nat).
  Hypothesis He : 1 <= e < n.
  Hypothesis Hc : c = CSend \/ c = CRecv.
  Lemma comm_sub : forall fields sg, List.length fields = n - 1 -> map (inst sg) (map (wrap c e) (seq 1 (n - 1))) = fields ->
    exists a b, fields = a ++ RApp c [sg PT; sg (PS e)] :: b /\ List.length a = e - 1 /\ map (inst sg) (svars 1 (n - 1)) = a ++ sg (PS e) :: b.
  Proof.
    intros fields sg Hl E. destruct (mid_nth rty fields (e - 1) ltac:(lia)) as (a & x & b & -> & Ha). exists a, b.
    rewrite map_map in E.
    assert (Hx : x = RApp c [sg PT; sg (PS e)]).
    { assert (Ex : nth_error (a ++ x :: b) (e - 1) = Some x) by (rewrite <- Ha, nth_error_app2, Nat.sub_diag by lia; reflexivity).
      rewrite <- E, nth_seq_map in Ex by lia. unfold wrap in Ex. rewrite Nat.eqb_refl in Ex. injection Ex as <-. reflexivity. }
    subst x. split; [reflexivity|]. split; [exact Ha|].
    rewrite inst_svars. rewrite (map_as_seq (a ++ sg (PS e) :: b) n end_t) by (rewrite app_length in *; cbn in *; lia).
    apply map_ext_in. intros i Hi. apply in_seq in Hi. destruct (Nat.eq_dec i e) as [->|Hne].
    - rewrite <- Ha, app_nth2, Nat.sub_diag by lia. reflexivity.
    - rewrite (nth_set_mid _ a b (sg (PS e)) (RApp c [sg PT; sg (PS e)])) by lia. rewrite <- E.
      rewrite (nth_error_nth _ _ end_t (nth_seq_map rty (fun x => inst sg (wrap c e x)) n i ltac:(lia))).
      unfold wrap. destruct (Nat.eqb_spec i e); [contradiction|reflexivity].
  Qed.
  Definition subst (a b : list rty) (V s R : rty) (v : param) : rty :=
    match v with PT => V | PRole => R | PS i => nth (i - 1) (a ++ s :: b) end_t | _ => end_t end.
  Lemma comm_build : forall a b V s R, List.length a = e - 1 -> List.length (a ++ s :: b) = n - 1 ->
    map (inst (subst a b V s R)) (map (wrap c e) (seq 1 (n - 1))) = a ++ RApp c [V; s] :: b /\
    map (inst (subst a b V s R)) (svars 1 (n - 1)) = a ++ s :: b.
  Proof.
    intros a b V s R Ha Hl. split.
    - rewrite map_map. rewrite (map_as_seq (a ++ RApp c [V; s] :: b) n end_t) by (rewrite app_length in *; cbn in *; lia).
      apply map_ext_in. intros i Hi. apply in_seq in Hi. unfold wrap. destruct (Nat.eqb_spec i e) as [->|Hne].
      + cbn [inst map subst]. rewrite <- Ha. rewrite !app_nth2, Nat.sub_diag by lia. reflexivity.
      + cbn [inst subst]. apply nth_set_mid. lia.
    - rewrite inst_svars. cbn [subst]. symmetry. apply map_as_seq. exact Hl.
  Qed.
End Exact.

Lemma sessions_mid : forall a b c V s, (c = CSend \/ c = CRecv) -> Forall (fun t => is_session t = true) (a ++ RApp c [V; s] :: b) ->
  Forall (fun t => is_session t = true) (a ++ s :: b).
Proof.
  intros a b c V s Hc H. apply Forall_app in H as [Ha Hb]. inversion Hb as [|? ? Hs Hb']; subst. apply Forall_app. split; [exact Ha|].
  constructor; [|exact Hb']. destruct Hc as [-> | ->]; exact Hs.
Qed.
Lemma subst_ok : forall n e a b V s R, List.length a = e - 1 -> List.length (a ++ s :: b) = n - 1 ->
  Forall (fun t => is_session t = true) (a ++ s :: b) -> is_role R = true ->
  forall v, In v ([PT] ++ map PS (seq 1 (n - 1)) ++ [PRole]) -> ok_for v (subst a b V s R v) = true.
Proof.
  intros n e a b V s R Ha Hl Hf HR v Hv. apply in_app_or in Hv as [[<-|[]]|Hv]; [reflexivity|].
  apply in_app_or in Hv as [Hv|[<-|[]]]; [|exact HR]. apply in_map_iff in Hv as (i & <- & Hi). apply in_seq in Hi. cbn.
  rewrite Forall_forall in Hf. apply Hf. apply nth_In. lia.
Qed.

Lemma send_call : forall mesh n receiver sender e fields stack name V outs, 1 <= e < n -> List.length fields = n - 1 ->
  Forall (fun t => is_session t = true) fields -> is_role stack = true ->
  (accepts_call (send_fn mesh n receiver sender e) (Some V) (mesh_t mesh fields stack name) outs <->
   exists a b s R, fields = a ++ RApp CSend [V; s] :: b /\ List.length a = e - 1 /\ stack = RApp (CRole receiver) [R] /\
     name = name_t sender /\ outs = [mesh_t mesh (a ++ s :: b) R (name_t sender)]).
Proof.
  intros mesh n receiver sender e fields stack name V outs He Hl Hf Hs. split.
  - intros (sg & Hp & Es & Ea & ->). cbn [f_self send_fn] in Es. rewrite inst_mesh in Es. apply mesh_t_inj in Es as (_ & Es & Est & En).
    cbn in Ea. injection Ea as Ea.
    destruct (comm_sub CSend n e He fields sg Hl Es) as (a & b & -> & Ha & Eo). exists a, b, (sg (PS e)), (sg PRole).
    rewrite Ea. split; [reflexivity|]. split; [exact Ha|]. split; [symmetry; exact Est|]. split; [symmetry; exact En|].
    cbn [f_outs send_fn map]. rewrite inst_mesh, Eo. reflexivity.
  - intros (a & b & s & R & -> & Ha & -> & -> & ->).
    assert (Hl' : List.length (a ++ s :: b) = n - 1) by (rewrite app_length in *; cbn in *; lia).
    destruct (comm_build CSend n e He a b V s R Ha Hl') as [E1 E2]. exists (subst a b V s R). split; [|split; [|split]].
    + apply (subst_ok n e); auto. exact (sessions_mid a b CSend V s (or_introl eq_refl) Hf).
    + cbn [f_self send_fn]. rewrite inst_mesh. apply mesh_t_inj. split; [reflexivity|]. split; [exact E1|]. split; reflexivity.
    + reflexivity.
    + cbn [f_outs send_fn map]. rewrite inst_mesh, E2. reflexivity.
Qed.
Lemma recv_call : forall mesh n sender receiver e fields stack name outs, 1 <= e < n -> List.length fields = n - 1 ->
  Forall (fun t => is_session t = true) fields -> is_role stack = true ->
  (accepts_call (recv_fn mesh n sender receiver e) None (mesh_t mesh fields stack name) outs <->
   exists a b V s R, fields = a ++ RApp CRecv [V; s] :: b /\ List.length a = e - 1 /\ stack = RApp (CRole sender) [R] /\
     name = name_t receiver /\ outs = [V; mesh_t mesh (a ++ s :: b) R (name_t receiver)]).
Proof.
  intros mesh n sender receiver e fields stack name outs He Hl Hf Hs. split.
  - intros (sg & Hp & Es & Ea & ->). cbn [f_self recv_fn] in Es. rewrite inst_mesh in Es. apply mesh_t_inj in Es as (_ & Es & Est & En).
    destruct (comm_sub CRecv n e He fields sg Hl Es) as (a & b & -> & Ha & Eo). exists a, b, (sg PT), (sg (PS e)), (sg PRole).
    split; [reflexivity|]. split; [exact Ha|]. split; [symmetry; exact Est|]. split; [symmetry; exact En|].
    cbn [f_outs recv_fn map]. rewrite inst_mesh, Eo. reflexivity.
  - intros (a & b & V & s & R & -> & Ha & -> & -> & ->).
    assert (Hl' : List.length (a ++ s :: b) = n - 1) by (rewrite app_length in *; cbn in *; lia).
    destruct (comm_build CRecv n e He a b V s R Ha Hl') as [E1 E2]. exists (subst a b V s R). split; [|split; [|split]].
    + apply (subst_ok n e); auto. exact (sessions_mid a b CRecv V s (or_intror eq_refl) Hf).
    + cbn [f_self recv_fn]. rewrite inst_mesh. apply mesh_t_inj. split; [reflexivity|]. split; [exact E1|]. split; reflexivity.
    + reflexivity.
    + cbn [f_outs recv_fn map]. rewrite inst_mesh, E2. reflexivity.
Qed.

(** The function that looks at the first session takes the calls of the plain one whose first session is [End]. *)
Lemma check_call : forall mesh n receiver sender e fields stack name V outs, 2 <= e < n -> List.length fields = n - 1 ->
  Forall (fun t => is_session t = true) fields -> is_role stack = true ->
  (accepts_call (send_check_fn mesh n receiver sender e) (Some V) (mesh_t mesh fields stack name) outs <->
   nth_error fields 0 = Some end_t /\ accepts_call (send_fn mesh n receiver sender e) (Some V) (mesh_t mesh fields stack name) outs).
Proof.
  intros mesh n receiver sender e fields stack name V outs He Hl Hf Hs. destruct (check_fields n e ltac:(lia)) as [E1 E2]. split.
  - intros (sg & Hp & Es & Ea & ->). cbn [f_self send_check_fn] in Es.
    rewrite inst_mesh in Es. apply mesh_t_inj in Es as (_ & Es & Est & En).
    split; [rewrite <- Es; reflexivity|].
    exists (fun v => match v with PS 1 => end_t | _ => sg v end). split; [|split; [|split]].
    + intros v Hv. cbn [f_params send_fn] in Hv. apply in_app_or in Hv as [[<-|[]]|Hv]; [reflexivity|].
      apply in_app_or in Hv as [Hv|[<-|[]]]; [|apply Hp, par_R]. apply in_map_iff in Hv as (i & <- & Hi). apply in_seq in Hi.
      destruct (Nat.eq_dec i 1) as [->|]; [reflexivity|]. assert (H2 := Hp (PS i) (par_S _ _ (in_map PS _ _ (proj2 (in_seq (n - 2) 2 i) ltac:(lia))))).
      destruct i as [|[|i]]; [lia|lia|exact H2].
    + cbn [f_self send_fn]. rewrite inst_mesh. apply mesh_t_inj. split; [reflexivity|]. split; [|split; [exact Est|exact En]].
      rewrite E1 in Es. rewrite <- Es, !map_map. apply map_ext_in. intros i Hi. apply in_seq in Hi. unfold wrap_check, wrap.
      destruct (Nat.eqb_spec i 1) as [->|]; [destruct (Nat.eqb_spec 1 e); [lia|reflexivity]|].
      destruct (i =? e); cbn [inst map]; destruct i as [|[|i]]; try lia; reflexivity.
    + exact Ea.
    + cbn [f_outs send_fn send_check_fn map]. rewrite !inst_mesh. do 2 f_equal. rewrite E2. unfold svars. rewrite !map_map.
      apply map_ext_in. intros i Hi. apply in_seq in Hi. destruct (Nat.eqb_spec i 1) as [->|]; [reflexivity|]. cbn [inst]. destruct i as [|[|i]]; try lia; reflexivity.
  - intros [H0 (sg & Hp & Es & Ea & ->)]. cbn [f_self send_fn] in Es. rewrite inst_mesh in Es. apply mesh_t_inj in Es as (_ & Es & Est & En).
    assert (H1 : sg (PS 1) = end_t).
    { rewrite <- Es in H0. rewrite map_map in H0. pose proof (nth_seq_map rty (fun x => inst sg (if x =? e then RApp CSend [RVar PT; RVar (PS x)] else RVar (PS x))) n 1 ltac:(lia)) as H.
      cbn [Nat.sub] in H. rewrite H in H0. destruct (Nat.eqb_spec 1 e); [lia|]. injection H0 as H0. exact H0. }
    exists sg. split; [|split; [|split]].
    + intros v Hv. apply Hp. cbn [f_params send_fn send_check_fn] in *. apply in_app_or in Hv as [Hv|Hv]; [apply in_or_app; left; exact Hv|].
      apply in_app_or in Hv as [Hv|[<-|[]]]; [|apply par_R]. apply par_S. apply in_map_iff in Hv as (i & <- & Hi). apply in_map. apply in_seq in Hi. apply in_seq. lia.
    + cbn [f_self send_check_fn]. rewrite E1, inst_mesh. apply mesh_t_inj. split; [reflexivity|]. split; [|split; [exact Est|exact En]].
      rewrite <- Es, !map_map. apply map_ext_in. intros i Hi. apply in_seq in Hi. unfold wrap_check, wrap.
      destruct (Nat.eqb_spec i 1) as [->|]; [destruct (Nat.eqb_spec 1 e); [lia|cbn; rewrite H1; reflexivity]|reflexivity].
    + exact Ea.
    + cbn [f_outs send_fn send_check_fn map]. rewrite !inst_mesh. do 2 f_equal. rewrite E2. unfold svars. rewrite !map_map.
      apply map_ext_in. intros i Hi. destruct (Nat.eqb_spec i 1) as [->|]; [cbn; exact H1|reflexivity].
Qed.

(** * On the MeshedChannels of a role *)
Lemma others_split : forall n p q, 1 <= p <= n -> 1 <= q <= n -> p <> q ->
  exists o1 o2, others n p = o1 ++ q :: o2 /\ List.length o1 = comm_field p q - 1 /\ ~ In q o1 /\ ~ In q o2.
Proof.
  intros n p q Hp Hq Hne. assert (Hin : In q (others n p)) by (apply in_others; auto).
  apply in_split in Hin as (o1 & o2 & E). exists o1, o2. split; [exact E|].
  assert (Hnd : NoDup (others n p)) by (unfold others; apply NoDup_filter, seq_NoDup). rewrite E in Hnd.
  apply NoDup_remove_2 in Hnd. assert (Hn1 : ~ In q o1) by (intros H; apply Hnd, in_or_app; auto).
  assert (Hn2 : ~ In q o2) by (intros H; apply Hnd, in_or_app; auto). split; [|auto].
  assert (Hk : nth_error (others n p) (List.length o1) = Some q) by (rewrite E, nth_error_app2, Nat.sub_diag by lia; reflexivity).
  assert (Hl : List.length o1 < n - 1).
  { assert (H : List.length o1 < List.length (others n p)) by (apply nth_error_Some; congruence).
    rewrite others_peers, map_length, seq_length in H by exact Hp. exact H. }
  rewrite others_peers in Hk by exact Hp.
  pose proof (nth_seq_map nat (peer p) n (S (List.length o1)) ltac:(lia)) as H. cbn [Nat.sub] in H. rewrite Nat.sub_0_r in H. rewrite H in Hk.
  injection Hk as <-. rewrite comm_field_peer by lia. lia.
Qed.
Lemma map_update : forall F q s o, ~ In q o -> map (update F q s) o = map F o.
Proof. intros F q s o H. apply map_ext_in. intros x Hx. unfold update. destruct (Nat.eqb_spec x q) as [->|]; [contradiction|reflexivity]. Qed.
Lemma app_eq_len : forall (A : Type) (a a' b b' : list A), a ++ b = a' ++ b' -> List.length a = List.length a' -> a = a' /\ b = b'.
Proof.
  intros A. induction a as [|x a IH]; intros [|y a'] b b' E Hl; try discriminate; [auto|]. cbn in *. injection E as <- E.
  destruct (IH a' b b' E ltac:(lia)) as [-> ->]. auto.
Qed.

Section Endpoint.
  Variables (mesh : string) (roles : list string).
  Let n := List.length roles.
  Variables (p q : nat) (F : nat -> rty) (stack : rty).
  Hypothesis Hp : 1 <= p <= n.
  Hypothesis Hq : 1 <= q <= n.
  Hypothesis Hne : p <> q.
  Hypothesis HF : forall x, 1 <= x <= n -> x <> p -> is_session (F x) = true.
  Hypothesis Hs : is_role stack = true.
  Lemma endpoint_len : List.length (map F (others n p)) = n - 1.
  Proof. rewrite map_length, others_peers, map_length, seq_length by exact Hp. reflexivity. Qed.
  Lemma endpoint_sessions : Forall (fun t => is_session t = true) (map F (others n p)).
  Proof. apply Forall_forall. intros t Ht. apply in_map_iff in Ht as (x & <- & Hx). apply in_others in Hx as [Hx Hn]. auto. Qed.
  Lemma send_endpoint : forall V outs,
    accepts_call (send_fn mesh n (role_name roles q) (role_name roles p) (comm_field p q)) (Some V) (endpoint mesh roles p F stack) outs <->
    exists s R, stack = RApp (CRole (role_name roles q)) [R] /\ F q = RApp CSend [V; s] /\ outs = [endpoint mesh roles p (update F q s) R].
  Proof.
    intros V outs. destruct (others_split n p q Hp Hq Hne) as (o1 & o2 & Eo & Hl & H1 & H2).
    unfold endpoint. fold n.
    rewrite (send_call mesh n _ _ (comm_field p q) _ _ _ V outs (comm_field_range n p q Hp Hq Hne) endpoint_len endpoint_sessions Hs).
    rewrite Eo, !map_app. cbn [map]. split.
    - intros (a & b & s & R & E & Ha & -> & _ & ->). apply app_eq_len in E as [<- E]; [|rewrite map_length; lia]. injection E as E <-.
      exists s, R. split; [reflexivity|]. split; [exact E|]. rewrite map_app. cbn [map]. rewrite !map_update by assumption.
      unfold update. rewrite Nat.eqb_refl. reflexivity.
    - intros (s & R & -> & EF & ->). exists (map F o1), (map F o2), s, R. rewrite EF. split; [reflexivity|]. split; [rewrite map_length; exact Hl|].
      split; [reflexivity|]. split; [reflexivity|]. rewrite map_app. cbn [map]. rewrite !map_update by assumption.
      unfold update. rewrite Nat.eqb_refl. reflexivity.
  Qed.
  Lemma recv_endpoint : forall outs,
    accepts_call (recv_fn mesh n (role_name roles q) (role_name roles p) (comm_field p q)) None (endpoint mesh roles p F stack) outs <->
    exists V s R, stack = RApp (CRole (role_name roles q)) [R] /\ F q = RApp CRecv [V; s] /\ outs = [V; endpoint mesh roles p (update F q s) R].
  Proof.
    intros outs. destruct (others_split n p q Hp Hq Hne) as (o1 & o2 & Eo & Hl & H1 & H2).
    unfold endpoint. fold n.
    rewrite (recv_call mesh n _ _ (comm_field p q) _ _ _ outs (comm_field_range n p q Hp Hq Hne) endpoint_len endpoint_sessions Hs).
    rewrite Eo, !map_app. cbn [map]. split.
    - intros (a & b & V & s & R & E & Ha & -> & _ & ->). apply app_eq_len in E as [<- E]; [|rewrite map_length; lia]. injection E as E <-.
      exists V, s, R. split; [reflexivity|]. split; [exact E|]. rewrite map_app. cbn [map]. rewrite !map_update by assumption.
      unfold update. rewrite Nat.eqb_refl. reflexivity.
    - intros (V & s & R & -> & EF & ->). exists (map F o1), (map F o2), V, s, R. rewrite EF. split; [reflexivity|]. split; [rewrite map_length; exact Hl|].
      split; [reflexivity|]. split; [reflexivity|]. rewrite map_app. cbn [map]. rewrite !map_update by assumption.
      unfold update. rewrite Nat.eqb_refl. reflexivity.
  Qed.
End Endpoint.
