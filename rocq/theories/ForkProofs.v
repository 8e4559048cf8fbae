(** Proofs about fork functions and choices (ForkTypes.v). *)
From Coq Require Import Arith Bool String Lia.
From Verif Require Import Types Session Mesh MeshSpec Diag DiagProofs Wiring WiringProofs Methods MethodsSpec MethodsProofs ForkTypes ForkSpec.
From Coq Require Import List.
Import ListNotations.
Open Scope nat_scope.
Open Scope list_scope.

(** * Families *)
Definition fam (n : nat) (G : nat -> nat -> rty) (m : nat) : rty :=
  match find (fun x => idx n (fst x) (snd x) =? m) (filter (fun x => fst x <? snd x) (pairs n)) with Some (a, c) => G a c | None => end_t end.
Lemma fam_idx : forall n G a c, 1 <= a -> a < c -> c <= n -> fam n G (idx n a c) = G a c.
Proof.
  intros n G a c H1 H2 H3. unfold fam. destruct (find _ _) as [[a' c']|] eqn:E.
  - apply find_some in E as [Hin Ei]. apply filter_In in Hin as [Hin Hlt]. apply in_pairs in Hin. cbn [fst snd] in *.
    apply Nat.ltb_lt in Hlt. apply Nat.eqb_eq in Ei. destruct (idx_inj n a' c' a c) as [-> ->]; try lia. reflexivity.
  - exfalso. pose proof (find_none _ _ E (a, c)) as N. cbn [fst snd] in N. rewrite Nat.eqb_refl in N. discriminate N.
    apply filter_In. split; [apply in_pairs; lia|apply Nat.ltb_lt; exact H2].
Qed.
Lemma fam_session : forall n G m, dual_family n G -> 1 <= m <= tri n -> is_session (fam n G m) = true.
Proof. intros n G m HG Hm. destruct (idx_surj n m Hm) as (a & c & H1 & H2 & H3 & <-). rewrite fam_idx by lia. apply HG; lia. Qed.
Definition family (sg : param -> rty) (n i j : nat) : rty := inst sg (session_of 0 (end_of b_fork n i j)).
Lemma family_dual : forall sg n, (forall m, 1 <= m <= tri n -> is_session (sg (PS m)) = true) -> dual_family n (family sg n).
Proof.
  intros sg n H i j Hi Hj Hne. unfold family, session_of, end_of. cbn [fst snd]. rewrite Nat.add_0_l.
  rewrite (Nat.min_comm j i), (Nat.max_comm j i). rewrite (b_fork_antisym n i j Hi Hj Hne).
  assert (Hm : 1 <= idx n (min i j) (max i j) <= tri n) by (apply idx_range; lia).
  pose proof (H _ Hm) as HS. destruct (gdual_session _ HS) as [H1 H2].
  destruct (b_fork i j); cbn [negb inst]; split; auto.
Qed.
Lemma family_mesh : forall sg n j, 1 <= j <= n ->
  map (inst sg) (map (session_of 0) (mesh_of b_fork n j)) = map (family sg n j) (others n j).
Proof. intros sg n j Hj. unfold mesh_of. rewrite !map_map, others_peers, map_map by exact Hj. reflexivity. Qed.
Lemma family_fam : forall sg n G i j, dual_family n G -> (forall m, 1 <= m <= tri n -> sg (PS m) = fam n G m) ->
  1 <= i <= n -> 1 <= j <= n -> i <> j -> family sg n i j = G i j.
Proof.
  intros sg n G i j HG Hsg Hi Hj Hne. unfold family, session_of, end_of. cbn [fst snd]. rewrite Nat.add_0_l.
  assert (Hm : 1 <= idx n (min i j) (max i j) <= tri n) by (apply idx_range; lia).
  unfold b_fork. destruct (Nat.ltb_spec i j); cbn [inst]; rewrite Hsg by exact Hm; rewrite fam_idx by lia.
  - rewrite Nat.min_l, Nat.max_r by lia. reflexivity.
  - rewrite Nat.min_r, Nat.max_l by lia. symmetry. apply (HG i j); auto.
Qed.
Lemma others_family : forall sg n G j, dual_family n G -> (forall m, 1 <= m <= tri n -> sg (PS m) = fam n G m) -> 1 <= j <= n ->
  map (family sg n j) (others n j) = map (G j) (others n j).
Proof. intros sg n G j HG Hsg Hj. apply map_ext_in. intros x Hx. apply in_others in Hx as [Hx Hne]. apply family_fam; auto. Qed.

(** * Fork *)
Lemma combine_self : forall (A B : Type) (f : nat -> A) (h : nat * A -> B) l, map h (combine l (map f l)) = map (fun i => h (i, f i)) l.
Proof. intros A B f h l. induction l as [|x l IH]; cbn; [reflexivity|]. rewrite IH. reflexivity. Qed.
Definition fork_meshes (mesh : string) (n : nat) : list rty := map (fun i => role_mesh mesh i (mesh_of b_fork n i)) (seq 1 n).
Lemma fork_fn_eq : forall mesh n, 1 <= n ->
  fork_fn mesh n = Some (Forked (map PS (seq 1 (tri n)) ++ map PR (seq 1 n) ++ map PN (seq 1 n)) (fork_meshes mesh n) (fork_meshes mesh n)).
Proof.
  intros mesh n Hn. unfold fork_fn. destruct (Nat.eqb_spec n 0); [lia|].
  rewrite (all_some_map _ _ (fork_decl n) (mesh_of b_fork n)) by (intros i Hi; apply in_seq in Hi; apply fork_decl_spec; lia).
  rewrite fork_threads_spec, !(combine_self _ _ (mesh_of b_fork n)), npairs_tri. reflexivity.
Qed.
Lemma nodup_map : forall (A B : Type) (f : A -> B) l, (forall x y, f x = f y -> x = y) -> NoDup l -> NoDup (map f l).
Proof.
  intros A B f l Hf H. induction H as [|x l Hx H IH]; [constructor|]. cbn. constructor; [|exact IH].
  intros Hin. apply in_map_iff in Hin as (y & E & Hy). apply Hf in E. subst y. contradiction.
Qed.
Lemma nodup_app : forall (A : Type) (l m : list A), NoDup l -> NoDup m -> (forall x, In x l -> ~ In x m) -> NoDup (l ++ m).
Proof.
  intros A l m Hl Hm H. induction Hl as [|x l Hx Hl IH]; [exact Hm|]. cbn. constructor.
  - intros Hin. apply in_app_or in Hin as [Hin|Hin]; [contradiction|]. apply (H x); [left; reflexivity|exact Hin].
  - apply IH. intros y Hy. apply H. right. exact Hy.
Qed.
Lemma flat_map_app' : forall (A B : Type) (f : A -> list B) l m, flat_map f (l ++ m) = flat_map f l ++ flat_map f m.
Proof. intros A B f l m. induction l as [|x l IH]; cbn; [reflexivity|]. rewrite IH, app_assoc. reflexivity. Qed.
Lemma vars_mesh : forall m f s x, vars (mesh_t m f s x) = flat_map vars f ++ vars s ++ vars x.
Proof. intros. unfold mesh_t. cbn [vars]. rewrite flat_map_app'. cbn. rewrite app_nil_r. reflexivity. Qed.
Lemma fixed_mesh : forall m f s x, fixed (mesh_t m f s x) = flat_map fixed f ++ fixed s ++ fixed x.
Proof. intros. unfold mesh_t. cbn [fixed]. rewrite flat_map_app'. cbn. rewrite app_nil_r. reflexivity. Qed.
Lemma in_params : forall n v, In v (map PS (seq 1 (tri n)) ++ map PR (seq 1 n) ++ map PN (seq 1 n)) <->
  match v with PS m => 1 <= m <= tri n | PR i | PN i => 1 <= i <= n | _ => False end.
Proof.
  intros n v. rewrite !in_app_iff, !in_map_iff. split.
  - intros [(m & <- & Hm)|[(m & <- & Hm)|(m & <- & Hm)]]; apply in_seq in Hm; lia.
  - destruct v; intros H; try contradiction; [left|right; left|right; right]; exists i; (split; [reflexivity|apply in_seq; lia]).
Qed.
Lemma vars_role_mesh : forall mesh n i v, 1 <= i <= n -> In v (vars (role_mesh mesh i (mesh_of b_fork n i))) ->
  match v with PS m => 1 <= m <= tri n | PR i | PN i => 1 <= i <= n | _ => False end.
Proof.
  intros mesh n i v Hi Hv. unfold role_mesh in Hv. rewrite vars_mesh in Hv. apply in_app_or in Hv as [Hv|Hv].
  - apply in_flat_map in Hv as (t & Ht & Hv). apply in_map_iff in Ht as (e & <- & He). unfold mesh_of in He.
    apply in_map_iff in He as (k & <- & Hk). apply in_seq in Hk. unfold session_of, end_of in Hv. cbn [fst snd] in Hv.
    assert (v = PS (idx n (min i (peer i k)) (max i (peer i k)))) as -> by (destruct (b_fork i (peer i k)); cbn in Hv; destruct Hv as [<-|[]]; reflexivity).
    pose proof (peer_range n i k Hi ltac:(lia)). pose proof (peer_neq i k). apply idx_range; lia.
  - cbn in Hv. destruct Hv as [<-|[<-|[]]]; exact Hi.
Qed.
Theorem fork_fn_ok : forall mesh n f, fork_fn mesh n = Some f -> fork_ok f.
Proof.
  intros mesh n f E. assert (Hn : 1 <= n) by (unfold fork_fn in E; destruct (Nat.eqb_spec n 0); [discriminate E|lia]).
  rewrite fork_fn_eq in E by exact Hn. injection E as <-. split; [|split; [|split]]; cbn [fk_params fk_args fk_given].
  - apply nodup_app; [apply nodup_map; [intros x y; congruence|apply seq_NoDup]| |].
    + apply nodup_app; [apply nodup_map; [intros x y; congruence|apply seq_NoDup]..|].
      intros x Hx Hy. apply in_map_iff in Hx as (a & <- & _). apply in_map_iff in Hy as (b & Hb & _). discriminate Hb.
    + intros x Hx Hy. apply in_map_iff in Hx as (a & <- & _). apply in_app_or in Hy as [Hy|Hy]; apply in_map_iff in Hy as (b & Hb & _); discriminate Hb.
  - intros t Ht v Hv. apply in_map_iff in Ht as (i & <- & Hi). apply in_seq in Hi. apply in_params.
    apply (vars_role_mesh mesh n i v); [lia|exact Hv].
  - intros v Hv. apply in_params in Hv. destruct v; try contradiction.
    + destruct (idx_surj n i Hv) as (a & c & H1 & H2 & H3 & <-). exists (role_mesh mesh a (mesh_of b_fork n a)). split.
      * apply in_map_iff. exists a. split; [reflexivity|]. apply in_seq. lia.
      * unfold role_mesh. rewrite fixed_mesh. apply in_or_app. left. apply in_flat_map. exists (RVar (PS (idx n a c))). split; [|left; reflexivity].
        apply in_map_iff. exists (end_of b_fork n a c). split.
        -- unfold session_of, end_of, b_fork. cbn [fst snd]. rewrite Nat.min_l, Nat.max_r by lia. destruct (Nat.ltb_spec a c); [reflexivity|lia].
        -- unfold mesh_of. destruct (peer_onto n a c) as (k & Hk & <-); [lia|lia|lia|]. apply in_map_iff. exists k. split; [reflexivity|apply in_seq; lia].
    + exists (role_mesh mesh i (mesh_of b_fork n i)). split; [apply in_map_iff; exists i; split; [reflexivity|apply in_seq; lia]|].
      unfold role_mesh. rewrite fixed_mesh. apply in_or_app. right. left. reflexivity.
    + exists (role_mesh mesh i (mesh_of b_fork n i)). split; [apply in_map_iff; exists i; split; [reflexivity|apply in_seq; lia]|].
      unfold role_mesh. rewrite fixed_mesh. apply in_or_app. right. right. left. reflexivity.
  - reflexivity.
Qed.
Theorem fork_exact : forall mesh n f Ts, fork_fn mesh n = Some f ->
  (fork_accepts f Ts <-> exists G st nm, dual_family n G /\ (forall p, 1 <= p <= n -> is_role (st p) = true /\ is_name (nm p) = true) /\
     Ts = map (as_role mesh n G st nm) (seq 1 n)).
Proof.
  intros mesh n f Ts E. assert (Hn : 1 <= n) by (unfold fork_fn in E; destruct (Nat.eqb_spec n 0); [discriminate E|lia]).
  rewrite fork_fn_eq in E by exact Hn. injection E as <-. unfold fork_accepts. cbn [fk_params fk_args]. split.
  - intros (sg & Hsg & <-). exists (family sg n), (fun p => sg (PR p)), (fun p => sg (PN p)). split; [|split].
    + apply family_dual. intros m Hm. apply (Hsg (PS m)), in_params. exact Hm.
    + intros p Hp. split; [apply (Hsg (PR p))|apply (Hsg (PN p))]; apply in_params; exact Hp.
    + unfold fork_meshes. rewrite map_map. apply map_ext_in. intros i Hi. apply in_seq in Hi. unfold role_mesh, as_role.
      rewrite inst_mesh, family_mesh by lia. reflexivity.
  - intros (G & st & nm & HG & Hst & ->).
    exists (fun v => match v with PS m => fam n G m | PR i => st i | PN i => nm i | _ => end_t end). split.
    + intros v Hv. apply in_params in Hv. destruct v; try contradiction; cbn [ok_for]; [apply fam_session; auto|apply Hst; exact Hv..].
    + unfold fork_meshes. rewrite map_map. apply map_ext_in. intros i Hi. apply in_seq in Hi. unfold role_mesh, as_role.
      rewrite inst_mesh, family_mesh, (others_family _ n G) by (auto; lia). reflexivity.
Qed.
Lemma fork_3 : forall mesh, fork_fn mesh 3 = Some (fork_fn_3 mesh).
Proof. reflexivity. Qed.

(** * Choices *)
Lemma all_some_none : forall (A : Type) (l : list (option A)), In None l -> all_some l = None.
Proof. intros A l H. induction l as [|[a|] l IH]; [destruct H| |reflexivity]. destruct H as [H|H]; [discriminate H|]. cbn. rewrite IH by exact H. reflexivity. Qed.
Lemma choose_env_keys : forall n g x e, choose_env n = Some g -> lookup g x = Some e -> 1 <= fst x <= n /\ 1 <= snd x <= n.
Proof.
  intros n g x e. unfold choose_env. set (ks := seq 1 _). assert (Hks : forall k, In k ks -> 1 <= k <= tri n) by (intros k Hk; apply in_seq in Hk; unfold tri; lia).
  assert (H : forall ks g0 g, (forall k, In k ks -> 1 <= k <= tri n) -> let_new (choose_vars n) ks g0 = Some g ->
    (forall y e, lookup g0 y = Some e -> 1 <= fst y <= n /\ 1 <= snd y <= n) -> forall y e, lookup g y = Some e -> 1 <= fst y <= n /\ 1 <= snd y <= n).
  { clear. induction ks as [|k ks IH]; intros g0 g Hks E H0; cbn in E; [injection E as <-; exact H0|].
    unfold choose_vars in E at 1. destruct (get_tuple_diag (diag n) k) as [[[l c] m]|] eqn:Ed; [|discriminate E].
    apply (IH _ _ (fun k' H => Hks k' (or_intror H)) E). intros y e. cbn [lookup].
    assert (Hlc : 1 <= l <= n /\ 1 <= c <= n).
    { destruct (idx_surj n k (Hks k (or_introl eq_refl))) as (a & b & H1 & H2 & H3 & Ek). rewrite <- Ek in Ed.
      destruct (get_tuple_diag_spec n a b H1 H2 H3) as [_ D]. rewrite D in Ed. injection Ed as <- <- _. lia. }
    destruct (var_eqb y (c, l)) eqn:E1; [apply var_eqb_spec in E1; subst y; intros _; cbn; lia|].
    destruct (var_eqb y (l, c)) eqn:E2; [apply var_eqb_spec in E2; subst y; intros _; cbn; lia|]. apply H0. }
  intros E. apply (H ks [] g Hks E). intros y e' H'. discriminate H'.
Qed.
Lemma choose_code_eq : forall mesh n e sender, 1 <= e <= n ->
  choose_code mesh n e sender = Some (Choice (map PS (seq 1 (tri n)) ++ map PR (seq 1 n) ++ map PN (seq 1 (n - 1)))
    (map (fun i => (i, role_mesh mesh i (mesh_of b_fork n (served e i)))) (seq 1 (n - 1)))
    (mesh_t mesh (map (session_of 0) (mesh_of b_fork n e)) (RVar (PR n)) (name_t sender))).
Proof.
  intros mesh n e sender He. unfold choose_code. rewrite choose_sends_spec, choose_own_spec by exact He. rewrite map_map. reflexivity.
Qed.
Lemma choose_own_none : forall n e, 2 <= n -> ~ 1 <= e <= n -> choose_own n e = None.
Proof.
  intros n e Hn He. unfold choose_own. destruct (choose_env n) as [g|] eqn:E; [|reflexivity]. apply all_some_none. apply in_map_iff. exists 1.
  split; [|apply in_seq; lia]. destruct (lookup g _) as [x|] eqn:L; [|reflexivity]. exfalso. apply (choose_env_keys n g _ _ E) in L.
  destruct (1 <? e) in L; cbn in L; lia.
Qed.
Theorem choose_code_some : forall mesh n e sender, 1 <= n -> ((exists c, choose_code mesh n e sender = Some c) <-> n = 1 \/ 1 <= e <= n).
Proof.
  intros mesh n e sender Hn. split.
  - intros [c E]. destruct (Nat.eq_dec n 1) as [->|Hn1]; [left; reflexivity|]. right.
    destruct (Nat.le_gt_cases 1 e), (Nat.le_gt_cases e n); try lia; exfalso;
      (unfold choose_code in E; rewrite choose_own_none in E by lia; destruct (choose_sends n e); discriminate E).
  - intros [->|He]; [eexists; reflexivity|]. eexists. apply choose_code_eq. exact He.
Qed.
Lemma served_comm : forall n e q, 1 <= q <= n -> q <> e -> served e (comm_field e q) = q.
Proof. intros n e q Hq Hne. unfold served, comm_field. destruct (Nat.leb_spec e q); match goal with |- context[e <=? ?x] => destruct (Nat.leb_spec e x) end; lia. Qed.
Lemma comm_served : forall e i, 1 <= i -> comm_field e (served e i) = i.
Proof. intros e i Hi. unfold served, comm_field. destruct (Nat.leb_spec e i); match goal with |- context[e <=? ?x] => destruct (Nat.leb_spec e x) end; lia. Qed.
Lemma comm_range : forall n e q, 1 <= e <= n -> 1 <= q <= n -> q <> e -> 1 <= comm_field e q < n.
Proof. intros n e q He Hq Hne. unfold comm_field. destruct (Nat.leb_spec e q); lia. Qed.
Lemma in_unknowns : forall n v, In v (map PS (seq 1 (tri n)) ++ map PR (seq 1 n) ++ map PN (seq 1 (n - 1))) <->
  match v with PS m => 1 <= m <= tri n | PR i => 1 <= i <= n | PN i => 1 <= i < n | _ => False end.
Proof.
  intros n v. rewrite !in_app_iff, !in_map_iff. split.
  - intros [(m & <- & Hm)|[(m & <- & Hm)|(m & <- & Hm)]]; apply in_seq in Hm; lia.
  - destruct v; intros H; try contradiction; [left|right; left|right; right]; exists i; (split; [reflexivity|apply in_seq; lia]).
Qed.
Theorem choice_exact : forall sends mesh n e sender c fields labels R, 1 <= e <= n -> choose_code mesh n e sender = Some c ->
  (choice_accepts sends c fields labels R <-> choice_fits sends mesh n e sender fields labels R).
Proof.
  intros sends mesh n e sender c fields labels R He E. rewrite choose_code_eq in E by exact He. injection E as <-.
  unfold choice_accepts, choice_fits, cancel_fits. cbn [ch_unknowns ch_sends ch_result]. split.
  - intros (sg & Hsg & Hs & ->).
    assert (Hin : forall i, 1 <= i < n -> In (i, role_mesh mesh i (mesh_of b_fork n (served e i))) (map (fun i => (i, role_mesh mesh i (mesh_of b_fork n (served e i)))) (seq 1 (n - 1)))).
    { intros i Hi. apply in_map_iff. exists i. split; [reflexivity|apply in_seq; lia]. }
    split. { intros q Hq Hne. apply (Hs _ _ (Hin _ (comm_range n e q He Hq Hne))). }
    exists (family sg n), (fun p => if p =? e then sg (PR n) else sg (PR (comm_field e p))), (fun p => if p =? e then name_t sender else sg (PN (comm_field e p))).
    split; [|split; [|split; [|split]]].
    + apply family_dual. intros m Hm. apply (Hsg (PS m)), in_unknowns. exact Hm.
    + intros p Hp. destruct (Nat.eqb_spec p e) as [->|Hne].
      * split; [apply (Hsg (PR n)), in_unknowns; lia|reflexivity].
      * pose proof (comm_range n e p He Hp Hne). split; [apply (Hsg (PR _))|apply (Hsg (PN _))]; apply in_unknowns; lia.
    + rewrite Nat.eqb_refl. reflexivity.
    + intros q Hq Hne. destruct (Hs _ _ (Hin _ (comm_range n e q He Hq Hne))) as [-> _]. rewrite (served_comm n e q Hq Hne). unfold role_mesh, as_role.
      destruct (Nat.eqb_spec q e); [contradiction|]. rewrite inst_mesh, family_mesh by lia. reflexivity.
    + unfold as_role. rewrite !Nat.eqb_refl, inst_mesh, family_mesh by exact He. reflexivity.
  - intros (HF & G & st & nm & HG & Hst & Hnm & HC & ->).
    set (sg := fun v => match v with PS m => fam n G m | PR i => if i =? n then st e else st (served e i) | PN i => nm (served e i) | _ => end_t end).
    assert (Hfam : forall m, 1 <= m <= tri n -> sg (PS m) = fam n G m) by reflexivity.
    exists sg. split; [|split].
    + intros v Hv. apply in_unknowns in Hv. destruct v as [m|i| | | |i|]; try contradiction; cbn [ok_for].
      * apply fam_session; auto.
      * cbn. destruct (Nat.eqb_spec i n); [apply Hst; exact He|]. apply Hst. apply served_range; lia.
      * apply Hst. apply served_range; lia.
    + intros i C HiC. apply in_map_iff in HiC as (k & Ek & Hk). injection Ek as -> <-. apply in_seq in Hk.
      destruct (served_range n e i He ltac:(lia)) as [Hr Hne]. specialize (HC _ Hr Hne). specialize (HF _ Hr Hne).
      rewrite comm_served in HC, HF by lia. split; [|exact HF]. rewrite HC. unfold as_role, role_mesh.
      rewrite inst_mesh, family_mesh, (others_family _ n G) by auto. cbn [inst]. unfold sg. destruct (Nat.eqb_spec i n); [lia|reflexivity].
    + unfold as_role. rewrite inst_mesh, family_mesh, (others_family _ n G) by auto. cbn [inst]. unfold sg. rewrite Nat.eqb_refl, Hnm. reflexivity.
Qed.

(** * Programs of the machine *)
Lemma gdual_sty : forall s, gdual (sty_t s) = sty_t (co s).
Proof. induction s as [|q s IH|q s IH]; cbn; [reflexivity|rewrite IH; reflexivity..]. Qed.
Lemma pty_inj : forall p q, pty_t p = pty_t q -> p = q.
Proof. intros [t|b j] [t'|b' j'] E; cbn in E; injection E as E; subst; try discriminate; congruence. Qed.
Lemma sty_inj : forall s t, sty_t s = sty_t t -> s = t.
Proof.
  induction s as [|q s IH|q s IH]; intros [|q' t|q' t] E; cbn in E; try discriminate E; [reflexivity|..]; injection E as E1 E2;
    apply pty_inj in E1; apply IH in E2; subst; reflexivity.
Qed.
Lemma field_comm : forall p q, p <> q -> comm_field p q - 1 = field_pos p q.
Proof. intros p q Hne. unfold comm_field, field_pos. destruct (Nat.leb_spec p q), (Nat.ltb_spec q p); lia. Qed.
Lemma facing_eq : forall n p (F : nat -> rty) ss, 1 <= p <= n ->
  (map sty_t ss = map F (others n p) <-> List.length ss = n - 1 /\ forall q, 1 <= q <= n -> q <> p -> sty_t (nth (field_pos p q) ss End) = F q).
Proof.
  intros n p F ss Hp. split.
  - intros E. assert (Hl : List.length ss = n - 1).
    { rewrite <- (map_length sty_t ss), E, map_length, others_peers, map_length, seq_length by exact Hp. reflexivity. }
    split; [exact Hl|]. intros q Hq Hne. rewrite (nth_map_seq _ _ sty_t ss End), Hl, others_peers, map_map, map_seq_eq in E by exact Hp.
    destruct (peer_onto n p q Hp Hq (not_eq_sym Hne)) as (k & Hk & Ek). specialize (E k ltac:(lia)). rewrite Ek in E. rewrite <- E.
    rewrite <- field_comm by congruence. rewrite <- Ek, comm_field_peer by lia. reflexivity.
  - intros [Hl H]. rewrite (nth_map_seq _ _ sty_t ss End), Hl, others_peers, map_map, map_seq_eq by exact Hp.
    intros k Hk. rewrite <- H; [|apply peer_range; lia|apply peer_neq]. rewrite <- field_comm by (intros Ee; apply (peer_neq p k); congruence).
    rewrite comm_field_peer by lia. reflexivity.
Qed.
Lemma contents_dual : forall mesh roles (B : nat -> mty), let n := List.length roles in
  (dual_mesh n B <-> exists G st nm, dual_family n G /\ forall p, 1 <= p <= n -> content mesh roles B p = as_role mesh n G st nm p).
Proof.
  intros mesh roles B n. split.
  - intros [Hl Hd]. exists (fun p q => sty_t (sess B p q)), (fun p => stack_t roles (snd (B p))), (fun p => name_t (role_name roles p)). split.
    + intros p q Hp Hq Hne. split; [apply is_session_sty|]. rewrite gdual_sty, <- Hd by auto. reflexivity.
    + intros p Hp. unfold content, thread_t, as_role. f_equal. apply facing_eq; [exact Hp|]. split; [apply Hl; exact Hp|]. reflexivity.
  - intros (G & st & nm & HG & H).
    assert (HF : forall p, 1 <= p <= n -> List.length (fst (B p)) = n - 1 /\ forall q, 1 <= q <= n -> q <> p -> sty_t (sess B p q) = G p q).
    { intros p Hp. specialize (H p Hp). unfold content, thread_t, as_role in H. apply mesh_t_inj in H as (_ & H & _). apply (facing_eq n p (G p)) in H; [exact H|exact Hp]. }
    split; [intros p Hp; apply HF; exact Hp|]. intros p q Hp Hq Hne. apply sty_inj. rewrite <- gdual_sty.
    rewrite (proj2 (HF p Hp) q Hq) by congruence. rewrite (proj2 (HF q Hq) p Hp) by congruence. apply HG; auto.
Qed.
Lemma content_roles : forall mesh roles B p G st nm n, content mesh roles B p = as_role mesh n G st nm p ->
  is_role (st p) = true /\ is_name (nm p) = true /\ nm p = name_t (role_name roles p).
Proof.
  intros mesh roles B p G st nm n E. unfold content, thread_t, as_role in E. apply mesh_t_inj in E as (_ & _ & E1 & E2).
  rewrite <- E1, <- E2. split; [apply is_role_stack|split; reflexivity].
Qed.
Theorem fork_accepts_dual : forall mesh roles T f, let n := List.length roles in fork_fn mesh n = Some f ->
  (fork_accepts f (map (content mesh roles T) (seq 1 n)) <-> dual_mesh n T).
Proof.
  intros mesh roles T f n E. pose proof (contents_dual mesh roles T) as CD. cbv zeta in CD. fold n in CD. rewrite (fork_exact mesh n f _ E), CD. split.
  - intros (G & st & nm & HG & _ & H). exists G, st, nm. split; [exact HG|]. intros p Hp.
    rewrite map_seq_eq in H. apply H. lia.
  - intros (G & st & nm & HG & H). exists G, st, nm. split; [exact HG|]. split.
    + intros p Hp. destruct (content_roles _ _ _ _ _ _ _ _ (H p Hp)) as (H1 & H2 & _). auto.
    + apply map_ext_in. intros p Hp. apply in_seq in Hp. apply H. lia.
Qed.
Lemma peer_served : forall e i, peer_of e i = served e i.
Proof. intros e i. unfold peer_of, served. destruct (Nat.ltb_spec i e), (Nat.leb_spec e i); lia. Qed.
Theorem choice_accepts_dual : forall sends mesh roles B b e c fields, let n := List.length roles in 1 <= e <= n ->
  choose_code mesh n e (role_name roles e) = Some c ->
  (choice_accepts sends c fields (branch_labels mesh roles B b e) (content mesh roles B e) <->
   dual_mesh n B /\ forall q, 1 <= q <= n -> q <> e -> exists F, nth_error fields (comm_field e q - 1) = Some F /\ sends F (pty_t (PChoice b q))).
Proof.
  intros sends mesh roles B b e c fields n He E. rewrite (choice_exact sends mesh n e _ c fields _ _ He E). unfold choice_fits.
  assert (HL : forall q, 1 <= q <= n -> q <> e -> branch_labels mesh roles B b e (comm_field e q) = Label (content mesh roles B q) (pty_t (PChoice b q))).
  { intros q Hq Hne. unfold branch_labels. rewrite peer_served, (served_comm n e q Hq Hne). reflexivity. }
  pose proof (contents_dual mesh roles B) as CD. cbv zeta in CD. fold n in CD. rewrite CD. split.
  - intros (HF & G & st & nm & HG & _ & _ & HC & HR). split.
    + exists G, st, nm. split; [exact HG|]. intros p Hp. destruct (Nat.eq_dec p e) as [->|Hne]; [exact HR|].
      rewrite <- (HC p Hp Hne), HL by assumption. reflexivity.
    + intros q Hq Hne. destruct (HF q Hq Hne) as (F & H1 & H2). rewrite HL in H2 by assumption. exists F. auto.
  - intros [(G & st & nm & HG & H) HF]. split.
    + intros q Hq Hne. rewrite HL by assumption. apply HF; assumption.
    + exists G, st, nm. split; [exact HG|]. split; [|split; [|split]].
      * intros p Hp. destruct (content_roles _ _ _ _ _ _ _ _ (H p Hp)) as (H1 & H2 & _). auto.
      * apply (content_roles _ _ _ _ _ _ _ _ (H e He)).
      * intros q Hq Hne. rewrite HL by assumption. apply H. exact Hq.
      * apply H. exact He.
Qed.
Theorem compiled_dual : forall mesh roles T branch labels, let n := List.length roles in 1 <= n ->
  (compiled mesh roles T branch labels <-> dual_mesh n T /\ forall b l, l < labels b -> dual_mesh n (branch b l)).
Proof.
  intros mesh roles T branch labels n Hn. unfold compiled. fold n. split.
  - intros [(f & Ef & Hf) HB]. split; [apply (fork_accepts_dual mesh roles T f Ef), Hf|]. intros b l Hl.
    destruct (HB b l Hl) as (e & c & fields & He & Ec & Hc). apply (choice_accepts_dual _ mesh roles _ _ _ _ _ He Ec) in Hc as [H _]. exact H.
  - intros [HT HB]. split.
    + eexists. split; [apply fork_fn_eq; exact Hn|]. apply (fork_accepts_dual mesh roles T); [apply fork_fn_eq; exact Hn|exact HT].
    + intros b l Hl. exists 1. eexists. exists (map (fun i => RApp CSend [pty_t (PChoice b (S i)); end_t]) (seq 1 (n - 1))).
      split; [lia|]. split; [apply choose_code_eq; lia|].
      apply (choice_accepts_dual sends_any mesh roles (branch b l) b 1 _ _ ltac:(fold n; lia)); [apply choose_code_eq; fold n; lia|]. split; [apply HB; exact Hl|].
      intros q Hq Hne. eexists. split.
      * rewrite nth_error_map, nth_error_seq by (unfold comm_field; destruct (Nat.leb_spec 1 q); lia). cbn [option_map]. reflexivity.
      * exists end_t. split; [reflexivity|]. unfold comm_field. destruct (Nat.leb_spec 1 q); [|lia]. replace (S (1 + (q - 1 - 1))) with q by lia. reflexivity.
Qed.

(** * Choices with a broadcaster *)
Lemma idx_first : forall n c, idx n 1 c = c - 1.
Proof. reflexivity. Qed.
Lemma tri_first : forall n, n - 1 <= tri n.
Proof.
  intros n. destruct n as [|[|n]]; [unfold tri; cbn; lia|unfold tri; cbn; lia|].
  pose proof (idx_range (S (S n)) 1 (S (S n)) ltac:(lia) ltac:(lia) ltac:(lia)) as H. rewrite idx_first in H. lia.
Qed.
Lemma idx_later : forall n a c, 2 <= a -> a < c -> c <= n -> n <= idx n a c.
Proof.
  intros n a c Ha Hc Hn. destruct (Nat.le_gt_cases n (idx n a c)) as [H|H]; [exact H|exfalso].
  pose proof (idx_range n a c ltac:(lia) Hc Hn) as Hr.
  assert (E : idx n 1 (S (idx n a c)) = idx n a c) by (rewrite idx_first; lia).
  apply idx_inj in E; lia.
Qed.
Definition plus_ends (n : nat) (sg : param -> rty) (v : param) : rty := match v with PS m => if m <? n then end_t else sg v | _ => sg v end.
Lemma cancel_session_inst : forall n sg e, inst sg (cancel_session n e) = inst (plus_ends n sg) (session_of 0 e).
Proof.
  intros n sg [m b]. unfold cancel_session, session_of. cbn [fst snd]. rewrite Nat.add_0_l. unfold plus_ends.
  destruct (m <? n) eqn:E; destruct b; cbn [inst]; rewrite ?E; reflexivity.
Qed.
Lemma cancel_mesh_inst : forall n sg j, 1 <= j <= n ->
  map (inst sg) (map (cancel_session n) (mesh_of b_fork n j)) = map (family (plus_ends n sg) n j) (others n j).
Proof.
  intros n sg j Hj. rewrite <- family_mesh by exact Hj. rewrite !map_map. apply map_ext. intros e. apply cancel_session_inst.
Qed.
Lemma choose_cancel_code_eq : forall mesh n e sender, 1 <= e <= n ->
  choose_cancel_code mesh n e sender = Some (Choice (map PS (seq n (tri n - (n - 1))) ++ map PR (seq 2 (n - 1)) ++ map PN (seq 2 (n - 2)))
    (map (fun i => (i, mesh_t mesh (map (cancel_session n) (mesh_of b_fork n (served e i))) (RVar (PR i)) (RVar (PN i)))) (seq 2 (n - 2)))
    (mesh_t mesh (map (cancel_session n) (mesh_of b_fork n e)) (RVar (PR n)) (name_t sender))).
Proof.
  intros mesh n e sender He. unfold choose_cancel_code.
  rewrite (all_some_map _ _ (choose_send n e) (fun i => (i, mesh_of b_fork n (served e i)))).
  - rewrite choose_own_spec by exact He. rewrite map_map. reflexivity.
  - intros i Hi. apply in_seq in Hi. unfold choose_send. destruct (choose_env_spec n) as (g & -> & Hl).
    destruct (served_range n e i He ltac:(lia)) as [Hr _]. fold (served e i). rewrite (row_lookup n g (served e i) Hl Hr). reflexivity.
Qed.
Lemma in_cancel_unknowns : forall n v, In v (map PS (seq n (tri n - (n - 1))) ++ map PR (seq 2 (n - 1)) ++ map PN (seq 2 (n - 2))) <->
  match v with PS m => n <= m < n + (tri n - (n - 1)) | PR i => 2 <= i < 2 + (n - 1) | PN i => 2 <= i < 2 + (n - 2) | _ => False end.
Proof.
  intros n v. rewrite !in_app_iff, !in_map_iff. split.
  - intros [(m & <- & Hm)|[(m & <- & Hm)|(m & <- & Hm)]]; apply in_seq in Hm; lia.
  - destruct v; intros H; try contradiction; [left|right; left|right; right]; exists i; (split; [reflexivity|apply in_seq; lia]).
Qed.
Lemma served_two : forall e i, 2 <= e -> 2 <= i -> 2 <= served e i.
Proof. intros e i He Hi. unfold served. destruct (e <=? i); lia. Qed.
Lemma comm_two : forall n e q, 2 <= e <= n -> 2 <= q <= n -> q <> e -> 2 <= comm_field e q < n.
Proof. intros n e q He Hq Hne. unfold comm_field. destruct (Nat.leb_spec e q); lia. Qed.
Theorem cancel_choice_exact : forall sends mesh n e sender c fields labels R, 2 <= e <= n -> choose_cancel_code mesh n e sender = Some c ->
  (choice_accepts sends c fields labels R <-> cancel_fits sends mesh n e sender fields labels R).
Proof.
  intros sends mesh n e sender c fields labels R He E. rewrite choose_cancel_code_eq in E by lia. injection E as <-.
  unfold choice_accepts, choice_fits, cancel_fits. cbn [ch_unknowns ch_sends ch_result]. pose proof (tri_first n) as Htri. split.
  - intros (sg & Hsg & Hs & ->).
    assert (Hin : forall i, 2 <= i < n -> In (i, mesh_t mesh (map (cancel_session n) (mesh_of b_fork n (served e i))) (RVar (PR i)) (RVar (PN i)))
       (map (fun i => (i, mesh_t mesh (map (cancel_session n) (mesh_of b_fork n (served e i))) (RVar (PR i)) (RVar (PN i)))) (seq 2 (n - 2)))).
    { intros i Hi. apply in_map_iff. exists i. split; [reflexivity|apply in_seq; lia]. }
    split. { intros q Hq Hne. apply (Hs _ _ (Hin _ (comm_two n e q He Hq Hne))). }
    exists (family (plus_ends n sg) n), (fun p => if p =? e then sg (PR n) else sg (PR (comm_field e p))), (fun p => if p =? e then name_t sender else sg (PN (comm_field e p))).
    split; [|split; [|split; [|split; [|split]]]].
    + apply family_dual. intros m Hm. unfold plus_ends. destruct (Nat.ltb_spec m n); [reflexivity|]. apply (Hsg (PS m)), in_cancel_unknowns. lia.
    + intros q Hq. unfold family, session_of, end_of. cbn [fst snd]. rewrite Nat.min_l, Nat.max_r, idx_first by lia.
      assert (E : plus_ends n sg (PS (0 + (q - 1))) = end_t) by (unfold plus_ends; destruct (Nat.ltb_spec (0 + (q - 1)) n); [reflexivity|lia]).
      destruct (b_fork 1 q); cbn [inst]; rewrite E; reflexivity.
    + intros p Hp. destruct (Nat.eqb_spec p e) as [->|Hne].
      * split; [apply (Hsg (PR n)), in_cancel_unknowns; lia|reflexivity].
      * pose proof (comm_two n e p He Hp Hne). split; [apply (Hsg (PR _))|apply (Hsg (PN _))]; apply in_cancel_unknowns; lia.
    + rewrite Nat.eqb_refl. reflexivity.
    + intros q Hq Hne. destruct (Hs _ _ (Hin _ (comm_two n e q He Hq Hne))) as [-> _]. rewrite (served_comm n e q ltac:(lia) Hne). unfold as_role.
      destruct (Nat.eqb_spec q e); [contradiction|]. rewrite inst_mesh, cancel_mesh_inst by lia. reflexivity.
    + unfold as_role. rewrite !Nat.eqb_refl, inst_mesh, cancel_mesh_inst by lia. reflexivity.
  - intros (HF & G & st & nm & HG & H1 & Hst & Hnm & HC & ->).
    set (sg := fun v => match v with PS m => fam n G m | PR i => if i =? n then st e else st (served e i) | PN i => nm (served e i) | _ => end_t end).
    assert (Hfam : forall m, 1 <= m <= tri n -> plus_ends n sg (PS m) = fam n G m).
    { intros m Hm. unfold plus_ends. destruct (Nat.ltb_spec m n) as [Hlt|]; [|reflexivity].
      assert (idx n 1 (S m) = m) as <- by (rewrite idx_first; lia). rewrite fam_idx by lia. symmetry. apply H1. lia. }
    exists sg. split; [|split].
    + intros v Hv. apply in_cancel_unknowns in Hv. destruct v as [m|i| | | |i|]; try contradiction; cbn [ok_for].
      * apply fam_session; [exact HG|lia].
      * cbn. destruct (Nat.eqb_spec i n); [apply Hst; exact He|]. apply Hst. split; [apply served_two; lia|]. apply served_range; lia.
      * apply Hst. split; [apply served_two; lia|]. apply served_range; lia.
    + intros i C HiC. apply in_map_iff in HiC as (k & Ek & Hk). injection Ek as -> <-. apply in_seq in Hk.
      destruct (served_range n e i ltac:(lia) ltac:(lia)) as [Hr Hne]. pose proof (served_two e i ltac:(lia) ltac:(lia)) as H2.
      specialize (HC _ (conj H2 (proj2 Hr)) Hne). specialize (HF _ (conj H2 (proj2 Hr)) Hne).
      rewrite comm_served in HC, HF by lia. split; [|exact HF]. rewrite HC. unfold as_role.
      rewrite inst_mesh, cancel_mesh_inst, (others_family _ n G) by auto. cbn [inst]. unfold sg. destruct (Nat.eqb_spec i n); [lia|reflexivity].
    + unfold as_role. rewrite inst_mesh, cancel_mesh_inst, (others_family _ n G) by (auto; lia). cbn [inst]. unfold sg. rewrite Nat.eqb_refl, Hnm. reflexivity.
Qed.
