(** Proofs about GenMacros.v. *)
From Coq Require Import Arith Bool String Lia.
From Verif Require Import Types Session Mesh MeshSpec Wiring WiringProofs Methods MethodsSpec MethodsProofs ForkTypes ForkSpec ForkProofs GenMacros GenSpec.
From Coq Require Import List.
Import ListNotations.
Open Scope nat_scope.
Open Scope list_scope.

Lemma idents_flat : forall roles, get_all_roles_ident (flat_call roles) = roles.
Proof. induction roles as [|r l IH]; [reflexivity|]. cbn. f_equal. exact IH. Qed.
Lemma groups_flat : forall roles, flat_map (fun t => match t with TGroup g => get_all_roles_ident g | _ => [] end) (flat_call roles) = [].
Proof. induction roles as [|r l IH]; [reflexivity|]. cbn. exact IH. Qed.
Lemma read_flat : forall roles, get_all_roles (flat_call roles) = roles.
Proof. intros roles. unfold get_all_roles. rewrite groups_flat. apply idents_flat. Qed.
Lemma read_groups : forall roles, parenthesised_groups (group_call roles) = Some (map TIdent roles).
Proof. induction roles as [|r l IH]; [reflexivity|]. unfold parenthesised_groups, group_call in *. cbn [map fold_right forallb andb]. rewrite IH. reflexivity. Qed.
Lemma read_labels : forall labels, parenthesised_groups (label_call labels) = Some (map TGroup labels).
Proof. induction labels as [|r l IH]; [reflexivity|]. unfold parenthesised_groups, label_call in *. cbn [map fold_right forallb andb]. rewrite IH. reflexivity. Qed.

Lemma find_app : forall (A : Type) (f : A -> bool) l m, find f (l ++ m) = match find f l with Some x => Some x | None => find f m end.
Proof. induction l as [|a l IH]; intros m; [reflexivity|]. cbn. destruct (f a); [reflexivity|apply IH]. Qed.
Lemma find_none_iff : forall (A : Type) (f : A -> bool) l, find f l = None <-> forall x, In x l -> f x = false.
Proof.
  intros A f l. split; [apply find_none|]. induction l as [|a l IH]; intros H; [reflexivity|]. cbn. rewrite (H a (or_introl eq_refl)).
  apply IH. intros x Hx. apply H. right. exact Hx.
Qed.
Lemma filter_none : forall (A : Type) (f : A -> bool) l, (forall x, In x l -> f x = false) -> filter f l = [].
Proof.
  intros A f l. induction l as [|a l IH]; intros H; [reflexivity|]. cbn. rewrite (H a (or_introl eq_refl)). apply IH. intros x Hx. apply H. right. exact Hx.
Qed.

(** The last definition with the name, or the only one. *)
Lemma resolve_last : forall d m e, ~ In m e ->
  (resolve true (cm_name m) (d ++ m :: e) = Some m <-> forall x, In x e -> cm_name x <> cm_name m).
Proof.
  intros d m e N. unfold resolve. rewrite rev_app_distr. cbn [rev]. rewrite <- app_assoc. rewrite find_app.
  destruct (find (fun x => String.eqb (cm_name x) (cm_name m)) (rev e)) as [y|] eqn:F.
  - apply find_some in F as [F1 F2]. apply in_rev in F1. split.
    + intros E. injection E as ->. contradiction.
    + intros H. apply String.eqb_eq in F2. exfalso. exact (H y F1 F2).
  - cbn. rewrite String.eqb_refl. split; [|reflexivity]. intros _ x Hx. apply find_none with (x := x) in F.
    + apply String.eqb_neq. exact F.
    + apply in_rev in Hx. exact Hx.
Qed.
Lemma resolve_only : forall d m e,
  resolve false (cm_name m) (d ++ m :: e) = Some m <-> forall x, In x (d ++ e) -> cm_name x <> cm_name m.
Proof.
  intros d m e. unfold resolve. rewrite filter_app. cbn [filter]. rewrite String.eqb_refl. split.
  - intros H x Hx E. assert (I : In x (filter (fun y => String.eqb (cm_name y) (cm_name m)) (d ++ e))).
    { apply filter_In. split; [exact Hx|]. apply String.eqb_eq. exact E. }
    rewrite filter_app in I. destruct (filter _ d) as [|a [|a' l]]; cbn in H; [|destruct (filter _ e); discriminate H|discriminate H].
    destruct (filter _ e); [destruct I|discriminate H].
  - intros H. rewrite !filter_none; [reflexivity| |]; intros x Hx; apply String.eqb_neq; apply H; apply in_or_app; auto.
Qed.
Lemma resolve_in : forall timed x defs m, resolve timed x defs = Some m -> In m defs /\ cm_name m = x.
Proof.
  intros timed x defs m H. unfold resolve in H. destruct timed.
  - apply find_some in H as [H1 H2]. split; [apply in_rev; exact H1|apply String.eqb_eq; exact H2].
  - destruct (filter _ defs) as [|a [|b l]] eqn:E; try discriminate H. injection H as ->.
    assert (I : In m (filter (fun m => String.eqb (cm_name m) x) defs)) by (rewrite E; left; reflexivity).
    apply filter_In in I as [I1 I2]. split; [exact I1|apply String.eqb_eq; exact I2].
Qed.

Definition mac (lower : string -> string) (mesh : string) (roles : list string) (i : nat) : choice_macro :=
  ChoiceMacro (macro_name lower (role_name roles i)) (role_name roles i) mesh i.
Lemma macros_eq : forall lower mesh roles, choice_macros lower mesh roles = map (mac lower mesh roles) (seq 1 (List.length roles)).
Proof. reflexivity. Qed.
Lemma macros_split : forall lower mesh roles i, 1 <= i <= List.length roles -> choice_macros lower mesh roles =
  map (mac lower mesh roles) (seq 1 (i - 1)) ++ mac lower mesh roles i :: map (mac lower mesh roles) (seq (S i) (List.length roles - i)).
Proof.
  intros lower mesh roles i Hi. rewrite macros_eq. replace (List.length roles) with ((i - 1) + S (List.length roles - i)) at 1 by lia.
  rewrite seq_app, map_app. cbn [seq map]. replace (1 + (i - 1)) with i by lia. reflexivity.
Qed.
Lemma macros_in : forall lower mesh roles m, In m (choice_macros lower mesh roles) <-> exists i, 1 <= i <= List.length roles /\ m = mac lower mesh roles i.
Proof.
  intros lower mesh roles m. rewrite macros_eq, in_map_iff. split.
  - intros (i & <- & Hi). apply in_seq in Hi. exists i. split; [lia|reflexivity].
  - intros (i & Hi & ->). exists i. split; [reflexivity|]. apply in_seq. lia.
Qed.
Lemma mac_in_part : forall lower mesh roles x a k, In x (map (mac lower mesh roles) (seq a k)) <-> exists q, a <= q < a + k /\ x = mac lower mesh roles q.
Proof.
  intros. rewrite in_map_iff. split.
  - intros (i & <- & Hi). apply in_seq in Hi. eauto.
  - intros (i & Hi & ->). exists i. split; [reflexivity|apply in_seq; exact Hi].
Qed.
Theorem resolve_own : forall lower timed mesh roles p, 1 <= p <= List.length roles ->
  (resolve timed (macro_name lower (role_name roles p)) (choice_macros lower mesh roles) = Some (mac lower mesh roles p) <-> own_macro lower timed roles p).
Proof.
  intros lower timed mesh roles p Hp. rewrite (macros_split lower mesh roles p Hp). change (macro_name lower (role_name roles p)) with (cm_name (mac lower mesh roles p)).
  destruct timed.
  - rewrite resolve_last.
    2:{ intros H. apply mac_in_part in H as (q & Hq & E). injection E as _ _ E. lia. }
    split.
    + intros H q Hq Hlt. exact (H (mac lower mesh roles q) ltac:(apply mac_in_part; exists q; split; [lia|reflexivity])).
    + intros H x Hx. apply mac_in_part in Hx as (q & Hq & ->). apply H; lia.
  - rewrite resolve_only. split.
    + intros H q Hq Hne. apply (H (mac lower mesh roles q)). apply in_or_app. destruct (Nat.lt_ge_cases q p); [left|right]; apply mac_in_part; exists q; (split; [lia|reflexivity]).
    + intros H x Hx. apply in_app_or in Hx as [Hx|Hx]; apply mac_in_part in Hx as (q & Hq & ->); apply H; lia.
Qed.
Lemma resolve_some : forall lower timed mesh roles x m, resolve timed x (choice_macros lower mesh roles) = Some m ->
  exists q, 1 <= q <= List.length roles /\ m = mac lower mesh roles q /\ macro_name lower (role_name roles q) = x.
Proof.
  intros lower timed mesh roles x m H. apply resolve_in in H as [H1 H2]. apply macros_in in H1 as (q & Hq & ->). exists q. auto.
Qed.

(** The other protocol. *)
Theorem resolve_first : forall lower mesh1 mesh2 roles1 roles2 p, 1 <= p <= List.length roles1 ->
  (resolve false (macro_name lower (role_name roles1 p)) (choice_macros_two lower mesh1 mesh2 roles1 roles2) = Some (mac lower mesh1 roles1 p) <->
   own_macro lower false roles1 p /\ forall q, 1 <= q <= List.length roles2 -> macro_name lower (role_name roles2 q) <> macro_name lower (role_name roles1 p)).
Proof.
  intros lower mesh1 mesh2 roles1 roles2 p Hp. unfold choice_macros_two. rewrite (macros_split lower mesh1 roles1 p Hp), <- app_assoc. cbn [app].
  change (macro_name lower (role_name roles1 p)) with (cm_name (mac lower mesh1 roles1 p)) at 1. rewrite resolve_only. split.
  - intros H. split.
    + intros q Hq Hne. apply (H (mac lower mesh1 roles1 q)). apply in_or_app. destruct (Nat.lt_ge_cases q p); [left|right; apply in_or_app; left]; apply mac_in_part; exists q; (split; [lia|reflexivity]).
    + intros q Hq. apply (H (mac lower mesh2 roles2 q)). apply in_or_app. right. apply in_or_app. right. apply macros_in. eauto.
  - intros [H1 H2] x Hx. apply in_app_or in Hx as [Hx|Hx]; [|apply in_app_or in Hx as [Hx|Hx]].
    + apply mac_in_part in Hx as (q & Hq & ->). apply H1; lia.
    + apply mac_in_part in Hx as (q & Hq & ->). apply H1; lia.
    + apply macros_in in Hx as (q & Hq & ->). apply H2. exact Hq.
Qed.
Theorem resolve_second : forall lower mesh1 mesh2 roles1 roles2 p, 1 <= p <= List.length roles2 ->
  (resolve false (macro_name lower (role_name roles2 p)) (choice_macros_two lower mesh1 mesh2 roles1 roles2) = Some (mac lower mesh2 roles2 p) <->
   own_macro lower false roles2 p /\ forall q, 1 <= q <= List.length roles1 -> macro_name lower (role_name roles1 q) <> macro_name lower (role_name roles2 p)).
Proof.
  intros lower mesh1 mesh2 roles1 roles2 p Hp. unfold choice_macros_two. rewrite (macros_split lower mesh2 roles2 p Hp), app_assoc.
  change (macro_name lower (role_name roles2 p)) with (cm_name (mac lower mesh2 roles2 p)) at 1. rewrite resolve_only. split.
  - intros H. split.
    + intros q Hq Hne. apply (H (mac lower mesh2 roles2 q)). apply in_or_app. destruct (Nat.lt_ge_cases q p); [left; apply in_or_app; right|right]; apply mac_in_part; exists q; (split; [lia|reflexivity]).
    + intros q Hq. apply (H (mac lower mesh1 roles1 q)). apply in_or_app. left. apply in_or_app. left. apply macros_in. eauto.
  - intros [H1 H2] x Hx. apply in_app_or in Hx as [Hx|Hx]; [apply in_app_or in Hx as [Hx|Hx]|].
    + apply macros_in in Hx as (q & Hq & ->). apply H2. exact Hq.
    + apply mac_in_part in Hx as (q & Hq & ->). apply H1; lia.
    + apply mac_in_part in Hx as (q & Hq & ->). apply H1; lia.
Qed.

(** The mesh types of an instantiated choice have one field for each label. *)
Lemma others_len : forall n p, 1 <= p <= n -> List.length (others n p) = n - 1.
Proof. intros n p H. rewrite others_peers, map_length, seq_length by exact H. reflexivity. Qed.
Lemma accepted_arity : forall sends mesh n e sender c fields labels mesh' fs st nm, 1 <= e <= n -> choose_code mesh n e sender = Some c ->
  choice_accepts sends c fields labels (mesh_t mesh' fs st nm) -> List.length fs = n - 1 /\ nm = name_t sender.
Proof.
  intros sends mesh n e sender c fields labels mesh' fs st nm He E A. apply (choice_exact sends mesh n e sender c _ _ _ He E) in A.
  destruct A as [_ (G & st' & nm' & _ & _ & Hnm & _ & HR)]. unfold as_role in HR. apply mesh_t_inj in HR as (_ & -> & _ & ->).
  split; [rewrite map_length; apply others_len; exact He|exact Hnm].
Qed.
Lemma fits_ext : forall sends mesh n e sender fields l l' R, 1 <= e <= n -> (forall i, 1 <= i < n -> l i = l' i) ->
  choice_fits sends mesh n e sender fields l R -> choice_fits sends mesh n e sender fields l' R.
Proof.
  intros sends mesh n e sender fields l l' R He H [H1 (G & st & nm & H2 & H3 & H4 & H5 & H6)]. split.
  - intros q Hq Hne. rewrite <- H by (apply (comm_range n e q); assumption). auto.
  - exists G, st, nm. repeat (split; [assumption|]). split; [|assumption]. intros q Hq Hne. rewrite <- H by (apply (comm_range n e q); assumption). auto.
Qed.

(** A macro accepts only results named after its role; by its own macro a role makes exactly the choices that fit. *)
Lemma macro_some : forall m k c, macro_choice m k = Some c -> 1 <= cm_index m <= k + 1 /\ choose_code (cm_mesh m) (k + 1) (cm_index m) (cm_sender m) = Some c.
Proof.
  intros m k c H. unfold macro_choice in H. destruct (Nat.eqb_spec k 0); [discriminate H|]. split; [|exact H].
  destruct (proj1 (choose_code_some (cm_mesh m) (k + 1) (cm_index m) (cm_sender m) ltac:(lia)) (ex_intro _ c H)); [lia|assumption].
Qed.
Theorem macro_by_owner : forall lower timed mesh roles x sends fields labels mesh' fs st p, NoDup roles -> 1 <= p <= List.length roles ->
  chooses timed (choice_macros lower mesh roles) x sends fields labels (mesh_t mesh' fs st (name_t (role_name roles p))) ->
  resolve timed x (choice_macros lower mesh roles) = Some (mac lower mesh roles p) /\ x = macro_name lower (role_name roles p).
Proof.
  intros lower timed mesh roles x sends fields labels mesh' fs st p ND Hp (c & Hc & HA). unfold use_macro in Hc.
  destruct (resolve timed x (choice_macros lower mesh roles)) as [m|] eqn:E; [|discriminate Hc].
  destruct (resolve_some _ _ _ _ _ _ E) as (q & Hq & -> & Hx). apply macro_some in Hc as [Hi Hc].
  destruct (accepted_arity _ _ _ _ _ _ _ _ _ _ _ _ Hi Hc HA) as [_ N]. cbn [cm_sender mac] in N.
  assert (role_name roles p = role_name roles q) as N' by (injection N; auto). unfold role_name in N'.
  apply (proj1 (NoDup_nth roles EmptyString) ND) in N'; [|lia|lia]. assert (p = q) as -> by lia. auto.
Qed.
Lemma own_choice_any : forall lower timed mesh roles sends fields labels R p, let n := List.length roles in
  2 <= n -> 1 <= p <= n -> own_macro lower timed roles p -> List.length labels = n - 1 ->
  (chooses timed (choice_macros lower mesh roles) (macro_name lower (role_name roles p)) sends fields labels R <->
   choice_fits sends mesh n p (role_name roles p) fields (fun i => nth (i - 1) labels (Label end_t end_t)) R).
Proof.
  intros lower timed mesh roles sends fields labels R p n Hn Hp Hown Hl. unfold chooses, use_macro.
  rewrite (proj2 (resolve_own lower timed mesh roles p Hp) Hown). split.
  - intros (c & Hc & HA). apply macro_some in Hc as [Hi Hc]. cbn [mac cm_index cm_mesh cm_sender] in Hi, Hc.
    replace (List.length labels + 1) with n in Hc by lia. exact (proj1 (choice_exact sends mesh n p _ c _ _ _ Hp Hc) HA).
  - intros HF. destruct (proj2 (choose_code_some mesh n p (role_name roles p) ltac:(lia)) (or_intror Hp)) as [c Hc]. exists c. split.
    + unfold macro_choice. destruct (Nat.eqb_spec (List.length labels) 0); [lia|]. cbn [mac cm_index cm_mesh cm_sender].
      replace (List.length labels + 1) with n by lia. exact Hc.
    + exact (proj2 (choice_exact sends mesh n p _ c _ _ _ Hp Hc) HF).
Qed.
Theorem own_choice : forall lower timed mesh roles sends fields labels fs st nm p, let n := List.length roles in
  2 <= n -> 1 <= p <= n -> own_macro lower timed roles p -> List.length fs = n - 1 ->
  (chooses timed (choice_macros lower mesh roles) (macro_name lower (role_name roles p)) sends fields labels (mesh_t mesh fs st nm) <->
   List.length labels = n - 1 /\
   choice_fits sends mesh n p (role_name roles p) fields (fun i => nth (i - 1) labels (Label end_t end_t)) (mesh_t mesh fs st nm)).
Proof.
  intros lower timed mesh roles sends fields labels fs st nm p n Hn Hp Hown Hfs. split.
  - intros H. assert (Hl : List.length labels = n - 1).
    { destruct H as (c & Hc & HA). unfold use_macro in Hc. rewrite (proj2 (resolve_own lower timed mesh roles p Hp) Hown) in Hc.
      apply macro_some in Hc as [Hi Hc]. destruct (accepted_arity _ _ _ _ _ _ _ _ _ _ _ _ Hi Hc HA) as [L _]. lia. }
    split; [exact Hl|]. apply own_choice_any in H; assumption.
  - intros [Hl HF]. apply own_choice_any; assumption.
Qed.

Lemma content_mesh : forall mesh roles B p, exists fs st, content mesh roles B p = mesh_t mesh fs st (name_t (role_name roles p)).
Proof. intros mesh roles B p. unfold content, thread_t. eexists _, _. reflexivity. Qed.
Theorem compiled_by_exact : forall lower timed sends mesh roles T branch labels chooser, let n := List.length roles in
  2 <= n -> NoDup roles -> (forall E, exists F, sends F E) -> (forall b l, l < labels b -> 1 <= chooser b l <= n) ->
  (compiled_by lower timed sends mesh roles T branch labels chooser <->
   dual_mesh n T /\ forall b l, l < labels b -> dual_mesh n (branch b l) /\ own_macro lower timed roles (chooser b l)).
Proof.
  intros lower timed sends mesh roles T branch labels chooser n Hn ND Hs Hch. unfold compiled_by. fold n.
  assert (HT : (exists f, fork_fn mesh n = Some f /\ fork_accepts f (map (content mesh roles T) (seq 1 n))) <-> dual_mesh n T).
  { split.
    - intros (f & Hf & HA). exact (proj1 (fork_accepts_dual mesh roles T f Hf) HA).
    - intros H. eexists. assert (Hf := fork_fn_eq mesh n ltac:(lia)). split; [exact Hf|]. exact (proj2 (fork_accepts_dual mesh roles T _ Hf) H). }
  rewrite HT. clear HT. 
  assert (HB : forall b l, l < labels b -> forall i, 1 <= i < n ->
     nth (i - 1) (map (branch_labels mesh roles (branch b l) b (chooser b l)) (seq 1 (n - 1))) (Label end_t end_t) = branch_labels mesh roles (branch b l) b (chooser b l) i).
  { intros b l _ i Hi. rewrite (nth_indep _ _ (branch_labels mesh roles (branch b l) b (chooser b l) 0)) by (rewrite map_length, seq_length; lia).
    rewrite map_nth, seq_nth by lia. f_equal. lia. }
  split; intros [HT H]; (split; [exact HT|]); intros b l Hl; specialize (H b l Hl); specialize (Hch b l Hl); specialize (HB b l Hl);
    destruct (content_mesh mesh roles (branch b l) (chooser b l)) as (fs & st & EC);
    assert (Ll : List.length (map (branch_labels mesh roles (branch b l) b (chooser b l)) (seq 1 (n - 1))) = n - 1) by (rewrite map_length, seq_length; reflexivity).
  - destruct H as [fields H]. cbv zeta in H. assert (Hown : own_macro lower timed roles (chooser b l)).
    { rewrite EC in H. apply macro_by_owner in H as [H _]; [|exact ND|exact Hch]. apply (resolve_own lower timed mesh roles _ Hch). exact H. }
    split; [|exact Hown]. apply own_choice_any in H; try assumption.
    apply (fits_ext _ _ _ _ _ _ _ _ _ Hch HB) in H.
    destruct (proj2 (choose_code_some mesh n (chooser b l) (role_name roles (chooser b l)) ltac:(lia)) (or_intror Hch)) as [c Hc].
    apply (choice_exact sends mesh n _ _ c _ _ _ Hch Hc) in H. apply (choice_accepts_dual sends mesh roles (branch b l) b _ c fields Hch Hc) in H. apply H.
  - destruct H as [HD Hown].
    assert (exists fields, forall q, 1 <= q <= n -> q <> chooser b l -> exists F, nth_error fields (comm_field (chooser b l) q - 1) = Some F /\ sends F (pty_t (PChoice b q))) as [fields HF].
    { assert (forall k, k <= n - 1 -> exists fields, List.length fields = k /\ forall i, 1 <= i <= k -> exists F, nth_error fields (i - 1) = Some F /\ sends F (pty_t (PChoice b (peer_of (chooser b l) i)))) as HK.
      { induction k as [|k IH]; intros Hk.
        - exists []. split; [reflexivity|]. intros i Hi. lia.
        - destruct (IH ltac:(lia)) as (fields & Lf & HF). destruct (Hs (pty_t (PChoice b (peer_of (chooser b l) (S k))))) as [F HFF].
          exists (fields ++ [F]). split; [rewrite app_length; cbn; lia|]. intros i Hi. destruct (Nat.eq_dec i (S k)) as [->|].
          + exists F. split; [|exact HFF]. rewrite nth_error_app2 by lia. replace (S k - 1 - List.length fields) with 0 by lia. reflexivity.
          + destruct (HF i ltac:(lia)) as (F' & E1 & E2). exists F'. split; [|exact E2]. rewrite nth_error_app1 by lia. exact E1. }
      destruct (HK (n - 1) ltac:(lia)) as (fields & _ & HF). exists fields. intros q Hq Hne. pose proof (comm_range n _ q Hch Hq Hne) as Hr.
      destruct (HF (comm_field (chooser b l) q) ltac:(lia)) as (F & E1 & E2). exists F. split; [exact E1|]. rewrite peer_served, (served_comm n) in E2 by assumption. exact E2. }
    exists fields. cbv zeta. apply own_choice_any; try assumption.
    apply (fits_ext sends mesh n _ _ fields (branch_labels mesh roles (branch b l) b (chooser b l))); [exact Hch|intros i Hi; symmetry; apply HB; exact Hi|].
    destruct (proj2 (choose_code_some mesh n (chooser b l) (role_name roles (chooser b l)) ltac:(lia)) (or_intror Hch)) as [c Hc].
    apply (choice_exact sends mesh n _ _ c _ _ _ Hch Hc). apply (choice_accepts_dual sends mesh roles (branch b l) b _ c fields Hch Hc). split; assumption.
Qed.
