(** * The whole checker: proofs for C32 *)

From Coq Require Import Ascii String ZArith Lia Bool Permutation Sorted List.
From Verif Require Import Checker CheckerSpec CheckerText CheckerClean CheckerGraph CheckerRun.
Import ListNotations.

(** ** One role *)

Lemma local_length : forall roles me P ss st, local_type roles me P ss st ->
  S (length ss) = length roles.
Proof.
  intros roles me P ss st Lt. induction Lt as
      [ss E L|ss st i r p s Ni D Ns Lt IH|ss st i r p s Ni D Ns Pl Lt IH
      |ss r stl str k l ls lst ln rgt rs rst rn L N O Lt1 IH1 Lt2 IH2
      |ss r stl str dl dr NE L F1 F2 Lt1 IH1 Lt2 IH2]; try exact L.
  - rewrite put_length in IH; [exact IH|]. apply nth_error_Some. rewrite Ns. discriminate.
  - rewrite put_length in IH; [exact IH|]. apply nth_error_Some. rewrite Ns. discriminate.
Qed.

(** The transitions that are not [Finish]. *)
Lemma walk_acts : forall (T : list (nat * label * nat)) a tr,
  walk (filter acts T) a tr <-> walk T a tr /\ ~ In Finish tr.
Proof.
  intros T a tr. split.
  - intros W. induction W as [a|a x b tr I W [IH1 IH2]].
    + split; [constructor|]. intros [].
    + apply filter_In in I. destruct I as [I A]. split.
      * now apply w_step with (b := b).
      * intros [->|J]; [discriminate|contradiction].
  - intros [W Nf]. induction W as [a|a x b tr I W IH]; [constructor|].
    apply w_step with (b := b).
    + apply filter_In. split; [exact I|]. unfold acts. cbn [fst snd].
      destruct x; try reflexivity. exfalso. apply Nf. now left.
    + apply IH. intros J. apply Nf. now right.
Qed.

Lemma entry_line : forall role e, acts e = true ->
  fst (entry role e) ++ num (snd (entry role e)) = machine_line role e.
Proof.
  intros role [[a x] b] A. unfold entry, machine_line. cbn [fst snd].
  destruct x; cbn [fst snd]; [| |discriminate]; rewrite <- ?app_assoc; reflexivity.
Qed.

(** The behaviours of a graph and of a machine. *)
Definition graph_does (g : graph) (l : list str) : Prop :=
  walk (map (fun e => (fst (fst e), snd e, snd (fst e))) (edges g)) 0 l.

Theorem graph_session : forall role roles me br bs gb ss st,
  NoDup roles -> nth_error roles me = Some role ->
  local_type roles me (fun p => hget br (short p) = None) ss st ->
  Forall tidy ss -> tidy st ->
  exists g M N,
    (forall fuel, (N <= fuel)%nat ->
       get_graph_session fuel role (map short ss ++ [short st]) roles br bs gb =
       Ok (g, machine_text role M)) /\
    (forall l, graph_does g l <->
       exists tr, does roles me ss st tr /\ l = map (edge_text role roles) tr) /\
    (forall tr, walk M 0 tr <-> does roles me ss st tr /\ ~ In Finish tr).
Proof.
  intros role roles me br bs gb ss st Rs Me Lt Ts Tst.
  pose proof (local_length _ _ _ _ _ Lt) as Ll.
  destruct (built_all role roles me Rs Me br bs gb ss st Lt Ts Tst [0%nat] 0%nat 0%nat []
              (Graph [num 0] []) [] eq_refl ltac:(cbn; lia))
    as (g & T & N & Run & Ed & _ & Wk).
  exists g, (filter acts T), N. split; [|split].
  - intros fuel F. unfold get_graph_session. rewrite (position_nth _ _ _ Rs Me).
    cbn [add_node nodes edges app length].
    replace (length (map short ss ++ [short st]) - 1)%nat with (length roles - 1)%nat
      by (rewrite app_length, map_length; cbn; lia).
    rewrite (Run fuel F). cbn [bind app]. unfold machine_text. do 2 f_equal.
    cbn [app]. do 2 f_equal. f_equal. rewrite map_map. apply map_ext_in.
    intros e I. apply entry_line. apply filter_In in I. apply I.
  - intros l. unfold graph_does. rewrite Ed. cbn [edges app]. rewrite map_map.
    replace (map (fun x => (fst (fst (text_edge role roles x)), snd (text_edge role roles x),
                            snd (fst (text_edge role roles x)))) T)
      with (map (fun e => (fst (fst e), edge_text role roles (snd (fst e)), snd e)) T)
      by (apply map_ext; reflexivity).
    rewrite walk_map. split; intros (tr & A & B); exists tr.
    + split; [now apply Wk|assumption].
    + split; [now apply Wk|assumption].
  - intros tr. rewrite walk_acts, Wk. reflexivity.
Qed.

(** ** The order of the roles *)

Lemma str_le_total : forall a b, str_le a b = false -> str_le b a = true.
Proof.
  induction a as [|x a IH]; intros [|y b] E; try discriminate; [reflexivity|].
  cbn [str_le] in *. destruct (nat_of_ascii x <? nat_of_ascii y)%nat eqn:E1; [discriminate|].
  destruct (nat_of_ascii y <? nat_of_ascii x)%nat; [reflexivity|]. now apply IH.
Qed.

Lemma str_le_anti : forall a b, str_le a b = true -> str_le b a = true -> a = b.
Proof.
  induction a as [|x a IH]; intros [|y b] E F; try discriminate; [reflexivity|].
  cbn [str_le] in *.
  destruct (nat_of_ascii x <? nat_of_ascii y)%nat eqn:E1;
  destruct (nat_of_ascii y <? nat_of_ascii x)%nat eqn:E2; try discriminate.
  - rewrite Nat.ltb_lt in *. lia.
  - rewrite Nat.ltb_ge in *. assert (nat_of_ascii x = nat_of_ascii y) as Z by lia.
    rewrite <- (ascii_nat_embedding x), <- (ascii_nat_embedding y), Z. f_equal. now apply IH.
Qed.

Lemma str_le_trans : forall a b c, str_le a b = true -> str_le b c = true -> str_le a c = true.
Proof.
  induction a as [|x a IH]; intros [|y b] [|z c] E F; try discriminate; [reflexivity..|].
  cbn [str_le] in *.
  destruct (nat_of_ascii x <? nat_of_ascii y)%nat eqn:E1;
  destruct (nat_of_ascii y <? nat_of_ascii x)%nat eqn:E2;
  destruct (nat_of_ascii y <? nat_of_ascii z)%nat eqn:E3;
  destruct (nat_of_ascii z <? nat_of_ascii y)%nat eqn:E4;
  destruct (nat_of_ascii x <? nat_of_ascii z)%nat eqn:E5;
  destruct (nat_of_ascii z <? nat_of_ascii x)%nat eqn:E6;
  rewrite ?Nat.ltb_lt, ?Nat.ltb_ge in *; try discriminate; try lia; try reflexivity.
  eapply IH; eassumption.
Qed.

Definition before (a b : str) : Prop := str_le a b = true /\ a <> b.

Lemma insert_perm : forall x l, Permutation (insert_by (fun r => r) x l) (x :: l).
Proof.
  intros x l. induction l as [|y l IH]; [reflexivity|]. cbn [insert_by].
  destruct (str_le x y); [reflexivity|]. rewrite IH. apply perm_swap.
Qed.

Lemma sort_perm : forall l, Permutation (sort_by (fun r => r) l) l.
Proof.
  induction l as [|x l IH]; [reflexivity|]. cbn [sort_by fold_right].
  rewrite insert_perm. now apply Permutation_cons.
Qed.

Notation le := (fun a b => str_le a b = true).

Lemma insert_sorted : forall x l, StronglySorted le l -> StronglySorted le (insert_by (fun r => r) x l).
Proof.
  intros x l S. induction S as [|y l S IH F]; [repeat constructor|]. cbn [insert_by].
  destruct (str_le x y) eqn:E.
  - constructor; [now constructor|]. constructor; [exact E|].
    eapply Forall_impl; [|exact F]. intros z Z. exact (str_le_trans _ _ _ E Z).
  - constructor; [exact IH|]. rewrite Forall_forall in *. intros z Z.
    apply (Permutation_in _ (insert_perm x l)) in Z. destruct Z as [<-|Z].
    + now apply str_le_total.
    + now apply F.
Qed.

Lemma sort_sorted : forall l, StronglySorted le (sort_by (fun r => r) l).
Proof.
  induction l as [|x l IH]; [constructor|]. cbn [sort_by fold_right]. now apply insert_sorted.
Qed.

Lemma sorted_unique : forall l m, StronglySorted le l -> StronglySorted le m ->
  Permutation l m -> l = m.
Proof.
  induction l as [|x l IH]; intros m Sl Sm P.
  - apply Permutation_nil in P. now subst.
  - destruct m as [|y m]; [apply Permutation_sym, Permutation_nil in P; discriminate|].
    inversion Sl as [|? ? Sl' Fl]; subst. inversion Sm as [|? ? Sm' Fm]; subst.
    rewrite Forall_forall in Fl, Fm.
    assert (x = y) as ->.
    { pose proof (Permutation_in x P (or_introl eq_refl)) as [X|X]; [now symmetry|].
      pose proof (Permutation_in y (Permutation_sym P) (or_introl eq_refl)) as [Y|Y]; [exact Y|].
      apply str_le_anti; [now apply Fl|now apply Fm]. }
    f_equal. apply IH; try assumption. now apply Permutation_cons_inv in P.
Qed.

Lemma before_sorted : forall l, StronglySorted before l -> StronglySorted le l /\ NoDup l.
Proof.
  intros l S. induction S as [|x l S [IH1 IH2] F]; [split; constructor|].
  split; constructor; try assumption.
  - eapply Forall_impl; [|exact F]. intros z [Z _]. exact Z.
  - intros I. rewrite Forall_forall in F. destruct (F _ I) as [_ Z]. now apply Z.
Qed.

Lemma dedup_NoDup : forall l, NoDup l -> dedup l = l.
Proof.
  intros l D. induction D as [|x l I D IH]; [reflexivity|]. cbn [dedup]. rewrite IH.
  destruct l as [|y l]; [reflexivity|].
  assert (seqb x y = false) as ->; [|reflexivity].
  apply seqb_false. intros ->. apply I. now left.
Qed.

Lemma roles_sorted : forall l m, Permutation l m -> StronglySorted before m ->
  dedup (sort_by (fun r => r) l) = m.
Proof.
  intros l m P S. destruct (before_sorted _ S) as [S1 S2].
  assert (sort_by (fun r => r) l = m) as ->.
  { apply sorted_unique; [apply sort_sorted|exact S1|]. now rewrite sort_perm. }
  now apply dedup_NoDup.
Qed.

(** ** All the roles *)

(** A role of the protocol: the type given to the checker, the name of the
    role, its sessions and its stack. *)
Record participant : Type := {
  as_given : ty;
  called : str;
  sessions_of : list ty;
  stack_of : ty
}.

Definition fields (p : participant) : list str :=
  map short (sessions_of p) ++ [short (stack_of p)].

(** The type given is, without its paths, the one of that role. *)
Definition given_as (N : list str) (p : participant) : Prop :=
  wordy (as_given p) /\ paths_apart (as_given p) /\
  exists mc a, plain N (as_given p)
                 (Node [] mc (sessions_of p ++ [stack_of p; Node [] (called p) a])).

Lemma upto_app : forall {A} (l m : list A), upto (length m) (l ++ m) = Ok l.
Proof.
  intros A l m. unfold upto. rewrite app_length.
  assert ((length m <=? length l + length m)%nat = true) as -> by (apply Nat.leb_le; lia).
  f_equal. replace (length l + length m - length m)%nat with (length l + 0)%nat by lia.
  rewrite firstn_app_2. cbn. now rewrite app_nil_r.
Qed.

Lemma clean_given : forall N p, names_fit N -> given_as N p ->
  exists t, clean_session (type_name (as_given p)) = Ok (fields p ++ [t; called p]).
Proof.
  intros N p F (W & A & mc & a & P).
  exists (short (Node [] (called p) a)). unfold type_name.
  change [stack_of p; Node [] (called p) a] with ([stack_of p] ++ [Node [] (called p) a]) in P.
  rewrite app_assoc in P. rewrite (clean_session_type N true _ mc _ (called p) a W A F P).
  unfold fields. rewrite !map_app. cbn [map]. rewrite <- !app_assoc. reflexivity.
Qed.

Lemma clean_all : forall N, names_fit N -> forall given all roles size n,
  Forall (given_as N) given -> Forall (fun p => length (fields p) = n) given ->
  clean_loop (map type_name (map as_given given)) all roles size =
  Ok (rev (map (fun p => (called p, fields p)) given) ++ all, roles ++ map called given,
      match given with [] => size | _ => n end).
Proof.
  intros N F given. induction given as [|p given IH]; intros all roles size n G L.
  - cbn. now rewrite app_nil_r.
  - inversion G as [|? ? G1 G2]; subst. inversion L as [|? ? L1 L2]; subst.
    cbn [map clean_loop]. destruct (clean_given N p F G1) as [t E]. rewrite E. cbn [bind].
    replace (rev (fields p ++ [t; called p])) with (called p :: t :: rev (fields p))
      by (rewrite rev_app_distr; reflexivity).
    cbv iota. rewrite (upto_app (fields p) [t; called p] : upto 2 _ = _). cbn [bind].
    rewrite (IH _ _ _ (length (fields p)) G2 L2).
    cbn [rev map]. rewrite <- !app_assoc. cbn [app].
    do 3 f_equal. rewrite app_length. cbn [length]. destruct given; [lia|reflexivity].
Qed.

Lemma hget_in : forall {A} (m : hmap A) k a, NoDup (map fst m) -> In (k, a) m -> hget m k = Some a.
Proof.
  intros A m k a. induction m as [|[k' a'] m IH]; intros D I; [contradiction|].
  cbn [map fst] in D. inversion D as [|? ? D1 D2]; subst. cbn [hget].
  destruct I as [X|I].
  - injection X as -> ->. now rewrite seqb_refl.
  - assert (seqb k' k = false) as ->; [|now apply IH].
    apply seqb_false. intros ->. apply D1. now apply in_map with (f := fst) in I.
Qed.

(** [P k a b c] along three lists. *)
Lemma all_graphs_ok : forall fuel roles sessions br bs gb ps (res : list (graph * list str)),
  Forall2 (fun p gm =>
    hget sessions (called p) = Some (fields p) /\
    get_graph_session fuel (called p) (fields p) roles br bs gb = Ok gm) ps res ->
  all_graphs fuel roles (map called ps) sessions br bs gb = Ok (combine (map called ps) res).
Proof.
  intros fuel roles sessions br bs gb ps res F. induction F as [|p gm ps res [H1 H2] F IH]; [reflexivity|].
  cbn [map all_graphs]. rewrite H1, H2. cbn [bind]. rewrite IH. reflexivity.
Qed.

Lemma plain_tidy : forall N t u, names_fit N -> wordy t -> plain N t u -> tidy u.
Proof.
  intros N t u F. revert u. induction t as [path name args IH] using ty_ind'.
  intros u W P. inversion P as [path' x I|path' name' args' us Nn F2]; subst.
  - assert (word (role_of x) /\ ~ named (role_of x)) as [W1 W2].
    { destruct F as [F _]. destruct (F x I) as (Nx & Ax & Mx). split.
      - unfold role_of. split; [discriminate|]. apply Forall_app. split.
        + repeat constructor; discriminate.
        + eapply Forall_impl; [|exact Ax]. intros c C. cbn beta in C.
          repeat split; try (intros ->; discriminate).
          destruct c as [[] [] [] [] [] [] [] []]; vm_compute in C |- *; congruence.
      - intros (c & C & a & b & E). apply Mx. exists c. split; [exact C|].
        unfold role_of in E.
        destruct a as [|a0 [|a1 [|a2 [|a3 a]]]]; cbn in E; try (injection E; intros; discriminate).
        injection E as _ _ _ _ E. now exists a, b. }
    unfold tidy. cbn [heads flat_map]. constructor; [|constructor; [|constructor]]; cbn [fst snd].
    + repeat split; try reflexivity; try apply W1; assumption.
    + repeat split; try discriminate.
      * repeat constructor; discriminate.
      * intros X. apply named_N in X. cbn in X. intuition discriminate.
  - unfold wordy in W. cbn [heads] in W. inversion W as [|? ? [_ W1] W2]; subst. cbn [fst snd] in W1.
    unfold tidy. cbn [heads]. constructor; [cbn [fst snd]; repeat split; try apply W1; assumption|].
    clear P W Nn W1. revert IH W2. induction F2 as [|a b l m P F2 IHl]; intros IH W2; [constructor|].
    cbn [flat_map] in *. apply Forall_app in W2. destruct W2 as [Wa Wl].
    inversion IH as [|? ? I1 I2]; subst. apply Forall_app. split.
    + exact (I1 b Wa P).
    + exact (IHl I2 Wl).
Qed.

Lemma given_tidy : forall N p, names_fit N -> given_as N p ->
  Forall tidy (sessions_of p) /\ tidy (stack_of p).
Proof.
  intros N p F (W & _ & mc & a & P). pose proof (plain_tidy _ _ _ F W P) as T.
  destruct (tidy_node _ _ _ T) as (_ & _ & _ & A). apply Forall_app in A.
  destruct A as [A B]. inversion B; subst. now split.
Qed.

Lemma choose_list : forall {A B} (R : nat -> A -> B -> nat -> Prop) (l : list A),
  (forall j a, nth_error l j = Some a -> exists b N, forall fuel, (N <= fuel)%nat -> R j a b fuel) ->
  exists bs N, length bs = length l /\
    forall j a b, nth_error l j = Some a -> nth_error bs j = Some b ->
    forall fuel, (N <= fuel)%nat -> R j a b fuel.
Proof.
  intros A B R l. revert R. induction l as [|a l IH]; intros R H.
  - exists [], 0%nat. split; [reflexivity|]. intros [|j] a b E; discriminate.
  - destruct (H 0%nat a eq_refl) as (b & N & Hb).
    destruct (IH (fun j => R (S j))) as (bs & M & L & Hl).
    { intros j a' E. apply (H (S j) a' E). }
    exists (b :: bs), (N + M)%nat. split; [cbn; lia|].
    intros [|j] a' b' E1 E2 fuel F; cbn in E1, E2.
    + injection E1 as <-. injection E2 as <-. apply Hb. lia.
    + apply (Hl j a' b' E1 E2). lia.
Qed.

Lemma Forall2_nth_error : forall {A B} (R : A -> B -> Prop) l m, length l = length m ->
  (forall j a b, nth_error l j = Some a -> nth_error m j = Some b -> R a b) -> Forall2 R l m.
Proof.
  intros A B R l. induction l as [|a l IH]; intros [|b m] L H; try discriminate; constructor.
  - exact (H 0%nat a b eq_refl eq_refl).
  - apply IH; [now injection L|]. intros j. exact (H (S j)).
Qed.

(** What the checker must find about a role. *)
Definition found_for (roles : list str) (me : nat) (p : participant)
    (g : graph) (M : list (nat * label * nat)) : Prop :=
  (forall l, graph_does g l <->
     exists tr, does roles me (sessions_of p) (stack_of p) tr /\
                l = map (edge_text (called p) roles) tr) /\
  (forall tr, walk M 0 tr <->
     does roles me (sessions_of p) (stack_of p) tr /\ ~ In Finish tr).

Theorem checker_all : forall N given ps,
  names_fit N -> Permutation given ps ->
  StronglySorted before (map called ps) ->
  Forall (given_as N) ps ->
  (forall me p, nth_error ps me = Some p ->
     local_type (map called ps) me (fun _ => True) (sessions_of p) (stack_of p)) ->
  exists out fuel0, length out = length ps /\
    (forall fuel with_file kmc, (fuel0 <= fuel)%nat ->
       checker fuel with_file (map type_name (map as_given given)) [] [] [] kmc =
       Ok (combine (map called ps) (map fst out),
           if with_file
           then flat_map (fun e => machine_text (fst e) (snd (snd e)) ++ [[]])
                  (combine (map called ps) out)
           else [],
           if with_file then kmc_bound kmc else Some None)) /\
    (forall me p g M, nth_error ps me = Some p -> nth_error out me = Some (g, M) ->
       found_for (map called ps) me p g M).
Proof.
  intros N given ps F P S G L. set (roles := map called ps) in *.
  destruct (before_sorted _ S) as [_ D].
  destruct (choose_list (fun me p (gm : graph * list (nat * label * nat)) fuel =>
      get_graph_session fuel (called p) (fields p) roles [] [] [] =
        Ok (fst gm, machine_text (called p) (snd gm)) /\
      found_for roles me p (fst gm) (snd gm)) ps) as (out & N0 & Lo & Ho).
  { intros me p E. rewrite Forall_forall in G.
    destruct (given_tidy N p F (G p (nth_error_In _ _ E))) as [T1 T2].
    destruct (graph_session (called p) roles me [] [] [] (sessions_of p) (stack_of p))
      as (g & M & N0 & H1 & H2 & H3); try assumption.
    - unfold roles. now rewrite nth_error_map, E.
    - pose proof (L me p E) as Lt. clear -Lt. induction Lt.
      + now apply lt_end.
      + eapply lt_send; eassumption.
      + eapply lt_recv; try eassumption. reflexivity.
      + eapply lt_offer; eassumption.
      + eapply lt_choose; eassumption.
    - exists (g, M), N0. intros fuel Hf. split; [now apply H1|now split]. }
  exists out, N0. split; [exact Lo|]. split.
  - intros fuel with_file kmc Hf. unfold checker, clean_sessions.
    rewrite (clean_all N F given [] [] 0 (length ps)).
    2:{ now rewrite P. }
    2:{ rewrite P. apply Forall_forall. intros p I. apply In_nth_error in I. destruct I as [me E].
        pose proof (local_length _ _ _ _ _ (L me p E)) as Z. unfold fields.
        rewrite app_length, map_length. cbn [length]. unfold roles in Z. rewrite map_length in Z. lia. }
    cbn [bind app].
    assert (length (map called given) =? match given with [] => 0 | _ => length ps end = true)%nat as ->.
    { rewrite map_length, (Permutation_length P). apply Nat.eqb_eq.
      destruct given; [|reflexivity]. apply Permutation_nil in P. now subst. }
    cbn [negb bind]. rewrite app_nil_r.
    rewrite (roles_sorted (map called given) roles); [|now apply Permutation_map|exact S].
    cbn [hmapM bind].
    rewrite (all_graphs_ok fuel roles _ [] [] [] ps
               (map (fun e => (fst (snd e), machine_text (fst e) (snd (snd e)))) (combine roles out))).
    + cbn [bind]. fold roles.
      assert (forall rs (o : list (graph * list (nat * label * nat))),
        combine rs (map (fun e => (fst (snd e), machine_text (fst e) (snd (snd e)))) (combine rs o)) =
        map (fun e => (fst e, (fst (snd e), machine_text (fst e) (snd (snd e))))) (combine rs o)) as C1.
      { induction rs as [|r rs IH]; intros [|o os]; [reflexivity..|]. cbn [combine map fst snd].
        f_equal. apply IH. }
      assert (forall (rs : list str) (o : list (graph * list (nat * label * nat))),
        map (fun e => (fst e, fst (snd e))) (combine rs o) = combine rs (map fst o)) as C2.
      { induction rs as [|r rs IH]; intros [|o os]; [reflexivity..|]. cbn [combine map fst snd].
        f_equal. apply IH. }
      rewrite C1, map_map. cbn [fst snd]. rewrite C2.
      destruct with_file; [|reflexivity]. do 3 f_equal.
      rewrite !flat_map_concat_map, map_map. reflexivity.
    + apply Forall2_nth_error.
      { rewrite map_length, combine_length. unfold roles. rewrite map_length. lia. }
      intros me p gm E1 E2.
      assert (nth_error roles me = Some (called p)) as Er by (unfold roles; now rewrite nth_error_map, E1).
      destruct (nth_error out me) as [o|] eqn:Eo.
      2:{ apply nth_error_None in Eo.
          assert (me < length ps)%nat by (apply nth_error_Some; rewrite E1; discriminate). lia. }
      assert (nth_error (combine roles out) me = Some (called p, o)) as Ec.
      { clear -Er Eo. revert out me Er Eo. generalize roles. intros rs.
        induction rs as [|r rs IH]; intros [|o' os] [|me] Er Eo; try discriminate; cbn in *.
        - congruence.
        - now apply IH. }
      rewrite nth_error_map, Ec in E2. cbn in E2. injection E2 as <-. split.
      * apply hget_in.
        -- rewrite map_rev, map_map. cbn [fst]. apply (Permutation_NoDup (l := roles)); [|exact D].
           rewrite <- Permutation_rev. unfold roles. apply Permutation_map. now symmetry.
        -- rewrite <- in_rev. apply in_map_iff. exists p. split; [reflexivity|].
           apply (Permutation_in p (Permutation_sym P)). eapply nth_error_In, E1.
      * exact (proj1 (Ho me p o E1 Eo fuel Hf)).
  - intros me p g M E1 E2. exact (proj2 (Ho me p (g, M) E1 E2 N0 (Nat.le_refl _))).
Qed.
