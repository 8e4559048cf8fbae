(** * From the trees to the file *)

From Coq Require Import Ascii String ZArith Bool Lia Permutation List.
From Verif Require Import Checker CheckerText CheckerAll Nuscr NuscrSpec NuscrMaps NuscrTree NuscrRun.
Import ListNotations.

Section Title.
  Variable title : str -> str.
  Notation holds := (holds title).

  (** The declarations of a pair of roles, of the stack of a role. *)
  Definition session_tail (ix a b : str) (ch : option (str * str)) (k : nat) : list decl :=
    [(message_name ix k a b,
      match ch with
      | Some (cx, s) =>
          if seqb a s then choice_decl cx true s b
          else if seqb b s then choice_decl cx false s a
          else Alias (lit "End")
      | None => Alias (lit "End")
      end)].
  Definition session_block (ix : str) (ms : list msg) (ch : option (str * str)) (a b : str) : list decl :=
    number_messages title ix 0 a b (proj a b ms) ++ session_tail ix a b ch (length (proj a b ms)).
  Definition stack_tail (ix a : str) (ch : option (str * str)) (k : nat) : list decl :=
    [(ordering_name ix k a,
      match ch with
      | Some (_, s) => if seqb a s then Broadcast else RoleOf s (lit "RoleEnd")
      | None => Alias (lit "RoleEnd")
      end)].
  Definition stack_block (ix : str) (ms : list msg) (ch : option (str * str)) (a : str) : list decl :=
    number_stacks ix 0 a (partners a ms) ++ stack_tail ix a ch (length (partners a ms)).

  Lemma session_block_eq ix ms ch a b :
    Dof title ix ms ch a b ++
    match Lof ix ms ch a b with [] => [] | _ => [(Lof ix ms ch a b, Alias (lit "End"))] end =
    session_block ix ms ch a b.
  Proof.
    unfold Dof, Lof, session_block, session_tail.
    destruct ch as [[cx s]|]; [destruct (seqb a s); [|destruct (seqb b s)]|];
      rewrite ?app_nil_r; reflexivity.
  Qed.
  Lemma stack_block_eq ix ms ch a :
    Kof ix ms ch a ++
    match KLof ix ms ch a with [] => [] | _ => [(KLof ix ms ch a, Alias (lit "RoleEnd"))] end =
    stack_block ix ms ch a.
  Proof.
    unfold Kof, KLof, stack_block, stack_tail. destruct ch as [[cx s]|]; rewrite ?app_nil_r; reflexivity.
  Qed.

  Lemma tree_sessions_eq ix o i ms ch t :
    holds ix o i ms ch t ->
    tree_sessions t =
      Fine (flat_map (fun a => flat_map (session_block (index_text ix) ms ch a) (others a i)) o).
  Proof.
    intros [[] _ _]. unfold tree_sessions. rewrite sh_messages. unfold tab2 at 1. unfold tab at 1.
    assert (forall o', incl o' o ->
      fold_right (fun e acc =>
        let* acc0 := acc in
        let* here := fold_right (fun (c : str * list decl) acc2 =>
          let* acc3 := acc2 in
          let* lasts := unwrap (hget (last_message t) (fst e)) in
          let* lst := unwrap (hget lasts (fst c)) in
          Fine (snd c ++ (match lst with [] => [] | _ => [(lst, Alias (lit "End"))] end) ++ acc3))
          (Fine []) (snd e) in
        Fine (here ++ acc0)) (Fine [])
        (map (fun a => (a, tab (others a i) (Dof title (index_text ix) ms ch a))) o') =
      Fine (flat_map (fun a => flat_map (session_block (index_text ix) ms ch a) (others a i)) o')) as H.
    { induction o' as [|a o' IH]; intros Hin; [reflexivity|]. cbn [map fold_right].
      rewrite IH by (intros x Hx; apply Hin; now right). cbn [gbind].
      assert (In a o) as Ha by (apply Hin; now left).
      rewrite sh_last. cbn [fst snd]. unfold tab2. rewrite hget_tab by easy. cbn [unwrap gbind].
      assert (forall l, incl l (others a i) ->
        fold_right (fun (c : str * list decl) acc2 =>
          let* acc3 := acc2 in
          let* lst := unwrap (hget (tab (others a i) (Lof (index_text ix) ms ch a)) (fst c)) in
          Fine (snd c ++ (match lst with [] => [] | _ => [(lst, Alias (lit "End"))] end) ++ acc3))
          (Fine []) (tab l (Dof title (index_text ix) ms ch a)) =
        Fine (flat_map (session_block (index_text ix) ms ch a) l)) as Hl.
      { induction l as [|b l IHl]; intros Hlin; [reflexivity|].
        assert (In b (others a i)) as Hb by (apply Hlin; now left).
        unfold tab at 2. cbn [map fold_right fst snd]. fold (tab l (Dof title (index_text ix) ms ch a)).
        rewrite IHl by (intros x Hx; apply Hlin; now right). cbn [gbind].
        rewrite hget_tab by exact Hb. cbn [unwrap gbind flat_map]. f_equal.
        rewrite app_assoc.
        exact (f_equal (fun z => z ++ flat_map (session_block (index_text ix) ms ch a) l)
                 (session_block_eq (index_text ix) ms ch a b)). }
      rewrite Hl by apply incl_refl. reflexivity. }
    apply H, incl_refl.
  Qed.

  Lemma tree_stacks_eq ix o i ms ch t :
    holds ix o i ms ch t ->
    tree_stacks t = Fine (flat_map (stack_block (index_text ix) ms ch) o).
  Proof.
    intros [[] _ _]. unfold tree_stacks. rewrite sh_stacks, sh_last_stack. unfold tab at 2.
    assert (forall o', incl o' o ->
      fold_right (fun (e : str * list decl) acc =>
        let* acc0 := acc in
        let* lst := unwrap (hget (tab o (KLof (index_text ix) ms ch)) (fst e)) in
        Fine (snd e ++ (match lst with [] => [] | _ => [(lst, Alias (lit "RoleEnd"))] end) ++ acc0))
        (Fine []) (map (fun a => (a, Kof (index_text ix) ms ch a)) o') =
      Fine (flat_map (stack_block (index_text ix) ms ch) o')) as H.
    { induction o' as [|a o' IH]; intros Hin; [reflexivity|].
      assert (In a o) as Ha by (apply Hin; now left).
      cbn [map fold_right fst snd]. rewrite IH by (intros x Hx; apply Hin; now right). cbn [gbind].
      rewrite hget_tab by exact Ha. cbn [unwrap gbind flat_map]. f_equal. rewrite app_assoc.
      exact (f_equal (fun z => z ++ flat_map (stack_block (index_text ix) ms ch) o')
               (stack_block_eq (index_text ix) ms ch a)). }
    apply H, incl_refl.
  Qed.

  Lemma tree_endpoints_eq ix o i ms ch t :
    (forall a, In a o <-> In a i) -> holds ix o i ms ch t ->
    tree_endpoints i t =
      Fine (map (fun r => Endpoint (endpoint_name (index_text ix) r)
        (map (message_name (index_text ix) 0 r) (others r i)) (ordering_name (index_text ix) 0 r) r) i).
  Proof.
    intros Hoi [[] _ _]. unfold tree_endpoints. rewrite sh_endpoints, sh_first, sh_first_stack.
    assert (forall l, incl l i ->
      fold_right (fun r acc =>
        let* acc0 := acc in
        let* names := unwrap (hget (tab o (fun r => [endpoint_name (index_text ix) r])) r) in
        let* firsts := unwrap (hget (tab2 o i (message_name (index_text ix) 0)) r) in
        let* stack := unwrap (hget (tab o (ordering_name (index_text ix) 0)) r) in
        let* fields := fold_right (fun o0 acc2 =>
          let* acc3 := acc2 in let* f := unwrap (hget firsts o0) in Fine (f :: acc3))
          (Fine []) (filter (fun o0 => negb (seqb o0 r)) i) in
        Fine (map (fun n => Endpoint n fields stack r) names ++ acc0)) (Fine []) l =
      Fine (map (fun r => Endpoint (endpoint_name (index_text ix) r)
        (map (message_name (index_text ix) 0 r) (others r i)) (ordering_name (index_text ix) 0 r) r) l)) as H.
    { induction l as [|r l IH]; intros Hin; [reflexivity|].
      assert (In r o) as Hr by (apply Hoi, Hin; now left).
      cbn [fold_right]. rewrite IH by (intros x Hx; apply Hin; now right). cbn [gbind].
      unfold tab2. rewrite !hget_tab by exact Hr. cbn [unwrap gbind].
      fold (others r i).
      assert (forall l', incl l' (others r i) ->
        fold_right (fun o0 acc2 =>
          let* acc3 := acc2 in
          let* f := unwrap (hget (tab (others r i) (message_name (index_text ix) 0 r)) o0) in
          Fine (f :: acc3)) (Fine []) l' = Fine (map (message_name (index_text ix) 0 r) l')) as Hl.
      { induction l' as [|b l' IHl]; intros Hlin; [reflexivity|].
        cbn [fold_right]. rewrite IHl by (intros x Hx; apply Hlin; now right). cbn [gbind].
        now rewrite hget_tab by (apply Hlin; now left). }
      rewrite Hl by apply incl_refl. reflexivity. }
    apply H, incl_refl.
  Qed.

  (** ** Reading the declarations *)

  Lemma block_session env ix cx a b ms ch : forall k,
    cx = lit "0" ->
    incl (number_messages title ix k a b (proj a b ms) ++
          session_tail ix a b (option_map (fun s => (cx, s)) ch) (k + length (proj a b ms))) env ->
    session_is env (message_name ix k a b) (wanted_session title a b ms ch).
  Proof.
    intros k ->. revert k. induction ms as [|m ms IH]; intros k H.
    - cbn [proj flat_map number_messages app length] in H. rewrite Nat.add_0_r in H.
      assert (In (hd (message_name ix k a b, Broadcast)
        (session_tail ix a b (option_map (fun s => (lit "0", s)) ch) k)) env) as Hin.
      { apply H. now left. }
      unfold session_tail in Hin. cbn [hd wanted_session option_map] in *.
      destruct ch as [s|]; cbn [option_map] in Hin.
      + destruct (seqb a s).
        * eapply si_timed; [exact Hin|constructor].
        * destruct (seqb b s).
          -- eapply si_timed; [exact Hin|constructor].
          -- eapply si_alias; [exact Hin|constructor].
      + eapply si_alias; [exact Hin|constructor].
    - cbn [wanted_session]. cbn [proj flat_map] in H. fold (proj a b ms) in H.
      destruct (seqb (sender m) a && seqb (receiver m) b).
      + cbn [app number_messages length] in H. eapply si_timed.
        * apply H. left. reflexivity.
        * apply IH. intros x Hx. apply H. right. rewrite <- Nat.add_succ_comm. exact Hx.
      + destruct (seqb (sender m) b && seqb (receiver m) a).
        * cbn [app number_messages length] in H. eapply si_timed.
          -- apply H. left. reflexivity.
          -- apply IH. intros x Hx. apply H. right. rewrite <- Nat.add_succ_comm. exact Hx.
        * cbn [app] in H. now apply IH.
  Qed.

  Lemma block_stack env ix cx a ms ch : forall k,
    incl (number_stacks ix k a (partners a ms) ++
          stack_tail ix a (option_map (fun s => (cx, s)) ch) (k + length (partners a ms))) env ->
    stack_is env (ordering_name ix k a) (wanted_stack a ms ch).
  Proof.
    induction ms as [|m ms IH]; intros k H.
    - cbn [partners flat_map number_stacks app length] in H. rewrite Nat.add_0_r in H.
      assert (In (hd (ordering_name ix k a, Broadcast)
        (stack_tail ix a (option_map (fun s => (cx, s)) ch) k)) env) as Hin.
      { apply H. now left. }
      unfold stack_tail in Hin. cbn [hd wanted_stack option_map] in *.
      destruct ch as [s|]; cbn [option_map] in Hin.
      + destruct (seqb a s).
        * now apply ki_broadcast.
        * eapply ki_role; [exact Hin|constructor].
      + eapply ki_alias; [exact Hin|constructor].
    - cbn [wanted_stack]. cbn [partners flat_map] in H. fold (partners a ms) in H.
      destruct (seqb (sender m) a).
      + cbn [app number_stacks length] in H. eapply ki_role.
        * apply H. left. reflexivity.
        * apply IH. intros x Hx. apply H. right. rewrite <- Nat.add_succ_comm. exact Hx.
      + destruct (seqb (receiver m) a).
        * cbn [app number_stacks length] in H. eapply ki_role.
          -- apply H. left. reflexivity.
          -- apply IH. intros x Hx. apply H. right. rewrite <- Nat.add_succ_comm. exact Hx.
        * cbn [app] in H. now apply IH.
  Qed.

  (** ** The file *)

  (** The parts of a protocol, in the order of the file. *)
  Definition parts (p : proto) : list (option nat) :=
    None :: match ending p with
            | Some (_, _, bs) => rev (map Some (seq 0 (S (length bs))))
            | None => []
            end.
  Definition part_index (i : option nat) : list nat :=
    match i with None => [0%nat] | Some i => [0%nat; i] end.
  Definition choice_of (c : option str) : option (str * str) := option_map (fun s => (lit "0", s)) c.

  Lemma parts_ok p i : In i (parts p) <-> part p i.
  Proof.
    unfold parts, part. destruct i as [i|]; [|split; [easy|now left]].
    destruct (ending p) as [[[s b] bs]|].
    - cbn [In]. rewrite <- in_rev, in_map_iff. split.
      + intros [H|(j & [= ->] & H)]; [discriminate|]. apply in_seq in H. lia.
      + intros H. right. exists i. split; [easy|]. apply in_seq. lia.
    - cbn [In]. split; [intros [H|[]]; discriminate|easy].
  Qed.

  Lemma part_text_index i : index_text (part_index i) = part_text i.
  Proof. destruct i; reflexivity. Qed.

  (** The trees, one for each part. *)
  Definition order_of (p : proto) (i : option nat) : list str :=
    match i with None => p_roles p | Some _ => sort_by (fun r => r) (p_roles p) end.

  Lemma sub_no_trees t : sub_trees t = [] -> all_trees t = [t].
  Proof. destruct t. cbn. now intros ->. Qed.

  Lemma parsed_trees p g main subs :
    parsed title p g main subs ->
    exists ts, all_trees main = ts /\
      Forall2 (fun i t => holds (part_index i) (order_of p i) (sort_by (fun r => r) (p_roles p))
                 (part_messages p i) (choice_of (part_choice p i)) t /\
                 (i <> None -> sub_trees t = [])) (parts p) ts /\
      nth_error ts 0 = Some main.
  Proof.
    intros [H1 H2 H3 H4 H5 H6 H7 H8].
    assert (all_trees main = main :: flat_map all_trees subs) as Hall.
    { destruct main. cbn in H4. subst sub_trees. reflexivity. }
    exists (all_trees main). split; [easy|]. rewrite Hall. split; [|easy].
    unfold parts. constructor.
    - split; [|easy]. cbn [part_index order_of part_messages].
      assert (choice_of (part_choice p None) = start_choice p) as ->.
      { unfold choice_of, part_choice, start_choice. now destruct (ending p) as [[[? ?] ?]|]. }
      exact H3.
    - destruct (ending p) as [[[s b] bs]|] eqn:Ee.
      + destruct H6 as (t & ts & -> & Hlen & Hb & Hbs).
        assert (flat_map all_trees (rev ts ++ [t]) = rev (t :: ts)) as ->.
        { cbn [rev]. rewrite flat_map_app. cbn [flat_map].
          rewrite (sub_no_trees t) by apply Hb. f_equal.
          assert (forall x, In x (rev ts) -> sub_trees x = []) as Hx.
          { intros x Hx. apply in_rev in Hx. apply In_nth_error in Hx as [j Hj].
            assert (exists b', nth_error bs j = Some b') as [b' Hb'].
            { destruct (nth_error bs j) eqn:E; [eauto|].
              apply nth_error_None in E. assert (nth_error ts j <> None) as Q by congruence.
              apply nth_error_Some in Q. lia. }
            eapply Hbs; eauto. }
          clear - Hx. revert Hx. induction (rev ts) as [|x l IH]; intros Hx; [reflexivity|]. cbn [flat_map].
          rewrite (sub_no_trees x) by (apply Hx; now left). cbn. f_equal. apply IH.
          intros y Hy. apply Hx. now right. }
        assert (forall j t', nth_error (t :: ts) j = Some t' ->
          holds [0%nat; j] (sort_by (fun r => r) (p_roles p)) (sort_by (fun r => r) (p_roles p))
            (part_messages p (Some j)) (choice_of (part_choice p (Some j))) t' /\ sub_trees t' = []) as Hj.
        { intros j t' Ht.
          assert (exists b', nth_error (b :: bs) j = Some b' /\
            sub_ok title (sort_by (fun r => r) (p_roles p)) (loop p) (inside p) s j b' t')
            as (b' & Hb' & [Hs1 Hs2]).
          { destruct j as [|j]; cbn [nth_error] in Ht |- *.
            - injection Ht as <-. eauto.
            - destruct (nth_error bs j) as [b'|] eqn:E; [eauto|].
              apply nth_error_None in E. assert (nth_error ts j <> None) as Q by congruence.
              apply nth_error_Some in Q. lia. }
          split; [|easy].
          unfold part_messages, part_choice. rewrite Ee, Hb'.
          unfold branch_messages, branch_choice in Hs1.
          destruct (loop p) as [x|]; [destruct (again b')|]; exact Hs1. }
        assert (length (t :: ts) = S (length bs)) as Hl by (cbn; congruence).
        rewrite <- Hl. clear - Hj. revert Hj. generalize (t :: ts) as l. intros l Hj.
        induction l as [|x l IH] using rev_ind; [constructor|].
        rewrite app_length, Nat.add_1_r, seq_S, Nat.add_0_l, map_app, !rev_app_distr. cbn [map rev app].
        constructor.
        * cbn [part_index order_of]. destruct (Hj (length l) x) as [Q1 Q2]; [|easy].
          rewrite nth_error_app2, Nat.sub_diag by lia. reflexivity.
        * apply IH. intros j t' Ht. apply Hj. rewrite nth_error_app1; [easy|].
          apply nth_error_Some. congruence.
      + rewrite H6. constructor.
  Qed.

  Lemma collect_fine {A B} (f : A -> gres (list B)) (F : A -> list B) l :
    (forall a, In a l -> f a = Fine (F a)) -> collect f l = Fine (flat_map F l).
  Proof.
    induction l as [|a l IH]; intros H; [reflexivity|]. cbn [collect flat_map].
    rewrite H by now left. cbn [gbind]. now rewrite IH by (intros x Hx; apply H; now right).
  Qed.
  Lemma collect_forall2 {I A B} (R : I -> A -> Prop) (f : A -> gres (list B)) (F : I -> list B) is l :
    (forall i a, R i a -> f a = Fine (F i)) -> Forall2 R is l -> collect f l = Fine (flat_map F is).
  Proof.
    intros H Q. induction Q as [|i a is l Hia Q IH]; [reflexivity|]. cbn [collect flat_map].
    rewrite (H _ _ Hia). cbn [gbind]. now rewrite IH.
  Qed.

  (** The declarations of a part. *)
  Definition part_sessions (p : proto) (i : option nat) : list decl :=
    flat_map (fun a => flat_map (session_block (part_text i) (part_messages p i)
                                   (choice_of (part_choice p i)) a)
                         (others a (sort_by (fun r => r) (p_roles p)))) (order_of p i).
  Definition part_stacks (p : proto) (i : option nat) : list decl :=
    flat_map (stack_block (part_text i) (part_messages p i) (choice_of (part_choice p i))) (order_of p i).
  Definition part_endpoints (p : proto) (i : option nat) : list endpoint :=
    map (fun r => Endpoint (endpoint_name (part_text i) r)
          (map (message_name (part_text i) 0 r) (others r (sort_by (fun r => r) (p_roles p))))
          (ordering_name (part_text i) 0 r) r) (sort_by (fun r => r) (p_roles p)).

  Record written (p : proto) (f : rust_file) : Prop := Written {
    wr_roles : meshed_roles f = sort_by (fun r => r) (p_roles p);
    wr_types : types f = flat_map (part_sessions p) (parts p) ++ flat_map (part_stacks p) (parts p);
    wr_endpoints : endpoint_types f = flat_map (part_endpoints p) (parts p);
    wr_enums : enum_types f =
      match ending p with
      | Some (s, _, bs) =>
          flat_map (fun r => if negb (seqb r s) then
            [(choice_name (lit "0") s r,
              map (fun i => endpoint_name (lit "0_" ++ num i) r) (seq 0 (S (length bs))))] else [])
            (sort_by (fun r => r) (p_roles p))
      | None => []
      end;
    wr_roles_ok : forall i, part p i ->
      Forall (fun m => In (sender m) (p_roles p) /\ In (receiver m) (p_roles p) /\ sender m <> receiver m)
        (part_messages p i);
    wr_clock_tests : forall i, part p i -> exists prev, clock_tests [] (part_messages p i) = Fine prev;
    wr_clocks : forall i m x, part p i -> In m (part_messages p i) -> In x (functions f) ->
      let '(r, _, _, _, cs) := x in r = sender m \/ r = receiver m -> In (clock m) cs;
    wr_choice : match ending p with Some (s, _, _) => In s (p_roles p) | None => True end;
    wr_functions : map (fun x : str * list nat * nat * str * list str => fst x) (functions f) =
      flat_map (fun i => flat_map (fun r =>
        map (fun b => (r, part_index i, b, endpoint_name (part_text i) r)) (seq 0 (S (last (part_index i) 0%nat))))
        (sort_by (fun r => r) (p_roles p))) (parts p)
  }.

  Lemma tree_functions_clocks g t l x :
    tree_functions g t = Fine l -> In x l ->
    let '(r, _, _, _, cs) := x in cs = match hget (clocks g) r with Some c => c | None => [] end.
  Proof.
    unfold tree_functions. destruct (rev (index t)) as [|br up]; [discriminate|].
    revert l. induction (roles g) as [|r rs IH]; intros l H Hx; cbn [fold_right] in H.
    - injection H as <-. easy.
    - apply gbind_fine in H as (acc & E & H). apply gbind_fine in H as (names & E1 & H).
      apply gbind_fine in H as (first & E2 & H). injection H as <-.
      change (In x (map (fun b => (r, index t, b, first,
        match hget (clocks g) r with Some c => c | None => [] end)) (seq 0 (S br)) ++ acc)) in Hx.
      apply in_app_iff in Hx as [Hx|Hx]; [|exact (IH acc E Hx)].
      change (In x (map (fun b => (r, index t, b, first,
        match hget (clocks g) r with Some c => c | None => [] end)) (seq 0 (S br)))) in Hx.
      apply in_map_iff in Hx as (b & <- & _). reflexivity.
  Qed.
  Lemma tree_functions_eq g ix o i ms ch t l :
    (forall a, In a o <-> In a i) -> holds ix o i ms ch t -> roles g = i ->
    tree_functions g t = Fine l ->
    map (fun x : str * list nat * nat * str * list str => fst x) l =
    flat_map (fun r => map (fun b => (r, ix, b, endpoint_name (index_text ix) r)) (seq 0 (S (last ix 0%nat)))) i.
  Proof.
    intros Hoi [[] _ _] Hi. unfold tree_functions. rewrite sh_endpoints, sh_index, Hi.
    destruct (rev ix) as [|br up] eqn:Er; [discriminate|].
    assert (last ix 0%nat = br) as ->.
    { rewrite <- (rev_involutive ix), Er. cbn [rev]. apply last_last. }
    assert (forall j, incl j i -> forall l,
      fold_right (fun r acc =>
          let* acc := acc in
          let* names := unwrap (hget (tab o (fun r => [endpoint_name (index_text ix) r])) r) in
          let* first := unwrap (nth_error names 0) in
          Fine (map (fun b => (r, ix, b, first,
                               match hget (clocks g) r with Some c => c | None => [] end))
                  (seq 0 (S br)) ++ acc)) (Fine []) j = Fine l ->
      map (fun x : str * list nat * nat * str * list str => fst x) l =
      flat_map (fun r => map (fun b => (r, ix, b, endpoint_name (index_text ix) r)) (seq 0 (S br))) j) as K.
    { induction j as [|r j IH]; intros Hj l0 H; cbn [fold_right] in H.
      - injection H as <-. reflexivity.
      - apply gbind_fine in H as (acc & E & H). rewrite hget_tab in H by (apply Hoi, Hj; now left).
        cbn [unwrap gbind nth_error] in H. injection H as <-.
        cbn [flat_map]. rewrite <- (IH (fun x Hx => Hj x (or_intror Hx)) acc E).
        change (map (fun x : str * list nat * nat * str * list str => fst x)
          (map (fun b => (r, ix, b, endpoint_name (index_text ix) r,
            match hget (clocks g) r with Some c => c | None => [] end)) (seq 0 (S br)) ++ acc) = 
          map (fun b => (r, ix, b, endpoint_name (index_text ix) r)) (seq 0 (S br)) ++
          map (fun x : str * list nat * nat * str * list str => fst x) acc).
        rewrite map_app, map_map. reflexivity. }
    apply K, incl_refl.
  Qed.
  Lemma collect_map {I A B C} (R : I -> A -> Prop) (f : A -> gres (list B)) (h : B -> C) (F : I -> list C) js l r :
    (forall i a b, R i a -> f a = Fine b -> map h b = F i) -> Forall2 R js l -> collect f l = Fine r ->
    map h r = flat_map F js.
  Proof.
    intros H Q. revert r. induction Q as [|i a js l Hia Q IH]; intros r E; cbn [collect flat_map] in *.
    - injection E as <-. reflexivity.
    - apply gbind_fine in E as (b & E1 & E). apply gbind_fine in E as (r' & E2 & E). injection E as <-.
      now rewrite map_app, (H _ _ _ Hia E1), (IH _ E2).
  Qed.
  Lemma collect_in {A B} (f : A -> gres (list B)) l r x :
    collect f l = Fine r -> In x r -> exists a b, In a l /\ f a = Fine b /\ In x b.
  Proof.
    revert r. induction l as [|a l IH]; intros r H Hx; cbn [collect] in H.
    - injection H as <-. easy.
    - apply gbind_fine in H as (b & E & H). apply gbind_fine in H as (r' & E' & H). injection H as <-.
      apply in_app_iff in Hx as [Hx|Hx].
      + exists a, b. split; [now left|auto].
      + destruct (IH _ E' Hx) as (a' & b' & H1 & H2). exists a', b'. split; [now right|auto].
  Qed.

  Lemma forall2_in {A B} (R : A -> B -> Prop) l l' a : Forall2 R l l' -> In a l -> exists b, R a b.
  Proof. induction 1 as [|x y l l' H F IH]; [easy|]. intros [->|Hin]; eauto. Qed.

  Lemma part_clocked p i m cs :
    clocked cs (before p ++ inside p ++
      match ending p with
      | Some (_, b, bs) => flat_map (branch_messages (loop p) (inside p)) (b :: bs)
      | None => []
      end) ->
    In m (part_messages p i) -> clock_of cs (sender m) (clock m) /\ clock_of cs (receiver m) (clock m).
  Proof.
    intros H Hm. unfold clocked in H. rewrite Forall_forall in H. apply H.
    rewrite !in_app_iff. unfold part_messages in Hm. destruct i as [i|].
    - destruct (ending p) as [[[s b] bs]|]; [|easy]. destruct (nth_error (b :: bs) i) as [b'|] eqn:E; [|easy].
      right. right. apply in_flat_map. exists b'. split; [now apply nth_error_In in E|].
      unfold branch_messages. exact Hm.
    - apply in_app_iff in Hm. tauto.
  Qed.

  Theorem generator_written lt name p lines f :
    proto_as lt name p lines -> NoDup (p_roles p) -> p_roles p <> [] ->
    generator title lines = Fine f -> written p f.
  Proof.
    intros Hlines Nr Hne H. unfold generator in H.
    apply gbind_fine in H as (res & E & H).
    apply (run_proto title lt name p lines) in E as (n' & rest' & g & parent & main & off & subs & -> & Hoc & Hp); auto.
    rewrite Hoc, Nat.eqb_refl in H. cbn [negb] in H.
    destruct (parsed_trees p g main subs Hp) as (ts & Hts & Hall & Hmain).
    assert (forall a, In a (p_roles p) <-> In a (sort_by (fun r => r) (p_roles p))) as Hoi
      by (intros a; apply sort_in).
    destruct Hp as [P1 P2 P3 P4 P5 P6 P7 P8]. rewrite P1 in H. cbn [negb] in H. rewrite Hts, P2 in H.
    rewrite (collect_forall2 _ tree_sessions (part_sessions p) _ _ (fun i t Hit =>
      eq_trans (tree_sessions_eq _ _ _ _ _ _ (proj1 Hit))
        (f_equal (fun z => Fine (flat_map (fun a => flat_map
           (session_block z (part_messages p i) (choice_of (part_choice p i)) a)
           (others a (sort_by (fun r => r) (p_roles p)))) (order_of p i))) (part_text_index i))) Hall) in H.
    rewrite (collect_forall2 _ tree_stacks (part_stacks p) _ _ (fun i t Hit =>
      eq_trans (tree_stacks_eq _ _ _ _ _ _ (proj1 Hit))
        (f_equal (fun z => Fine (flat_map
           (stack_block z (part_messages p i) (choice_of (part_choice p i))) (order_of p i)))
           (part_text_index i))) Hall) in H.
    assert (forall i a, In a (order_of p i) <-> In a (sort_by (fun r => r) (p_roles p))) as Hord.
    { intros [i|] a; cbn [order_of]; [easy|auto]. }
    rewrite (collect_forall2 _ (tree_endpoints (sort_by (fun r => r) (p_roles p))) (part_endpoints p) _ _ (fun i t Hit =>
      eq_trans (tree_endpoints_eq _ _ _ _ _ _ (Hord i) (proj1 Hit))
        (f_equal (fun z => Fine (map (fun r => Endpoint (endpoint_name z r)
          (map (message_name z 0 r) (others r (sort_by (fun r => r) (p_roles p))))
          (ordering_name z 0 r) r) (sort_by (fun r => r) (p_roles p)))) (part_text_index i))) Hall) in H.
    cbn [gbind] in H. apply gbind_fine in H as (fns & Efns & H). injection H as <-.
    constructor; cbn [meshed_roles types endpoint_types enum_types functions]; try reflexivity.
    - destruct ts as [|t ts]; [easy|]. injection Hmain as ->.
      assert (Forall (fun t => sub_trees t = []) ts) as Hsub.
      { assert (forall i, In i (tl (parts p)) -> i <> None) as Hn.
        { intros i. cbn [parts tl]. destruct (ending p) as [[[s b] bs]|]; [|easy].
          rewrite <- in_rev, in_map_iff. now intros (j & <- & _). }
        assert (exists js, js = tl (parts p) /\ Forall2 (fun i t => holds (part_index i) (order_of p i)
          (sort_by (fun r => r) (p_roles p)) (part_messages p i) (choice_of (part_choice p i)) t /\
          (i <> None -> sub_trees t = [])) js ts) as (js & Ejs & Hrest).
        { inversion Hall as [|? ? ? ? _ Hrest]; subst. eexists. split; [reflexivity|exact Hrest]. }
        rewrite <- Ejs in Hn. clear - Hrest Hn.
        induction Hrest as [|i t is ts Hit Q IH]; constructor.
        - exact (proj2 Hit (Hn i (or_introl eq_refl))).
        - apply IH. intros j Hj. exact (Hn j (or_intror Hj)). }
      cbn [flat_map].
      assert (flat_map (tree_enums (sort_by (fun r => r) (p_roles p))) ts = []) as ->.
      { clear - Hsub. induction Hsub as [|t ts H F IH]; [reflexivity|]. cbn [flat_map].
        rewrite IH, app_nil_r. unfold tree_enums. now rewrite H. }
      rewrite app_nil_r. unfold tree_enums. rewrite P4, P5.
      assert (index main = [0%nat]) as -> by apply P3.
      destruct (ending p) as [[[s b] bs]|].
      + destruct P6 as (t & ts' & -> & _). destruct (rev ts' ++ [t]) eqn:Q; [now destruct (rev ts')|].
        cbn [flat_map fst snd]. now rewrite app_nil_r.
      + now rewrite P6.
    - intros i Hi. apply parts_ok in Hi. destruct (forall2_in _ _ _ _ Hall Hi) as (t & [_ Hr _] & _).
      eapply Forall_impl; [|exact Hr]. cbn. intros m (Q1 & Q2 & Q3). rewrite !Hoi. auto.
    - intros i Hi. apply parts_ok in Hi. destruct (forall2_in _ _ _ _ Hall Hi) as (t & [_ _ Hc] & _). eauto.
    - intros i m x Hi Hm Hx. destruct (collect_in _ _ _ _ Efns Hx) as (t & l & _ & Hl & Hxl).
      pose proof (tree_functions_clocks _ _ _ _ Hl Hxl) as Hcs. destruct x as [[[[r ?] ?] ?] cs].
      destruct (part_clocked p i m (clocks g) P7 Hm) as [(l1 & C1 & C2) (l2 & C3 & C4)].
      intros [-> | ->]; rewrite Hcs; [now rewrite C1|now rewrite C3].
    - exact P8.
    - refine (collect_map _ _ _ _ _ _ _ (fun i t b Hit Eb => _) Hall Efns).
      rewrite (tree_functions_eq _ _ _ _ _ _ _ _ (Hord i) (proj1 Hit) P2 Eb), part_text_index. reflexivity.
  Qed.
End Title.
