(** * The protocols that are accepted *)

From Coq Require Import Ascii String ZArith Bool Lia Permutation List.
From Verif Require Import Checker CheckerText CheckerAll Nuscr NuscrSpec NuscrMaps NuscrTree NuscrRun NuscrFile.
Import ListNotations.

Section Title.
  Variable title : str -> str.
  Notation process_line := (process_line title).
  Notation holds := (holds title).

  (** ** The tables always have what is looked for *)

  Lemma side_messages_ok ix o i D L K KL t send me other m :
    In me o -> In other i -> other <> me -> shape ix o i D L K KL t ->
    exists t', side_messages title (index_text ix) send me other m t = Fine t'.
  Proof.
    intros Hme Ho Hne []. unfold side_messages. rewrite sh_messages. unfold tab2.
    rewrite hget_tab by easy. cbn [unwrap gbind]. rewrite hget_tab by now apply in_others.
    cbn [unwrap gbind last_message set_messages]. rewrite sh_last. unfold tab2.
    rewrite hget_tab by easy. cbn [unwrap gbind]. rewrite hget_tab by now apply in_others.
    cbn [unwrap gbind]. eauto.
  Qed.
  Lemma side_stacks_ok ix o i D L K KL t me other :
    In me o -> shape ix o i D L K KL t -> exists t', side_stacks (index_text ix) me other t = Fine t'.
  Proof.
    intros Hme []. unfold side_stacks. rewrite sh_stacks, hget_tab by easy. cbn [unwrap gbind last_stack set_stacks].
    rewrite sh_last_stack, hget_tab by easy. cbn [unwrap gbind]. eauto.
  Qed.
  Lemma side_choice_ok ix o i D L K KL t cx send s r :
    In s o -> In r o -> In s i -> In r i -> r <> s -> shape ix o i D L K KL t ->
    exists t', side_choice cx send s r t = Fine t'.
  Proof.
    intros Hso Hro Hs Hr Hne []. unfold side_choice. rewrite sh_messages, sh_last. unfold tab2.
    assert (forall A (f : str -> str -> A), exists x,
      hget (tab o (fun a => tab (others a i) (f a))) (if send then s else r) = Some x /\
      hget x (if send then r else s) = Some (f (if send then s else r) (if send then r else s))) as K2.
    { intros A f. destruct send; eexists; (split; [apply hget_tab; assumption|]); apply hget_tab, in_others; auto. }
    destruct (K2 _ D) as (x & -> & E). cbn [unwrap gbind]. rewrite E. cbn [unwrap gbind].
    destruct (K2 _ L) as (y & -> & E'). cbn [unwrap gbind]. rewrite E'. cbn [unwrap gbind]. eauto.
  Qed.
  Lemma stack_choice_ok ix o i D L K KL t me b :
    In me o -> shape ix o i D L K KL t -> exists t', stack_choice me b t = Fine t'.
  Proof.
    intros Hme []. unfold stack_choice. rewrite sh_stacks, sh_last_stack, !hget_tab by easy.
    cbn [unwrap gbind]. eauto.
  Qed.

  Lemma choice_loop_ok ix o i cx s rest : forall D L K KL t,
    NoDup o -> NoDup i -> In s o -> In s i -> incl rest o -> incl rest i ->
    shape ix o i D L K KL t -> exists t', choice_loop cx s rest t = Fine t'.
  Proof.
    induction rest as [|r rest IH]; intros D L K KL t No Ni Hso Hsi Io Ii H; [cbn; eauto|].
    cbn [choice_loop].
    assert (In r o) as Hro by (apply Io; now left). assert (In r i) as Hri by (apply Ii; now left).
    assert (exists D' L' K' KL' t', (if negb (seqb r s) then
            let* t1 := side_choice cx true s r t in
            let* t2 := side_choice cx false s r t1 in
            stack_choice r (RoleOf s (lit "RoleEnd")) t2
          else stack_choice s Broadcast t) = Fine t' /\ shape ix o i D' L' K' KL' t')
      as (D' & L' & K' & KL' & t' & -> & H').
    { destruct (seqb r s) eqn:E; cbn [negb].
      - destruct (stack_choice_ok ix o i D L K KL t s Broadcast Hso H) as [t' E'].
        destruct (stack_choice_shape ix o i D L K KL t s Broadcast t' No H E') as (S1 & _).
        eexists _, _, _, _, t'. split; [exact E'|exact S1].
      - apply seqb_false in E.
        destruct (side_choice_ok ix o i D L K KL t cx true s r Hso Hro Hsi Hri E H) as [t1 E1].
        rewrite E1. cbn [gbind].
        destruct (side_choice_shape ix o i D L K KL t cx true s r t1 No Ni Hsi Hri E H E1) as (S1 & _).
        destruct (side_choice_ok ix o i _ _ _ _ t1 cx false s r Hso Hro Hsi Hri E S1) as [t2 E2].
        rewrite E2. cbn [gbind].
        destruct (side_choice_shape ix o i _ _ _ _ t1 cx false s r t2 No Ni Hsi Hri E S1 E2) as (S2 & _).
        destruct (stack_choice_ok ix o i _ _ _ _ t2 r (RoleOf s (lit "RoleEnd")) Hro S2) as [t3 E3].
        destruct (stack_choice_shape ix o i _ _ _ _ t2 r _ t3 No S2 E3) as (S3 & _).
        eexists _, _, _, _, t3. split; [exact E3|exact S3]. }
    cbn [gbind]. eapply IH; eauto; intros x Hx; [apply Io|apply Ii]; now right.
  Qed.

  Lemma clock_tests_app prev a b :
    clock_tests prev (a ++ b) = let* p := clock_tests prev a in clock_tests p b.
  Proof.
    revert prev. induction a as [|m a IH]; intros prev; [reflexivity|]. cbn [app clock_tests].
    destruct (previous_message_wrt_clocks prev m); cbn [gbind]; auto.
  Qed.
  Lemma clock_tests_prefix prev a b q : clock_tests prev (a ++ b) = Fine q -> exists q', clock_tests prev a = Fine q'.
  Proof. rewrite clock_tests_app. intros H. apply gbind_fine in H as (q' & H & _). eauto. Qed.

  Definition role_ok (i : list str) (m : msg) : Prop :=
    In (sender m) i /\ In (receiver m) i /\ sender m <> receiver m.

  Lemma update_messages_ok ix o i ms g t m q :
    NoDup o -> NoDup i -> (forall a, In a o <-> In a i) -> i = roles g ->
    holds ix o i ms None t -> role_ok i m -> clock_tests [] (ms ++ [m]) = Fine q ->
    exists g' t', update_messages title m g t = Fine (g', t').
  Proof.
    intros No Ni Hoi Hi Hh (R1 & R2 & R3) Hq.
    assert (exists t', messages_and_stacks title m (set_payloads t
      (hset (label m) (match payload m with Some p => p | None => [] end) (messages_with_payloads t))) = Fine t')
      as [t' E].
    { destruct (holds_payloads title ix o i ms None t
        (hset (label m) (match payload m with Some p => p | None => [] end) (messages_with_payloads t)) Hh)
        as [Hsh _ Hcl].
      set (t1 := set_payloads t _) in *. clearbody t1. unfold messages_and_stacks.
      rewrite clock_tests_app, Hcl in Hq. cbn [gbind clock_tests] in Hq.
      apply gbind_fine in Hq as (q' & Hq & _).
      rewrite (sh_index _ _ _ _ _ _ _ _ Hsh).
      destruct (side_messages_ok ix o i _ _ _ _ t1 true (sender m) (receiver m) m
        (proj2 (Hoi _) R1) R2 (not_eq_sym R3) Hsh) as [t2 E2].
      rewrite E2. cbn [gbind].
      destruct (side_messages_shape title _ _ _ _ _ _ _ _ _ _ _ _ _ No Ni R2 (not_eq_sym R3) Hsh E2)
        as (_ & S1 & _ & _ & Pv).
      rewrite Pv, Hq. cbn [gbind].
      assert (shape ix o i _ _ _ _ (set_previous t2 q')) as S1' by (destruct S1; constructor; eauto).
      destruct (side_messages_ok ix o i _ _ _ _ _ false (receiver m) (sender m) m
        (proj2 (Hoi _) R2) R1 R3 S1') as [t3 E3].
      rewrite E3. cbn [gbind].
      destruct (side_messages_shape title _ _ _ _ _ _ _ _ _ _ _ _ _ No Ni R1 R3 S1' E3) as (_ & S2 & _).
      destruct (side_stacks_ok ix o i _ _ _ _ t3 (sender m) (receiver m) (proj2 (Hoi _) R1) S2) as [t4 E4].
      rewrite E4. cbn [gbind].
      destruct (side_stacks_shape _ _ _ _ _ _ _ _ _ _ _ No S2 E4) as (S3 & _).
      apply (side_stacks_ok ix o i _ _ _ _ t4 (receiver m) (sender m) (proj2 (Hoi _) R2) S3). }
    unfold update_messages. rewrite <- Hi.
    change (existsb (seqb (sender m)) i) with (mem (sender m) i).
    change (existsb (seqb (receiver m)) i) with (mem (receiver m) i).
    rewrite (proj2 (mem_in _ _) R1), (proj2 (mem_in _ _) R2). cbn [negb].
    rewrite (proj2 (seqb_false _ _) R3).
    assert (str_le (lb m) (rb m) = true) as ->.
    { rewrite clock_tests_app in Hq. apply gbind_fine in Hq as (q1 & _ & Hq). cbn [clock_tests] in Hq.
      apply gbind_fine in Hq as (q2 & Hq & _). unfold previous_message_wrt_clocks in Hq.
      now destruct (str_le (lb m) (rb m)). }
    cbn [negb andb]. rewrite E. cbn [gbind]. eauto.
  Qed.

  (** ** The lines *)

  Lemma step_eq f n l rest g parent main offset :
    looked l g offset -> n <> 0%nat ->
    process_line (S f) n (l :: rest) g parent main offset =
    match what l with
    | KGlobal _ _ => Error
    | KMessage m =>
        let* (g', main') := update_messages title m (save (rec_text l, KMessage m) (counted l g)) main in
        process_line f (S n) rest g' parent main' offset
    | KChoice s =>
        let ix := index main ++ [0%nat] in
        let* main2 := choice_loop (index_text (index main)) s (roles g)
          (set_enums main (hset (index_text ix) (s, 0%nat) (enums main))) in
        let* (n', rest', g2, main3, sub', offset') :=
          process_line f (S n) rest (save (rec_text l, KChoice s) (counted l g)) main2
            (init_sub_tree (roles g) ix s) (S offset) in
        process_line f n' rest' g2 parent (push_sub_tree main3 sub') offset'
    | KOr =>
        match rev (index main) with
        | [] => Panic
        | lst :: up =>
            let basic := index_text (rev up ++ [0%nat]) in
            let* (s, count) := unwrap (hget (enums parent) basic) in
            let* (n', rest', g2, parent2, sub', offset') :=
              process_line f (S n) rest (counted l g)
                (set_enums parent (hset basic (s, S count) (enums parent)))
                (init_sub_tree (roles g) (rev up ++ [S lst]) s) offset in
            process_line f n' rest' g2 (push_sub_tree parent2 sub') main offset'
        end
    | KRec x =>
        process_line f (S n) rest
          (save (rec_text l, KRec x) (Global (output g) (roles g) (payloads g) (clocks g)
             (hset x (index_text (index main), []) (loops g))
             (opening g + opens l) (closing g + closes l))) parent main offset
    | KContinue x =>
        match hget (loops g) x with
        | None => Error
        | Some (ix, sv) =>
            let* (g', main') := replay title ix x sv false (counted l g) main in
            process_line f (S n) rest g' parent main' offset
        end
    | KOther => process_line f (S n) rest (counted l g) parent main offset
    end.
  Proof.
    intros (L1 & L2 & L3) Hn.
    cbn [Nuscr.process_line opening closing roles enums loops].
    assert ((opening g + opens l <? closing g + closes l) = false)%nat as E1 by (apply Nat.ltb_ge; lia).
    assert ((1 <? offset) = false)%nat as E2 by (apply Nat.ltb_ge; lia).
    assert ((opening g + opens l <=? closing g + closes l + offset) = false)%nat as E3 by (apply Nat.leb_gt; lia).
    assert ((n =? 0) = false)%nat as E4 by now apply Nat.eqb_neq.
    rewrite E1, E2, E3, L3, E4. now destruct (what l) as [x rs|m|s| |x|x|].
  Qed.

  Lemma stop_eq f n l rest g parent main offset :
    (offset <= 1 -> closing g + closes l <= opening g + opens l ->
    opening g + opens l <= closing g + closes l + offset ->
    process_line (S f) n (l :: rest) g parent main offset =
    Fine (S n, rest, counted l g, parent, main, offset))%nat.
  Proof.
    intros H1 H2 H3. cbn [Nuscr.process_line opening closing roles enums loops].
    assert ((opening g + opens l <? closing g + closes l) = false)%nat as E1 by (apply Nat.ltb_ge; lia).
    assert ((1 <? offset) = false)%nat as E2 by (apply Nat.ltb_ge; lia).
    assert ((opening g + opens l <=? closing g + closes l + offset) = true)%nat as E3 by (apply Nat.leb_le; lia).
    now rewrite E1, E2, E3.
  Qed.

  Lemma go_messages safe ms ls : messages_as safe ms ls -> forall fuel n rest g parent main offset ix o i cont q,
    n <> 0%nat -> (offset <= 1)%nat -> (closing g + offset < opening g)%nat ->
    NoDup o -> NoDup i -> (forall a, In a o <-> In a i) -> i = roles g ->
    holds ix o i cont None main -> Forall (role_ok i) ms -> clock_tests [] (cont ++ ms) = Fine q ->
    (length ls + length rest < fuel)%nat ->
    exists fuel' n' g' main' sl, said_lines safe ms sl /\
      n' <> 0%nat /\ (length rest < fuel')%nat /\
      process_line fuel n (ls ++ rest) g parent main offset =
      process_line fuel' n' rest g' parent main' offset /\
      keeps g g' /\ loops g' = saved sl (loops g) /\
      holds ix o i (cont ++ ms) None main' /\
      enums main' = enums main /\ sub_trees main' = sub_trees main.
  Proof.
    induction 1 as [|m rt ms ls Hrt Hls IH|b ms ls Hls IH]; intros fuel n rest g parent main offset ix o i cont q
      Hn Ho Hc No Ni Hoi Hi Hh Hr Hq Hf.
    - exists fuel, n, g, main, []. cbn [app length] in *. split; [constructor|]. rewrite saved_nil, app_nil_r.
      do 7 (split; [easy || apply keeps_refl|]). easy.
    - destruct fuel as [|f]; [cbn in Hf; lia|].
      inversion Hr as [|? ? Hr1 Hr2]; subst.
      assert (exists q', clock_tests [] (cont ++ [m]) = Fine q') as [q' Hq'].
      { apply (clock_tests_prefix [] (cont ++ [m]) ms q). now rewrite <- app_assoc. }
      destruct (update_messages_ok ix o (roles g) cont (save (rt, KMessage m) (counted (Line 0 0 false (KMessage m) rt) g)) main m q'
        No Ni Hoi eq_refl Hh Hr1 Hq') as (g1 & main1 & E).
      cbn [map app]. rewrite step_eq by (try easy; split; cbn; try lia; split; try lia; easy).
      cbn [what rec_text]. rewrite E. cbn [gbind].
      destruct (update_messages_holds title ix o (roles g) cont (save (rt, KMessage m) (counted (Line 0 0 false (KMessage m) rt) g)) _ _ _ _ No Ni eq_refl Hh E)
        as (F1 & F2 & F3 & [K1 K2 K3 K4] & F5 & _ & _).
      cbn in K1, K2, K3, K4, F5.
      destruct (IH f (S n) rest g1 parent main1 offset ix o (roles g) (cont ++ [m]) q)
        as (f' & n' & g' & main' & sl & Gs & G0 & G1 & G2 & [G3a G3b G3c G3d] & G4 & G5 & G6 & G7);
        [easy|lia|lia|easy|easy|easy|congruence|exact F1|exact Hr2|now rewrite <- app_assoc|cbn in Hf; lia|].
      exists f', n', g', main', ((rt, KMessage m) :: sl). split; [now constructor|]. do 3 (split; [assumption|]).
      split; [constructor; try congruence; lia|].
      split. { rewrite G4, F5. unfold save. cbn [loops counted].
        change (map _ (loops g)) with (saved [(rt, KMessage m)] (loops g)). now rewrite saved_saved. }
      rewrite <- app_assoc in G5. split; [easy|]. split; congruence.
    - destruct fuel as [|f]; [cbn in Hf; lia|]. cbn [app].
      destruct (empty_line title f n b (ls ++ rest) g parent main offset Ho Hc Hn)
        as (g1 & E & [K1 K2 K3 K4] & E2 & E3).
      destruct (IH f (S n) rest g1 parent main offset ix o i cont q)
        as (f' & n' & g' & main' & sl & Gs & G0 & G1 & G2 & [G3a G3b G3c G3d] & G4 & G5 & G6 & G7);
        [easy|lia|lia|easy|easy|easy|congruence|easy|easy|easy|cbn in Hf; lia|].
      exists f', n', g', main', sl. split; [easy|]. split; [easy|]. split; [easy|]. split; [congruence|].
      split; [constructor; try congruence; lia|]. rewrite E2 in G4. auto.
  Qed.

  Lemma go_replay cx x s more ms sl : said_lines (not_start (Some x)) ms sl -> forall g t ix o i cont q,
    NoDup o -> NoDup i -> (forall a, In a o <-> In a i) -> i = roles g -> In s i ->
    holds ix o i cont None t -> Forall (role_ok i) ms -> clock_tests [] (cont ++ ms) = Fine q ->
    exists g' t', replay title cx x (sl ++ (None, KChoice s) :: more) true g t = Fine (g', t').
  Proof.
    induction 1 as [|m [rt k] ms sl [Hk Hrt] Hsl IH]; intros g t ix o i cont q No Ni Hoi Hi Hs Hh Hr Hq;
      cbn [app replay]; [cbn [starts_loop]|cbn [fst snd] in *; subst k;
        assert (starts_loop x rt = false) as Ert by (destruct rt; [exact Hrt|reflexivity]); rewrite Ert].
    - subst i. edestruct (choice_loop_ok ix o (roles g) cx s (roles g)) as [t' E];
        [exact No|exact Ni|apply Hoi; exact Hs|exact Hs|intros a Ha; now apply Hoi|apply incl_refl|apply Hh|].
      rewrite E. cbn [gbind]. eauto.
    - inversion Hr as [|? ? Hr1 Hr2]; subst.
      assert (exists q', clock_tests [] (cont ++ [m]) = Fine q') as [q' Hq'].
      { apply (clock_tests_prefix [] (cont ++ [m]) ms q). now rewrite <- app_assoc. }
      destruct (update_messages_ok ix o (roles g) cont g t m q' No Ni Hoi eq_refl Hh Hr1 Hq') as (g1 & t1 & E).
      rewrite E. cbn [gbind].
      destruct (update_messages_holds title ix o (roles g) cont _ _ _ _ _ No Ni eq_refl Hh E)
        as (F1 & F2 & F3 & [K1 K2 K3 K4] & _).
      apply (IH g1 t1 ix o (roles g) (cont ++ [m]) q); try easy. now rewrite <- app_assoc.
  Qed.

  Lemma go_branch x ins s b bl fuel n rest g parent main ix o i q :
    branch_as x b bl -> n <> 0%nat -> (closing g + 1 < opening g)%nat ->
    NoDup o -> NoDup i -> (forall a, In a o <-> In a i) -> i <> [] -> i = roles g -> In s i ->
    loop_saved x ins s (loops g) ->
    holds ix o i [] None main ->
    Forall (role_ok i) (branch_messages x ins b) -> clock_tests [] (branch_messages x ins b) = Fine q ->
    (length (bl ++ rest) < fuel)%nat ->
    exists fuel' n' g' main',
      n' <> 0%nat /\ (length rest < fuel')%nat /\
      process_line fuel n (bl ++ rest) g parent main 1 =
      process_line fuel' n' rest g' parent main' 1 /\
      keeps g g' /\ loop_saved x ins s (loops g') /\
      holds ix o i (branch_messages x ins b) (branch_choice x s b) main' /\
      enums main' = enums main /\ sub_trees main' = sub_trees main.
  Proof.
    intros [ls Hls] Hn Hc No Ni Hoi Hne Hi Hs Hl Hh Hr Hq Hf.
    rewrite <- app_assoc in *. rewrite app_length in Hf. unfold continue_as in *.
    unfold branch_messages in Hr, Hq. apply Forall_app in Hr as [Hr1 Hr2].
    destruct (clock_tests_prefix _ _ _ _ Hq) as [q1 Hq1].
    edestruct (go_messages _ (said b) ls Hls fuel n) as (f1 & n1 & g1 & main1 & sl & _ & G0 & G1 & G2 & [K1 K2 K3 K4] & G4 & G5 & G6 & G7);
      [exact Hn|reflexivity|exact Hc|exact No|exact Ni|exact Hoi|exact Hi|exact Hh|exact Hr1|exact Hq1|exact Hf|].
    rewrite G2. cbn [app] in G5.
    assert (loop_saved x ins s (loops g1)) as Hl1 by (rewrite G4; now apply loop_saved_saved).
    destruct x as [x|]; [destruct (again b) eqn:Eb|].
    - cbn [app length] in G1 |- *. destruct f1 as [|f1]; [lia|].
      rewrite step_eq by (try easy; split; cbn; try lia; split; try lia; easy).
      cbn [what plain]. change (Line 0 0 false (KContinue x) None) with (plain (KContinue x)).
      destruct Hl1 as (lt & sl1 & more & Hlt & Hsl1 & Hl1). rewrite Hl1. cbn [replay starts_loop]. rewrite Hlt.
      assert (i = roles (counted (plain (KContinue x)) g1)) as Hi1 by (cbn; congruence).
      destruct (go_replay (lit "0") x s more ins sl1 Hsl1 _ main1 ix o i (said b) q No Ni Hoi Hi1 Hs G5 Hr2 Hq)
        as (g2 & main2 & E2).
      rewrite E2. cbn [gbind].
      destruct (replay_messages title _ _ _ _ _ _ Hsl1 _ _ _ _ _ _ _ _ No Ni Hoi Hne Hi1 G5 E2)
        as (F1 & F2 & F3 & [L1 L2 L3 L4] & F5 & _).
      cbn in L1, L2, L3, L4, F5.
      exists f1, (S n1), g2, main2. split; [easy|]. split; [lia|]. split; [reflexivity|].
      split; [constructor; try congruence; lia|]. split; [cbn; rewrite F5; eauto 9|].
      unfold branch_messages, branch_choice. rewrite Eb. split; [easy|]. split; congruence.
    - exists f1, n1, g1, main1. cbn [app] in *. unfold branch_messages, branch_choice. rewrite Eb, app_nil_r.
      do 7 (split; [easy || now constructor|]). easy.
    - exists f1, n1, g1, main1. cbn [app] in *. unfold branch_messages, branch_choice. rewrite app_nil_r.
      do 7 (split; [easy || now constructor|]). easy.
  Qed.

  Definition branch_ok (i : list str) (x : option str) (ins : list msg) (b : branch) : Prop :=
    Forall (role_ok i) (branch_messages x ins b) /\ exists q, clock_tests [] (branch_messages x ins b) = Fine q.

  Lemma go_branches x ins s bs bls : branches_as x bs bls -> forall b bl k fuel n g parent main i,
    branch_as x b bl -> n <> 0%nat -> opening g = (closing g + 2 + loop_depth x)%nat ->
    NoDup i -> i <> [] -> i = roles g -> In s i -> loop_saved x ins s (loops g) ->
    holds [0%nat; k] i i [] None main -> sub_trees main = [] ->
    enums parent = [(index_text [0%nat; 0%nat], (s, k))] ->
    Forall (branch_ok i x ins) (b :: bs) ->
    (length (bl ++ bls ++ close_line :: loop_close x ++ [close_line]) < fuel)%nat ->
    exists res, process_line fuel n
      (bl ++ bls ++ close_line :: loop_close x ++ [close_line]) g parent main 1 = Fine res.
  Proof.
    induction 1 as [|b' bs bl' bls Hb' Hbs IH]; intros b bl k fuel n g parent main i Hb Hn Hc Ni Hne Hi Hs Hl Hh Hst He Hok Hf;
      inversion Hok as [|? ? [Hr [q Hq]] Hok']; subst.
    - destruct (go_branch x ins s b bl fuel n _ g parent main [0%nat; k] (roles g) (roles g) q Hb Hn
        ltac:(lia) Ni Ni ltac:(easy) Hne eq_refl Hs Hl Hh Hr Hq Hf)
        as (f1 & n1 & g1 & main1 & G0 & G1 & G2 & [K1 K2 K3 K4] & G4 & G5 & G6 & G7).
      rewrite G2. cbn [app] in *. destruct f1 as [|f1]; [lia|].
      destruct x as [x|]; cbn [loop_close app loop_depth length] in *.
      + rewrite step_eq by (try easy; split; cbn; try lia; split; try lia; easy).
        cbn [what close_line]. destruct f1 as [|f1]; [lia|].
        change (Line 0 1 false KOther None) with close_line.
        rewrite stop_eq by (cbn; lia). eauto.
      + rewrite stop_eq by (cbn; lia). eauto.
    - destruct (go_branch x ins s b bl fuel n _ g parent main [0%nat; k] (roles g) (roles g) q Hb Hn
        ltac:(lia) Ni Ni ltac:(easy) Hne eq_refl Hs Hl Hh Hr Hq Hf)
        as (f1 & n1 & g1 & main1 & G0 & G1 & G2 & [K1 K2 K3 K4] & G4 & G5 & G6 & G7).
      rewrite G2. cbn [app] in *. destruct f1 as [|f1]; [lia|].
      rewrite step_eq by (try easy; split; cbn; try lia; split; try lia; easy).
      change (what or_line) with KOr. cbv match.
      assert (index main1 = [0%nat; k]) as Hix by apply G5.
      rewrite Hix. cbn [rev app]. rewrite He.
      change (hget [(index_text [0%nat; 0%nat], (s, k))] (index_text [0%nat; 0%nat])) with (Some (s, k)).
      cbn [unwrap gbind].
      change (hset (index_text [0%nat; 0%nat]) (s, S k) [(index_text [0%nat; 0%nat], (s, k))])
        with [(index_text [0%nat; 0%nat], (s, S k))].
      rewrite K2.
      destruct (init_sub_tree_holds title (roles g) [0%nat; S k] s Ni) as [Hs1 Hs2].
      rewrite <- app_assoc in *.
      edestruct (IH b' bl' (S k) f1 (S n1) (counted or_line g1)
        (set_enums parent [(index_text [0%nat; 0%nat], (s, S k))])
        (init_sub_tree (roles g) [0%nat; S k] s) (roles g))
        as [[[[[[n2 rest2] g2] parent2] sub] off2] E];
        [exact Hb'|easy|cbn; lia|exact Ni|exact Hne|cbn; congruence|exact Hs|exact G4|exact Hs1|exact Hs2|reflexivity|exact Hok'|cbn in G1; lia|].
      rewrite E. cbn [gbind].
      destruct (run_branches title x ins s bs bls Hbs b' bl' (S k) f1 (S n1) (counted or_line g1)
        (set_enums parent [(index_text [0%nat; 0%nat], (s, S k))])
        (init_sub_tree (roles g) [0%nat; S k] s) n2 rest2 g2 parent2 sub off2 (roles g)
        Hb' ltac:(easy) ltac:(cbn; lia) Ni Hne ltac:(cbn; congruence) ltac:(exact G4) Hs1 Hs2 eq_refl E)
        as (subs & F1 & F2 & F3 & F4 & F5 & _).
      subst off2. destruct f1 as [|f1]; [cbn in G1; lia|].
      destruct F3 as [[-> F3]|[-> F3]].
      + rewrite stop_eq by (cbn; lia). eauto.
      + cbn [Nuscr.process_line]. eauto.
  Qed.

  (** A protocol the generator should accept. *)
  Definition acceptable (p : proto) : Prop :=
    (forall i, part p i -> Forall (role_ok (p_roles p)) (part_messages p i) /\
       exists q, clock_tests [] (part_messages p i) = Fine q) /\
    match ending p with Some (s, _, _) => In s (p_roles p) | None => True end.

  Lemma go_proto lt name p lines :
    proto_as lt name p lines -> NoDup (p_roles p) -> p_roles p <> [] -> acceptable p ->
    exists res, process_line (S (length lines)) 0 lines
      (Global false [] [] [] [] 0 0) (empty_tree []) (empty_tree [0%nat]) 0 = Fine res.
  Proof.
    intros [ht ls1 ls2 ls3 Hls1 Hls2 Hls3 Hlt] Nr Hne [Hparts Hch]. set (i := sort_by (fun r => r) (p_roles p)) in *.
    assert (NoDup i) as Ni by now apply sort_nodup.
    assert (forall a, In a (p_roles p) <-> In a i) as Hoi by (intros a; apply sort_in).
    assert (i <> []) as Hnei.
    { destruct (p_roles p) as [|r rs] eqn:Er; [easy|]. intros E. assert (In r i) as Q.
      { apply Hoi. now left. } now rewrite E in Q. }
    assert (forall ms, Forall (role_ok (p_roles p)) ms -> Forall (role_ok i) ms) as Hro.
    { intros ms. apply Forall_impl. unfold role_ok. intros m. now rewrite !Hoi. }
    destruct (Hparts None Logic.I) as [Hr0 [q0 Hq0]]. apply Hro in Hr0.
    cbn [part_messages] in Hr0, Hq0. apply Forall_app in Hr0 as [Hr1 Hr2].
    destruct (clock_tests_prefix _ _ _ _ Hq0) as [q1 Hq1].
    cbn [length]. set (all := ls1 ++ _).
    set (fuel := S (length all)). assert (length all < fuel)%nat as Hf by (unfold fuel; lia). clearbody fuel.
    subst all.
    cbn [Nuscr.process_line opening closing opens closes what blank Nat.add Nat.ltb Nat.leb Nat.eqb roles
         payloads clocks loops output app].
    destruct (init_shape (p_roles p) i [0%nat] (empty_tree [0%nat]) Nr Ni) as (S1 & S2 & S3 & S4); auto.
    fold i. change (index_text [0%nat]) with (lit "0") in S1, S2, S3, S4.
    set (m0 := init_messages i (lit "0") (init_roles (p_roles p) (lit "0") (empty_tree [0%nat]))) in *.
    assert (holds [0%nat] (p_roles p) i [] None m0) as H0.
    { constructor; [|easy|now rewrite S4]. eapply shape_ext; [exact S1|easy..]. }
    clear S1 S4. change (enums m0 = []) in S2. change (sub_trees m0 = []) in S3. clearbody m0.
    rewrite app_length in Hf.
    edestruct (go_messages _ (before p) ls1 Hls1 fuel 1%nat) with (offset := 0%nat) (main := m0) (parent := empty_tree [])
      (g := Global true i [] [] [] 1 0) as (f1 & n1 & g1 & m1 & sl1 & _ & A1 & A2 & A0 & [A3 A4 A5 A6] & A7 & A8 & A9 & A10);
      [easy|lia|cbn; lia|exact Nr|exact Ni|exact Hoi|reflexivity|exact H0|exact Hr1|exact Hq1|exact Hf|].
    rewrite A0. cbn in A3, A4, A5, A6, A7. cbn [app] in A8.
    assert (exists f2 n2 g2, n2 <> 0%nat /\
      process_line f1 n1 (loop_open lt (loop p) ++ ls2 ++ ls3 ++ loop_close (loop p) ++ [close_line]) g1
        (empty_tree []) m1 0 =
      process_line f2 n2 (ls2 ++ ls3 ++ loop_close (loop p) ++ [close_line]) g2
        (empty_tree []) m1 0 /\
      (length ls2 + length (ls3 ++ loop_close (loop p) ++ [close_line]) < f2)%nat /\
      roles g2 = i /\ opening g2 = (closing g2 + 1 + loop_depth (loop p))%nat /\
      match loop p with Some x => loops g2 = [(x, (lit "0", [(Some lt, KRec x)]))] | None => True end)
      as (f2 & n2 & g2 & B1 & B2 & B3 & B4 & B5 & B7).
    { rewrite app_length, (app_length ls2) in A2.
      destruct (loop p) as [x|]; cbn [app loop_depth loop_open length] in *.
      - destruct f1 as [|f1]; [lia|].
        rewrite step_eq by (try easy; split; cbn; try lia; split; try lia; easy). cbn [what].
        eexists f1, (S n1), _. split; [easy|]. split; [reflexivity|]. split; [lia|].
        cbn. rewrite A7. unfold saved. cbn. assert (index m1 = [0%nat]) as -> by apply A8.
        repeat split; try easy. lia.
      - exists f1, n1, g1. split; [easy|]. split; [reflexivity|]. split; [lia|]. repeat split; try easy. lia. }
    rewrite B2.
    edestruct (go_messages _ (inside p) ls2 Hls2 f2 n2) with (offset := 0%nat) (main := m1) (parent := empty_tree [])
      (g := g2) as (f3 & n3 & g3 & m3 & sl3 & Hsl3 & C1 & C2 & C0 & [C3 C4 C5 C6] & C7 & C8 & C9 & C10);
      [exact B1|lia|lia|exact Nr|exact Ni|exact Hoi|symmetry; exact B4|exact A8|exact Hr2|exact Hq0|exact B3|].
    rewrite C0.
    destruct f3 as [|f3]; [lia|].
    destruct (ending p) as [[[s b] bs]|] eqn:Ee; inversion Hls3 as [|s0 b0 bs0 bl bls Hbl Hbls]; subst;
      cbn [app length] in *.
    - rewrite step_eq by (try easy; split; cbn; try lia; split; try lia; easy). change (what (plain (KChoice s))) with (KChoice s). cbv match.
      change (rec_text (plain (KChoice s))) with (@None str).
      assert (index m3 = [0%nat]) as Hix by apply C8. rewrite Hix. cbn [app].
      change (index_text [0%nat]) with (lit "0").
      assert (roles g3 = i) as Hr3 by congruence. rewrite Hr3.
      assert (In s i) as Hsi by now apply Hoi.
      destruct (choice_loop_ok [0%nat] (p_roles p) i (lit "0") s i
        (Dof title (index_text [0%nat]) (before p ++ inside p) None)
        (Lof (index_text [0%nat]) (before p ++ inside p) None)
        (Kof (index_text [0%nat]) (before p ++ inside p) None)
        (KLof (index_text [0%nat]) (before p ++ inside p) None)
        (set_enums m3 (hset (index_text [0%nat; 0%nat]) (s, 0%nat) (enums m3))) Nr Ni Hch Hsi
        (fun a Ha => proj2 (Hoi a) Ha) (incl_refl i)) as [main2 D1].
      { apply (holds_with_subs title [0%nat] (p_roles p) i (before p ++ inside p) None m3 _ (sub_trees m3)). exact C8. }
      rewrite D1. cbn [gbind].
      apply (choice_loop_holds title [0%nat] (p_roles p) i (before p ++ inside p)) in D1
        as (Hs & E1 & E2 & E3); auto.
      2:{ eapply (holds_with_subs title _ _ _ _ _ m3 _ (sub_trees m3)). exact C8. }
      cbn [enums set_enums sub_trees] in E2, E3.
      assert (enums m3 = []) as Hem by congruence. assert (sub_trees m3 = []) as Hsm by congruence.
      rewrite Hem in E2. rewrite Hsm in E3. cbn [hset] in E2.
      destruct (init_sub_tree_holds title i [0%nat; 0%nat] s Ni) as [Hs1 Hs2].
      destruct f3 as [|f3]; [lia|].
      rewrite step_eq with (l := open_line) by (try easy; split; cbn; try lia; split; try lia; easy).
      change (what open_line) with KOther. cbv match. rewrite <- !app_assoc in *. cbn [app] in *.
      assert (Forall (branch_ok i (loop p) (inside p)) (b :: bs)) as Hbs.
      { apply Forall_forall. intros b' Hb'. apply In_nth_error in Hb' as [k Hk].
        assert (part p (Some k)) as Hp.
        { cbn. rewrite Ee. assert (k < length (b :: bs))%nat by (apply nth_error_Some; congruence). cbn in *. lia. }
        destruct (Hparts (Some k) Hp) as [Q1 Q2]. apply Hro in Q1.
        assert (part_messages p (Some k) = branch_messages (loop p) (inside p) b') as Q3
          by (unfold part_messages; now rewrite Ee, Hk).
        rewrite Q3 in Q1, Q2. now split. }
      edestruct (go_branches (loop p) (inside p) s bs bls Hbls b bl 0 f3 (S (S n3))
        (counted open_line (save (None, KChoice s) (counted (plain (KChoice s)) g3)))
        main2 (init_sub_tree i [0%nat; 0%nat] s) i)
        as [[[[[[n' rest'] g4] main3] sub] off'] D2];
        [exact Hbl|easy|cbn; lia|exact Ni|exact Hnei|cbn; congruence|exact Hsi| |exact Hs1|exact Hs2|exact E2|exact Hbs| |].
      { destruct (loop p) as [x|]; [|easy]. cbn [loop_saved counted save loops].
        rewrite C7, B7. exists lt, sl3, []. cbn. now rewrite seqb_refl. }
      { cbn in C2 |- *. lia. }
      rewrite D2. cbn [gbind].
      destruct (run_branches title (loop p) (inside p) s bs bls Hbls b bl 0 f3 (S (S n3))
        (counted open_line (save (None, KChoice s) (counted (plain (KChoice s)) g3)))
        main2 (init_sub_tree i [0%nat; 0%nat] s) n' rest' g4 main3 sub off' i
        Hbl ltac:(easy) ltac:(cbn; lia) Ni Hnei ltac:(cbn; congruence)
        ltac:(destruct (loop p) as [x|]; [|easy]; cbn [loop_saved counted save loops];
              rewrite C7, B7; exists lt, sl3, []; cbn; now rewrite seqb_refl) Hs1 Hs2 E2 D2)
        as (subs & F1 & F2 & F3 & F4 & F5 & _).
      subst off'. destruct F3 as [[-> F3]|[-> F3]].
      + rewrite stop_eq by (cbn; lia). eauto.
      + cbn [Nuscr.process_line]. eauto.
    - destruct (loop p) as [x|]; cbn [app loop_depth loop_close length] in *.
      + rewrite step_eq by (try easy; split; cbn; try lia; split; try lia; easy). cbn [what close_line].
        change (Line 0 1 false KOther None) with close_line.
        destruct f3 as [|f3]; [lia|]. rewrite stop_eq by (cbn; lia). eauto.
      + rewrite stop_eq by (cbn; lia). eauto.
  Qed.

  (** ** The file *)

  Lemma tree_functions_ok g t ix o i ms ch :
    holds ix o i ms ch t -> ix <> [] -> incl (roles g) o -> exists l, tree_functions g t = Fine l.
  Proof.
    intros [[] _ _] Hix Hinc. unfold tree_functions. rewrite sh_index, sh_endpoints.
    destruct (rev ix) as [|br up] eqn:E.
    { exfalso. apply Hix. rewrite <- (rev_involutive ix), E. reflexivity. }
    induction (roles g) as [|r rs IH]; cbn [fold_right]; [eauto|].
    destruct IH as [l ->]; [intros x Hx; apply Hinc; now right|].
    cbn [gbind]. rewrite hget_tab by (apply Hinc; now left). cbn [unwrap gbind nth_error]. eauto.
  Qed.

  Lemma collect_ok {A B} (f : A -> gres (list B)) l :
    Forall (fun a => exists b, f a = Fine b) l -> exists r, collect f l = Fine r.
  Proof.
    induction 1 as [|a l [b Hb] F [r IH]]; cbn [collect]; [eauto|]. rewrite Hb. cbn [gbind]. rewrite IH.
    cbn [gbind]. eauto.
  Qed.

  Theorem generator_accepts lt name p lines :
    proto_as lt name p lines -> NoDup (p_roles p) -> p_roles p <> [] -> acceptable p ->
    exists f, generator title lines = Fine f.
  Proof.
    intros Hl Nr Hne Ha. destruct (go_proto lt name p lines Hl Nr Hne Ha) as [res E]. unfold generator. rewrite E. cbn [gbind].
    apply (run_proto title lt name p lines) in E as (n' & rest' & g & parent & main & off & subs & -> & Hoc & Hp); auto.
    rewrite Hoc, Nat.eqb_refl. cbn [negb].
    destruct (parsed_trees title p g main subs Hp) as (ts & Hts & Hall & _).
    destruct Hp as [P1 P2 P3 P4 P5 P6 P7 P8]. rewrite P1. cbn [negb]. rewrite Hts.
    assert (Forall (fun t => exists i, holds (part_index i) (order_of p i) (sort_by (fun r => r) (p_roles p))
      (part_messages p i) (choice_of (part_choice p i)) t) ts) as Hf.
    { clear - Hall. induction Hall as [|i t is ts [H _] F IH]; constructor; eauto. }
    assert (forall i a, In a (order_of p i) <-> In a (sort_by (fun r => r) (p_roles p))) as Hord.
    { intros [i|] a; cbn [order_of]; [easy|apply sort_in]. }
    assert (forall B (f : tree -> gres (list B)),
      (forall i t, holds (part_index i) (order_of p i) (sort_by (fun r => r) (p_roles p))
         (part_messages p i) (choice_of (part_choice p i)) t -> exists b, f t = Fine b) ->
      exists r, collect f ts = Fine r) as K.
    { intros B f Hb. apply collect_ok. eapply Forall_impl; [|exact Hf]. cbn. intros t [i Hi]. eauto. }
    destruct (K _ tree_sessions) as [r1 ->].
    { intros i t Hi. eexists. apply (tree_sessions_eq title _ _ _ _ _ _ Hi). }
    cbn [gbind]. destruct (K _ tree_stacks) as [r2 ->].
    { intros i t Hi. eexists. apply (tree_stacks_eq title _ _ _ _ _ _ Hi). }
    cbn [gbind]. destruct (K _ (tree_endpoints (roles g))) as [r3 ->].
    { intros i t Hi. rewrite P2. eexists. apply (tree_endpoints_eq title _ _ _ _ _ _ (Hord i) Hi). }
    cbn [gbind]. destruct (K _ (tree_functions g)) as [r4 ->].
    { intros i t Hi. apply (tree_functions_ok g t _ _ _ _ _ Hi); [destruct i; discriminate|].
      rewrite P2. intros a Ha'. now apply Hord. }
    cbn [gbind]. eauto.
  Qed.

  Theorem accepted_acceptable lt name p lines f :
    proto_as lt name p lines -> NoDup (p_roles p) -> p_roles p <> [] -> generator title lines = Fine f ->
    acceptable p.
  Proof.
    intros Hl N Ne H. pose proof (generator_written title lt name p lines f Hl N Ne H) as W. split; [|apply W].
    intros i Hi. split; [exact (wr_roles_ok _ _ _ W i Hi)|exact (wr_clock_tests _ _ _ W i Hi)].
  Qed.
End Title.
