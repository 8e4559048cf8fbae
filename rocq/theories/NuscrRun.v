(** * The generator on the lines of a protocol *)

From Coq Require Import Ascii String ZArith Bool Lia Permutation List.
From Verif Require Import Checker CheckerText CheckerAll Nuscr NuscrSpec NuscrMaps NuscrTree.
Import ListNotations.

Section Title.
  Variable title : str -> str.
  Notation process_line := (process_line title).
  Notation holds := (holds title).

  Ltac open H :=
    let a := fresh "a" in let E := fresh "E" in
    apply gbind_fine in H as (a & E & H).

  (** ** The global elements *)

  Record keeps (g g' : global) : Prop := Keeps {
    ke_output : output g' = output g;
    ke_roles : roles g' = roles g;
    ke_opening : opening g' = opening g;
    ke_closing : closing g' = closing g
  }.
  Definition saved (ks : list (option str * kind)) (m : hmap (str * list (option str * kind)))
    : hmap (str * list (option str * kind)) :=
    map (fun e => (fst e, (fst (snd e), snd (snd e) ++ ks))) m.

  Definition clock_of (cs : hmap (list str)) (r c : str) : Prop :=
    exists l, hget cs r = Some l /\ In c l.
  Definition grows (cs cs' : hmap (list str)) : Prop := forall r c, clock_of cs r c -> clock_of cs' r c.
  Definition clocked (cs : hmap (list str)) (ms : list msg) : Prop :=
    Forall (fun m => clock_of cs (sender m) (clock m) /\ clock_of cs (receiver m) (clock m)) ms.

  Lemma keeps_refl g : keeps g g.
  Proof. now constructor. Qed.
  Lemma keeps_trans g1 g2 g3 : keeps g1 g2 -> keeps g2 g3 -> keeps g1 g3.
  Proof. intros [] []. constructor; congruence. Qed.
  Lemma grows_refl cs : grows cs cs.
  Proof. now intros r c. Qed.
  Lemma grows_trans a b c : grows a b -> grows b c -> grows a c.
  Proof. intros H1 H2 r x H. auto. Qed.
  Lemma clocked_grows cs cs' ms : grows cs cs' -> clocked cs ms -> clocked cs' ms.
  Proof. intros G H. eapply Forall_impl; [|exact H]. cbn. intros m [? ?]. auto. Qed.
  Lemma saved_nil m : saved [] m = m.
  Proof.
    unfold saved. rewrite <- (map_id m) at 2. apply map_ext. intros [k [i l]]. cbn. now rewrite app_nil_r.
  Qed.
  Lemma saved_saved ks ks' m : saved ks' (saved ks m) = saved (ks ++ ks') m.
  Proof. unfold saved. rewrite map_map. apply map_ext. intros [k [i l]]. cbn. now rewrite app_assoc. Qed.
  Lemma hget_saved ks m x ix l : hget m x = Some (ix, l) -> hget (saved ks m) x = Some (ix, l ++ ks).
  Proof.
    induction m as [|[k [i l']] m IH]; [easy|]. cbn. destruct (seqb k x); [|auto]. now intros [= -> ->].
  Qed.

  Lemma hget_hset_same {A} k (a : A) m : hget (hset k a m) k = Some a.
  Proof.
    induction m as [|[k' a'] m IH]; cbn; [now rewrite seqb_refl|].
    destruct (seqb k' k) eqn:E; cbn; rewrite E; auto.
  Qed.
  Lemma hget_hset_other {A} k k' (a : A) m : k' <> k -> hget (hset k a m) k' = hget m k'.
  Proof.
    intros H. induction m as [|[x a'] m IH]; cbn.
    - destruct (seqb k k') eqn:E; [apply seqb_true in E; congruence|easy].
    - destruct (seqb x k) eqn:E; cbn; destruct (seqb x k') eqn:E'; auto.
      apply seqb_true in E, E'. congruence.
  Qed.

  Lemma in_sadd x y s : In y (sadd x s) <-> y = x \/ In y s.
  Proof.
    unfold sadd. destruct (existsb (seqb x) s) eqn:E.
    - apply (mem_in x s) in E. split; [auto|]. intros [->|]; auto.
    - rewrite in_app_iff. cbn. split; intros H; intuition.
  Qed.
  Lemma add_clock_has r c cs : clock_of (add_clock r c cs) r c.
  Proof.
    unfold add_clock, clock_of. destruct (hget cs r) as [l|]; rewrite hget_hset_same; eexists; split;
      try reflexivity; [apply in_sadd|]; now left.
  Qed.
  Lemma add_clock_grows r c cs : grows cs (add_clock r c cs).
  Proof.
    intros r' c' (l & H & Hc). unfold add_clock, clock_of.
    destruct (seqb r' r) eqn:E.
    - apply seqb_true in E. subst r'. rewrite H, hget_hset_same. eexists. split; [reflexivity|].
      apply in_sadd. auto.
    - apply seqb_false in E. destruct (hget cs r); rewrite hget_hset_other by auto; eauto.
  Qed.

  Lemma holds_payloads ix o i ms ch t x : holds ix o i ms ch t -> holds ix o i ms ch (set_payloads t x).
  Proof. intros [[] ? ?]. constructor; auto. constructor; auto. Qed.

  Lemma update_messages_holds ix o i ms g t m g' t' :
    NoDup o -> NoDup i -> i = roles g ->
    holds ix o i ms None t ->
    update_messages title m g t = Fine (g', t') ->
    holds ix o i (ms ++ [m]) None t' /\ enums t' = enums t /\ sub_trees t' = sub_trees t /\
    keeps g g' /\ loops g' = loops g /\ grows (clocks g) (clocks g') /\ clocked (clocks g') [m].
  Proof.
    intros No Ni Hi Hh H. unfold update_messages in H.
    destruct (existsb (seqb (sender m)) (roles g)) eqn:E1; cbn [negb] in H; [|discriminate].
    destruct (existsb (seqb (receiver m)) (roles g)) eqn:E2; cbn [negb] in H; [|discriminate].
    destruct (seqb (sender m) (receiver m)) eqn:E3; [discriminate|].
    destruct (negb (str_le (lb m) (rb m)) && (negb (li m) || negb (ri m))) eqn:E4; [discriminate|].
    apply mem_in in E1, E2. apply seqb_false in E3. rewrite <- Hi in *.
    open H. injection H as <- <-.
    apply (messages_and_stacks_holds title ix o i ms) in E as (H1 & H2 & H3); auto.
    2: now apply holds_payloads.
    do 3 (split; [assumption|]). split; [now constructor|]. split; [easy|].
    cbn [clocks]. split.
    - eapply grows_trans; apply add_clock_grows.
    - constructor; [|easy]. split; [|apply add_clock_has].
      apply add_clock_grows, add_clock_has.
  Qed.

  (** ** One line *)

  Definition counted (l : line) (g : global) : global :=
    Global (output g) (roles g) (payloads g) (clocks g) (loops g)
      (opening g + opens l) (closing g + closes l).

  (** The line is looked at. *)
  Definition looked (l : line) (g : global) (offset : nat) : Prop :=
    offset <= 1 /\ closing g + closes l + offset < opening g + opens l /\ blank l = false.

  Lemma step_line fuel n l rest g parent main offset res :
    looked l g offset -> n <> 0 ->
    process_line fuel n (l :: rest) g parent main offset = Fine res ->
    exists f, fuel = S f /\
      match what l with
      | KGlobal _ _ => False
      | KMessage m =>
          exists g' main', update_messages title m (save (rec_text l, KMessage m) (counted l g)) main = Fine (g', main') /\
            process_line f (S n) rest g' parent main' offset = Fine res
      | KChoice s =>
          let g1 := save (rec_text l, KChoice s) (counted l g) in
          let ix := index main ++ [0%nat] in
          exists main2 n' rest' g2 main3 sub' offset',
            choice_loop (index_text (index main)) s (roles g)
              (set_enums main (hset (index_text ix) (s, 0%nat) (enums main))) = Fine main2 /\
            process_line f (S n) rest g1 main2 (init_sub_tree (roles g) ix s) (S offset) =
              Fine (n', rest', g2, main3, sub', offset') /\
            process_line f n' rest' g2 parent (push_sub_tree main3 sub') offset' = Fine res
      | KOr =>
          exists lst up s count n' rest' g2 parent2 sub' offset',
            rev (index main) = lst :: up /\
            hget (enums parent) (index_text (rev up ++ [0%nat])) = Some (s, count) /\
            process_line f (S n) rest (counted l g)
              (set_enums parent (hset (index_text (rev up ++ [0%nat])) (s, S count) (enums parent)))
              (init_sub_tree (roles g) (rev up ++ [S lst]) s) offset =
              Fine (n', rest', g2, parent2, sub', offset') /\
            process_line f n' rest' g2 (push_sub_tree parent2 sub') main offset' = Fine res
      | KRec x =>
          process_line f (S n) rest
            (save (rec_text l, KRec x) (Global (output g) (roles g) (payloads g) (clocks g)
               (hset x (index_text (index main), []) (loops g))
               (opening g + opens l) (closing g + closes l))) parent main offset = Fine res
      | KContinue x =>
          exists ix sv g' main', hget (loops g) x = Some (ix, sv) /\
            replay title ix x sv false (counted l g) main = Fine (g', main') /\
            process_line f (S n) rest g' parent main' offset = Fine res
      | KOther => process_line f (S n) rest (counted l g) parent main offset = Fine res
      end.
  Proof.
    intros (L1 & L2 & L3) Hn H. destruct fuel as [|f]; [discriminate|]. exists f. split; [easy|].
    cbn [Nuscr.process_line opening closing roles enums loops] in H.
    assert ((opening g + opens l <? closing g + closes l) = false) as E1 by (apply Nat.ltb_ge; lia).
    assert ((1 <? offset) = false) as E2 by (apply Nat.ltb_ge; lia).
    assert ((opening g + opens l <=? closing g + closes l + offset) = false) as E3 by (apply Nat.leb_gt; lia).
    assert ((n =? 0) = false) as E4 by now apply Nat.eqb_neq.
    rewrite E1, E2, E3, L3, E4 in H.
    destruct (what l) as [x rs|m|s| |x|x|].
    - discriminate.
    - open H. destruct a as [g' main']. eauto.
    - open H. open H. destruct a0 as [[[[[n' rest'] g2] main3] sub'] offset'].
      exists a, n', rest', g2, main3, sub', offset'. auto.
    - destruct (rev (index main)) as [|lst up]; [discriminate|].
      open H. apply unwrap_fine in E. destruct a as [s count]. open H.
      destruct a as [[[[[n' rest'] g2] main3] sub'] offset'].
      exists lst, up, s, count, n', rest', g2, main3, sub', offset'. auto.
    - exact H.
    - destruct (hget (loops g) x) as [[ix sv]|]; [|discriminate]. open H. destruct a as [g' main']. eauto 10.
    - exact H.
  Qed.

  Lemma stop_line fuel n l rest g parent main offset res :
    offset <= 1 -> closing g + closes l <= opening g + opens l ->
    opening g + opens l <= closing g + closes l + offset ->
    process_line fuel n (l :: rest) g parent main offset = Fine res ->
    res = (S n, rest, counted l g, parent, main, offset).
  Proof.
    intros H1 H2 H3 H. destruct fuel as [|f]; [discriminate|].
    cbn [Nuscr.process_line opening closing roles enums loops] in H.
    assert ((opening g + opens l <? closing g + closes l) = false) as E1 by (apply Nat.ltb_ge; lia).
    assert ((1 <? offset) = false) as E2 by (apply Nat.ltb_ge; lia).
    assert ((opening g + opens l <=? closing g + closes l + offset) = true) as E3 by (apply Nat.leb_le; lia).
    rewrite E1, E2, E3 in H. now injection H as <-.
  Qed.

  Lemma no_line fuel n g parent main offset res :
    process_line fuel n [] g parent main offset = Fine res -> res = (n, [], g, parent, main, offset).
  Proof. destruct fuel; [discriminate|]. now intros [= <-]. Qed.

  (** ** Messages *)

  (** The lines of messages as they are saved. *)
  Definition said_lines (safe : option str -> Prop) (ms : list msg) (sl : list (option str * kind)) : Prop :=
    Forall2 (fun m e => snd e = KMessage m /\ safe (fst e)) ms sl.

  Lemma empty_line fuel n b rest g parent main offset :
    offset <= 1 -> closing g + offset < opening g -> n <> 0 ->
    exists g', process_line (S fuel) n (Line 0 0 b KOther None :: rest) g parent main offset =
      process_line fuel (S n) rest g' parent main offset /\
      keeps g g' /\ loops g' = loops g /\ clocks g' = clocks g.
  Proof.
    intros L1 L2 Hn. exists (counted (Line 0 0 b KOther None) g). split.
    - cbn [Nuscr.process_line opening closing roles enums loops opens closes blank what].
      assert ((opening g + 0 <? closing g + 0) = false) as E1 by (apply Nat.ltb_ge; lia).
      assert ((1 <? offset) = false) as E2 by (apply Nat.ltb_ge; lia).
      assert ((opening g + 0 <=? closing g + 0 + offset) = false) as E3 by (apply Nat.leb_gt; lia).
      assert ((n =? 0) = false) as E4 by now apply Nat.eqb_neq.
      rewrite E1, E2, E3, E4. now destruct b.
    - split; [constructor; cbn; try easy; lia|]. easy.
  Qed.

  Lemma run_messages safe ms ls : messages_as safe ms ls -> forall fuel n rest g parent main offset res ix o i cont,
    n <> 0 -> offset <= 1 -> closing g + offset < opening g ->
    NoDup o -> NoDup i -> i = roles g ->
    holds ix o i cont None main ->
    process_line fuel n (ls ++ rest) g parent main offset = Fine res ->
    exists fuel' n' g' main' sl, said_lines safe ms sl /\
      n' <> 0 /\ process_line fuel' n' rest g' parent main' offset = Fine res /\
      keeps g g' /\ loops g' = saved sl (loops g) /\
      holds ix o i (cont ++ ms) None main' /\
      enums main' = enums main /\ sub_trees main' = sub_trees main /\
      grows (clocks g) (clocks g') /\ clocked (clocks g') ms.
  Proof.
    induction 1 as [|m rt ms ls Hrt Hls IH|b ms ls Hls IH]; intros fuel n rest g parent main offset res ix o i cont
      Hn Ho Hc No Ni Hi Hh H.
    - exists fuel, n, g, main, []. split; [constructor|]. rewrite saved_nil, app_nil_r.
      do 7 (split; [easy || apply keeps_refl|]). split; [apply grows_refl|constructor].
    - cbn [map app] in H. apply step_line in H as (f & -> & g1 & main1 & E & H); [|split; cbn; try lia; easy|easy].
      apply (update_messages_holds ix o i cont) in E as (F1 & F2 & F3 & F4 & F5 & F6 & F7); auto.
      destruct F4 as [K1 K2 K3 K4]. cbn in K1, K2, K3, K4, F5, F6.
      apply IH with (ix := ix) (o := o) (i := i) (cont := cont ++ [m]) in H
        as (f' & n' & g' & main' & sl & G0 & G1 & G2 & G3 & G4 & G5 & G6 & G7 & G8 & G9);
        [|easy|lia|lia|easy|easy|congruence|easy].
      exists f', n', g', main', ((rt, KMessage m) :: sl). split; [now constructor|]. split; [easy|]. split; [easy|].
      split; [destruct G3; constructor; try congruence; lia|].
      split. { rewrite G4, F5. unfold save. cbn [loops counted].
        change (map _ (loops g)) with (saved [(rt, KMessage m)] (loops g)). now rewrite saved_saved. }
      rewrite <- app_assoc in G5. split; [easy|]. split; [congruence|]. split; [congruence|].
      split; [eapply grows_trans; eauto|]. constructor; [|easy].
      eapply clocked_grows in F7; [|exact G8]. now inversion F7.
    - cbn [app] in H. destruct fuel as [|f]; [discriminate|].
      destruct (empty_line f n b (ls ++ rest) g parent main offset Ho Hc Hn) as (g1 & E & [K1 K2 K3 K4] & E2 & E3).
      rewrite E in H. apply IH with (ix := ix) (o := o) (i := i) (cont := cont) in H
        as (f' & n' & g' & main' & sl & G0 & G1 & G2 & G3 & G4 & G5 & G6 & G7 & G8 & G9);
        [|easy|lia|lia|easy|easy|congruence|easy].
      exists f', n', g', main', sl. split; [easy|]. split; [easy|]. split; [easy|].
      split; [destruct G3; constructor; try congruence; lia|]. rewrite E2 in G4. rewrite E3 in G8. auto 9.
  Qed.

  Lemma contains_refl x : contains x x = true.
  Proof.
    assert (strip x x = Some []) as H.
    { induction x as [|c x IH]; [easy|]. cbn. now rewrite Ascii.eqb_refl. }
    unfold contains. destruct x as [|c x]; [easy|]. cbn -[strip]. now rewrite H.
  Qed.

  (** The replay of the lines of the loop. *)
  Lemma replay_messages cx x s more ms sl : said_lines (not_start (Some x)) ms sl -> forall g t g' t' ix o i cont,
    NoDup o -> NoDup i -> (forall a, In a o <-> In a i) -> i <> [] -> i = roles g ->
    holds ix o i cont None t ->
    replay title cx x (sl ++ (None, KChoice s) :: more) true g t = Fine (g', t') ->
    holds ix o i (cont ++ ms) (Some (cx, s)) t' /\
    enums t' = enums t /\ sub_trees t' = sub_trees t /\
    keeps g g' /\ loops g' = loops g /\ grows (clocks g) (clocks g') /\ clocked (clocks g') ms.
  Proof.
    induction 1 as [|m [rt k] ms sl [Hk Hrt] Hsl IH]; intros g t g' t' ix o i cont No Ni Hoi Hne Hi Hh H;
      cbn [app replay] in H; [cbn [starts_loop] in H|cbn [fst snd] in *; subst k;
        assert (starts_loop x rt = false) as Ert by (destruct rt; [exact Hrt|reflexivity]); rewrite Ert in H].
    - open H. injection H as <- <-. rewrite app_nil_r. rewrite <- Hi in E.
      apply (choice_loop_holds title ix o i cont) in E as (_ & F1 & F2 & F3); auto.
      do 3 (split; [easy|]). split; [apply keeps_refl|]. split; [easy|].
      split; [apply grows_refl|constructor].
    - open H. destruct a as [g1 t1].
      apply (update_messages_holds ix o i cont) in E as (F1 & F2 & F3 & F4 & F5 & F6 & F7); auto.
      assert (i = roles g1) as Hi1 by (destruct F4; congruence).
      destruct (IH g1 t1 g' t' ix o i (cont ++ [m]) No Ni Hoi Hne Hi1 F1 H)
        as (G1 & G2 & G3 & G4 & G5 & G6 & G7).
      rewrite <- app_assoc in G1. split; [easy|]. split; [congruence|]. split; [congruence|].
      split; [eapply keeps_trans; eauto|]. split; [congruence|]. split; [eapply grows_trans; eauto|].
      constructor; [|easy]. eapply clocked_grows in F7; [|exact G6]. now inversion F7.
  Qed.

  (** ** A branch *)

  (** The content of a branch. *)
  Definition branch_messages (x : option str) (ins : list msg) (b : branch) : list msg :=
    said b ++ match x with Some _ => if again b then ins else [] | None => [] end.
  Definition branch_choice (x : option str) (s : str) (b : branch) : option (str * str) :=
    match x with Some _ => if again b then Some (lit "0", s) else None | None => None end.

  (** What the loop has saved. *)
  Definition loop_saved (x : option str) (ins : list msg) (s : str)
    (m : hmap (str * list (option str * kind))) : Prop :=
    match x with
    | None => True
    | Some x => exists lt sl more, contains x lt = true /\ said_lines (not_start (Some x)) ins sl /\
        hget m x = Some (lit "0", (Some lt, KRec x) :: sl ++ (None, KChoice s) :: more)
    end.

  Lemma loop_saved_saved x ins s m ks : loop_saved x ins s m -> loop_saved x ins s (saved ks m).
  Proof.
    destruct x as [x|]; [|easy]. intros (lt & sl & more & Hlt & Hsl & H). exists lt, sl, (more ++ ks). split; [exact Hlt|]. split; [exact Hsl|].
    rewrite (hget_saved ks _ _ _ _ H). cbn [app]. now rewrite <- app_assoc.
  Qed.

  Lemma run_branch x ins s b bl fuel n rest g parent main res ix o i :
    branch_as x b bl -> n <> 0 -> closing g + 1 < opening g ->
    NoDup o -> NoDup i -> (forall a, In a o <-> In a i) -> i <> [] -> i = roles g ->
    loop_saved x ins s (loops g) ->
    holds ix o i [] None main ->
    process_line fuel n (bl ++ rest) g parent main 1 = Fine res ->
    exists fuel' n' g' main',
      n' <> 0 /\ process_line fuel' n' rest g' parent main' 1 = Fine res /\
      keeps g g' /\ loop_saved x ins s (loops g') /\
      holds ix o i (branch_messages x ins b) (branch_choice x s b) main' /\
      enums main' = enums main /\ sub_trees main' = sub_trees main /\
      grows (clocks g) (clocks g') /\ clocked (clocks g') (branch_messages x ins b).
  Proof.
    intros [ls Hls] Hn Hc No Ni Hoi Hne Hi Hl Hh H. rewrite <- app_assoc in H. unfold continue_as in H.
    apply (run_messages _ _ _ Hls) with (ix := ix) (o := o) (i := i) (cont := []) in H
      as (f' & n' & g1 & main1 & sl & _ & G1 & G2 & G3 & G4 & G5 & G6 & G7 & G8 & G9); [|easy|lia|lia|easy..].
    assert (loop_saved x ins s (loops g1)) as Hl1 by (rewrite G4; now apply loop_saved_saved).
    cbn [app] in G5. destruct G3 as [K1 K2 K3 K4].
    destruct x as [x|]; [destruct (again b) eqn:Eb|].
    - cbn [app] in G2. apply step_line in G2 as (f & -> & cx & sv & g2 & main2 & E1 & E2 & E3);
        [|split; cbn; try lia; easy|easy].
      destruct Hl1 as (lt & sl1 & more & Hlt & Hsl1 & Hl1). rewrite E1 in Hl1. injection Hl1 as -> ->.
      cbn [replay starts_loop] in E2. rewrite Hlt in E2.
      assert (i = roles (counted (plain (KContinue x)) g1)) as Hi1 by (cbn; congruence).
      destruct (replay_messages _ _ _ _ _ _ Hsl1 _ _ _ _ _ _ _ _ No Ni Hoi Hne Hi1 G5 E2)
        as (F1 & F2 & F3 & F4 & F5 & F6 & F7).
      exists f, (S n'), g2, main2. split; [easy|]. split; [easy|].
      destruct F4 as [L1 L2 L3 L4]. cbn in L1, L2, L3, L4, F5, F6.
      split; [constructor; try congruence; lia|].
      split; [cbn; rewrite F5; eauto 9|].
      unfold branch_messages, branch_choice. rewrite Eb. split; [easy|]. split; [congruence|].
      split; [congruence|]. split; [eapply grows_trans; eauto|].
      apply Forall_app. split; [|easy]. eapply clocked_grows; eauto.
    - exists f', n', g1, main1. cbn [app] in G2. unfold branch_messages, branch_choice. rewrite Eb, app_nil_r.
      do 8 (split; [easy || now constructor|]). easy.
    - exists f', n', g1, main1. cbn [app] in G2. unfold branch_messages, branch_choice. rewrite app_nil_r.
      do 8 (split; [easy || now constructor|]). easy.
  Qed.

  (** ** All the branches *)

  Definition with_subs (p : tree) (e : hmap (str * nat)) (l : list tree) : tree :=
    Tree (index p) (messages_with_payloads p) (messages p) (first_message p) (previous p)
      (last_message p) (stacks p) (first_stack p) (last_stack p) e (endpoints p) l.

  Lemma holds_with_subs ix o i ms ch t e l : holds ix o i ms ch t -> holds ix o i ms ch (with_subs t e l).
  Proof. intros [[] ? ?]. constructor; auto. constructor; auto. Qed.

  Lemma init_sub_tree_holds i ix s :
    NoDup i -> holds ix i i [] None (init_sub_tree i ix s) /\ sub_trees (init_sub_tree i ix s) = [].
  Proof.
    intros Ni. unfold init_sub_tree.
    destruct (init_shape i i ix (set_enums (empty_tree ix) [(index_text ix, (s, 0%nat))]) Ni Ni)
      as (H1 & H2 & H3 & H4); auto.
    split; [|exact H3]. constructor; [|easy|].
    - eapply shape_ext; [exact H1|easy..].
    - rewrite H4. reflexivity.
  Qed.

  Definition sub_ok (i : list str) (x : option str) (ins : list msg) (s : str) (k : nat) (b : branch)
    (t : tree) : Prop :=
    holds [0%nat; k] i i (branch_messages x ins b) (branch_choice x s b) t /\ sub_trees t = [].

  Definition loop_depth (x : option str) : nat := match x with Some _ => 1 | None => 0 end.

  Lemma run_branches x ins s bs bls : branches_as x bs bls -> forall b bl k fuel n g parent main n' rest' g' parent' main' offset' i,
    branch_as x b bl -> n <> 0 -> opening g = closing g + 2 + loop_depth x ->
    NoDup i -> i <> [] -> i = roles g -> loop_saved x ins s (loops g) ->
    holds [0%nat; k] i i [] None main -> sub_trees main = [] ->
    enums parent = [(index_text [0%nat; 0%nat], (s, k))] ->
    process_line fuel n
      (bl ++ bls ++ close_line :: loop_close x ++ [close_line]) g parent main 1 =
      Fine (n', rest', g', parent', main', offset') ->
    exists subs,
      offset' = 1 /\ n' <> 0 /\
      (rest' = [close_line] /\ opening g' = closing g' + 1 \/ rest' = [] /\ opening g' = closing g') /\
      output g' = output g /\ roles g' = roles g /\
      sub_ok i x ins s k b main' /\
      parent' = with_subs parent [(index_text [0%nat; 0%nat], (s, k + length bs))]
                  (sub_trees parent ++ rev subs) /\
      length subs = length bs /\
      (forall j b t, nth_error bs j = Some b -> nth_error subs j = Some t ->
         sub_ok i x ins s (S k + j) b t) /\
      grows (clocks g) (clocks g') /\
      clocked (clocks g') (flat_map (branch_messages x ins) (b :: bs)).
  Proof.
    induction 1 as [|b' bs bl' bls Hb' Hbs IH]; intros b bl k fuel n g parent main n' rest' g' parent' main'
      offset' i Hb Hn Hc Ni Hne Hi Hl Hh Hst He H.
    - apply (run_branch x ins s b bl) with (ix := [0%nat; k]) (o := i) (i := i) in H
        as (f' & n1 & g1 & main1 & G1 & G2 & G3 & G4 & G5 & G6 & G7 & G8 & G9);
        [|easy|easy|lia|easy|easy|easy|easy|easy|easy|easy].
      destruct G3 as [K1 K2 K3 K4]. cbn [app] in G2.
      assert (exists f'' n2 g2, process_line f'' n2 [close_line; close_line] g2 parent main1 1 =
                Fine (n', rest', g', parent', main', offset') /\
              opening g2 = closing g2 + 2 /\ output g2 = output g1 /\ roles g2 = roles g1 /\
              clocks g2 = clocks g1) as (f'' & n2 & g2 & E1 & E2 & E3 & E4 & E5).
      { destruct x as [x|]; cbn [loop_close app loop_depth] in *.
        - apply step_line in G2 as (f & -> & G2); [|split; cbn; try lia; split; try lia; easy|easy].
          cbn [what close_line] in G2. eexists _, _, _. split; [exact G2|]. cbn. repeat split; try easy. lia.
        - eexists _, _, _. split; [exact G2|]. repeat split; try easy. lia. }
      apply stop_line in E1; [|lia|cbn; lia|cbn; lia].
      injection E1 as -> -> -> -> -> ->. exists [].
      split; [easy|]. split; [easy|]. split. { left. split; [easy|]. cbn. lia. }
      cbn [counted output roles]. split; [congruence|]. split; [congruence|].
      split. { split; [easy|congruence]. }
      split. { cbn [length rev]. rewrite Nat.add_0_r, app_nil_r, <- He. now destruct parent. }
      split; [easy|]. split. { intros [|j]; easy. }
      cbn [clocks counted flat_map]. rewrite E5, app_nil_r. split; easy.
    - apply (run_branch x ins s b bl) with (ix := [0%nat; k]) (o := i) (i := i) in H
        as (f' & n1 & g1 & main1 & G1 & G2 & G3 & G4 & G5 & G6 & G7 & G8 & G9);
        [|easy|easy|lia|easy|easy|easy|easy|easy|easy|easy].
      destruct G3 as [K1 K2 K3 K4]. cbn [app] in G2.
      apply step_line in G2 as (f & -> & lst & up & s' & count & n2 & rest2 & g2 & parent2 & sub & off2 &
        E1 & E2 & E3 & E4); [|split; cbn; try lia; split; try lia; easy|easy].
      assert (index main1 = [0%nat; k]) as Hix by apply G5.
      rewrite Hix in E1. injection E1 as <- <-. cbn [rev app] in E2, E3.
      rewrite He in E2. change (Some (s, k) = Some (s', count)) in E2. injection E2 as <- <-.
      rewrite He in E3.
      change (hset (index_text [0%nat; 0%nat]) (s, S k) [(index_text [0%nat; 0%nat], (s, k))])
        with [(index_text [0%nat; 0%nat], (s, S k))] in E3.
      rewrite K2, <- Hi in E3.
      destruct (init_sub_tree_holds i [0%nat; S k] s Ni) as [Hs1 Hs2].
      rewrite <- app_assoc in E3.
      apply IH with (i := i) (k := S k) (b := b') in E3
        as (subs & F1 & F2 & F3 & F4 & F5 & F6 & F7 & F8 & F9 & F10 & F11);
        [|easy|easy|cbn; lia|easy|easy|cbn; congruence|easy|easy|easy|reflexivity].
      subst off2. subst parent2.
      assert (n' <> 0 /\ offset' = 1 /\ rest' = [] /\ opening g' = closing g' /\ output g' = output g2 /\
              roles g' = roles g2 /\ clocks g' = clocks g2 /\ main' = main1 /\
              parent' = push_sub_tree (with_subs (set_enums parent [(index_text [0%nat; 0%nat], (s, S k))])
                 [(index_text [0%nat; 0%nat], (s, S k + length bs))]
                 (sub_trees (set_enums parent [(index_text [0%nat; 0%nat], (s, S k))]) ++ rev subs)) sub)
        as (Q1 & Q2 & Q3 & Q4 & Q5 & Q6 & Q7 & Q8 & Q9).
      { destruct F3 as [[-> F3]|[-> F3]].
        - apply stop_line in E4; [|lia|cbn; lia|cbn; lia]. injection E4 as -> -> -> -> -> ->.
          cbn. repeat split; try easy. lia.
        - apply no_line in E4. injection E4 as -> -> -> -> -> ->. repeat split; easy. }
      exists (sub :: subs). split; [easy|]. split; [easy|]. split; [now right|].
      cbn in F4, F5. split; [congruence|]. split; [congruence|].
      subst main'. split. { split; [easy|congruence]. }
      split. { rewrite Q9. unfold push_sub_tree, with_subs. cbn [set_enums index messages_with_payloads
        messages first_message previous last_message stacks first_stack last_stack endpoints sub_trees
        enums rev length]. rewrite <- app_assoc.
        now replace (k + S (length bs)) with (S k + length bs) by lia. }
      split; [cbn; congruence|]. split.
      { intros [|j] b1 t1 Hb1 Ht; cbn [nth_error] in Hb1, Ht.
        - injection Hb1 as <-. injection Ht as <-. rewrite Nat.add_0_r. exact F6.
        - rewrite Nat.add_succ_r. now apply F9. }
      split. { rewrite Q7. eapply grows_trans; [exact G8|]. exact F10. }
      rewrite Q7. cbn [flat_map]. apply Forall_app. split; [|exact F11].
      eapply clocked_grows; [exact F10|exact G9].
  Qed.

  (** ** A protocol *)

  (** The trees of a protocol: the one of the start, those of the branches. *)
  Definition start_choice (p : proto) : option (str * str) :=
    match ending p with Some (s, _, _) => Some (lit "0", s) | None => None end.

  Record parsed (p : proto) (g : global) (main : tree) (subs : list tree) : Prop := Parsed {
    pa_output : output g = true;
    pa_roles : roles g = sort_by (fun r => r) (p_roles p);
    pa_main : holds [0%nat] (p_roles p) (sort_by (fun r => r) (p_roles p)) (before p ++ inside p)
      (start_choice p) main;
    pa_subs : sub_trees main = subs;
    pa_enums : enums main =
      match ending p with
      | Some (s, _, bs) => [(index_text [0%nat; 0%nat], (s, length bs))]
      | None => []
      end;
    pa_branches :
      match ending p with
      | Some (s, b, bs) =>
          exists t ts, subs = rev ts ++ [t] /\ length ts = length bs /\
            sub_ok (sort_by (fun r => r) (p_roles p)) (loop p) (inside p) s 0 b t /\
            (forall j b t, nth_error bs j = Some b -> nth_error ts j = Some t ->
               sub_ok (sort_by (fun r => r) (p_roles p)) (loop p) (inside p) s (S j) b t)
      | None => subs = []
      end;
    pa_clocks : clocked (clocks g) (before p ++ inside p ++
      match ending p with
      | Some (_, b, bs) => flat_map (branch_messages (loop p) (inside p)) (b :: bs)
      | None => []
      end);
    pa_choice : match ending p with Some (s, _, _) => In s (p_roles p) | None => True end
  }.

  Lemma sort_nodup l : NoDup l -> NoDup (sort_by (fun r => r) l).
  Proof. intros H. eapply Permutation_NoDup; [symmetry; apply sort_perm|exact H]. Qed.
  Lemma sort_in l a : In a l <-> In a (sort_by (fun r => r) l).
  Proof.
    split; intros H; eapply Permutation_in; try exact H; [symmetry|]; apply sort_perm.
  Qed.

  Lemma run_proto lt name p lines fuel res :
    proto_as lt name p lines -> NoDup (p_roles p) -> p_roles p <> [] ->
    process_line fuel 0 lines (Global false [] [] [] [] 0 0)
      (empty_tree []) (empty_tree [0%nat]) 0 = Fine res ->
    exists n' rest' g parent main off subs,
      res = (n', rest', g, parent, main, off) /\ opening g = closing g /\ parsed p g main subs.
  Proof.
    intros [ht ls1 ls2 ls3 Hls1 Hls2 Hls3 Hlt] Nr Hne H. set (i := sort_by (fun r => r) (p_roles p)) in *.
    assert (NoDup i) as Ni by now apply sort_nodup.
    assert (forall a, In a (p_roles p) <-> In a i) as Hoi by (intros a; apply sort_in).
    assert (i <> []) as Hnei.
    { destruct (p_roles p) as [|r rs] eqn:Er; [easy|]. intros E. assert (In r i) as Q.
      { apply Hoi. now left. } now rewrite E in Q. }
    destruct fuel as [|f]; [discriminate|].
    cbn [Nuscr.process_line opening closing opens closes what blank Nat.add Nat.ltb Nat.leb Nat.eqb roles
         payloads clocks loops output app] in H.
    destruct (init_shape (p_roles p) i [0%nat] (empty_tree [0%nat]) Nr Ni) as (S1 & S2 & S3 & S4); auto.
    fold i in H. change (index_text [0%nat]) with (lit "0") in S1, S2, S3, S4.
    set (m0 := init_messages i (lit "0") (init_roles (p_roles p) (lit "0") (empty_tree [0%nat]))) in *.
    assert (holds [0%nat] (p_roles p) i [] None m0) as H0.
    { constructor; [|easy|now rewrite S4]. eapply shape_ext; [exact S1|easy..]. }
    clear S1 S4. change (enums m0 = []) in S2. change (sub_trees m0 = []) in S3. clearbody m0.
    apply (run_messages _ _ _ Hls1) with (ix := [0%nat]) (o := p_roles p) (i := i) (cont := []) in H
      as (f1 & n1 & g1 & m1 & sl1 & _ & A1 & A2 & [A3 A4 A5 A6] & A7 & A8 & A9 & A10 & A11 & A12);
      [|easy|lia|cbn; lia|easy..].
    cbn in A3, A4, A5, A6, A7. cbn [app] in A8.
    assert (exists f2 n2 g2, n2 <> 0 /\
      process_line f2 n2 (ls2 ++ ls3 ++ loop_close (loop p) ++ [close_line]) g2
        (empty_tree []) m1 0 = Fine res /\
      output g2 = true /\ roles g2 = i /\ opening g2 = closing g2 + 1 + loop_depth (loop p) /\
      clocks g2 = clocks g1 /\
      match loop p with Some x => loops g2 = [(x, (lit "0", [(Some lt, KRec x)]))] | None => True end)
      as (f2 & n2 & g2 & B1 & B2 & B3 & B4 & B5 & B6 & B7).
    { destruct (loop p) as [x|]; cbn [app loop_depth loop_open] in *.
      - apply step_line in A2 as (ff & -> & A2); [|split; cbn; try lia; split; try lia; easy|easy].
        cbn [what] in A2. eexists _, _, _. split; [|split; [exact A2|]]; [easy|].
        cbn. rewrite A7. unfold saved. cbn.
        assert (index m1 = [0%nat]) as -> by apply A8.
        repeat split; try easy. lia.
      - eexists _, _, _. split; [|split; [exact A2|]]; [easy|]. repeat split; try easy. lia. }
    apply (run_messages _ _ _ Hls2) with (ix := [0%nat]) (o := p_roles p) (i := i) (cont := before p) in B2
      as (f3 & n3 & g3 & m3 & sl3 & Hsl3 & C1 & C2 & [C3 C4 C5 C6] & C7 & C8 & C9 & C10 & C11 & C12);
      [|easy|lia|lia|easy|easy|congruence|easy].
    destruct (ending p) as [[[s b] bs]|] eqn:Ee; inversion Hls3 as [|s0 b0 bs0 bl bls Hbl Hbls]; subst;
      cbn [app] in C2.
    - apply step_line in C2 as (ff & -> & C2); [|split; cbn; try lia; split; try lia; easy|easy].
      cbn [what plain] in C2.
      destruct C2 as (main2 & n' & rest' & g4 & main3 & sub & off' & D1 & D2 & D3).
      assert (index m3 = [0%nat]) as Hix by apply C8. rewrite Hix in D1, D2.
      cbn [app] in D1, D2. change (index_text [0%nat]) with (lit "0") in D1.
      assert (roles g3 = i) as Hr3 by congruence. rewrite Hr3 in D1, D2.
      apply (choice_loop_holds title [0%nat] (p_roles p) i (before p ++ inside p)) in D1
        as (Hs & E1 & E2 & E3); auto.
      2:{ eapply (holds_with_subs _ _ _ _ _ m3 _ (sub_trees m3)). exact C8. }
      cbn [enums set_enums sub_trees] in E2, E3.
      assert (enums m3 = []) as Hem by congruence. assert (sub_trees m3 = []) as Hsm by congruence.
      rewrite Hem in E2. rewrite Hsm in E3. cbn [hset] in E2.
      destruct (init_sub_tree_holds i [0%nat; 0%nat] s Ni) as [Hs1 Hs2].
      apply step_line in D2 as (f4 & -> & D2); [|split; cbn; try lia; split; try lia; easy|easy].
      cbn [what] in D2. rewrite <- !app_assoc in D2. cbn [app] in D2.
      apply (run_branches (loop p) (inside p) s bs bls Hbls b) with (k := 0) (i := i) in D2
        as (subs & F1 & F2 & F3 & F4 & F5 & F6 & F7 & F8 & F9 & F10 & F11);
        [|easy|easy|cbn; lia|easy|easy|cbn; congruence| |easy|easy|easy].
      2:{ destruct (loop p) as [x|]; [|easy]. cbn [loop_saved counted save loops].
          rewrite C7, B7. exists lt, sl3, []. cbn. now rewrite seqb_refl. }
      cbn [counted save output roles clocks] in F4, F5, F10.
      rewrite E3 in F7. cbn [app] in F7. subst main3 off'.
      assert (exists n'' rest'' g5 off'', res = (n'', rest'', g5, empty_tree [], push_sub_tree
          (with_subs main2 [(index_text [0%nat; 0%nat], (s, 0 + length bs))] (rev subs)) sub, off'') /\
          opening g5 = closing g5 /\ output g5 = output g4 /\ roles g5 = roles g4 /\ clocks g5 = clocks g4)
        as (n'' & rest'' & g5 & off'' & -> & G1 & G2 & G3 & G4).
      { destruct F3 as [[-> F3]|[-> F3]].
        - apply stop_line in D3; [|lia|cbn; lia|cbn; lia]. subst res. eexists _, _, _, _.
          split; [reflexivity|]. cbn. repeat split; try easy. lia.
        - apply no_line in D3. subst res. eexists _, _, _, _. split; [reflexivity|]. easy. }
      eexists _, _, _, _, _, _, _. split; [reflexivity|]. split; [easy|].
      constructor; try rewrite Ee.
      + congruence.
      + fold i. congruence.
      + fold i. unfold start_choice. rewrite Ee.
        apply (holds_with_subs [0%nat] (p_roles p) i _ _ main2
                 [(index_text [0%nat; 0%nat], (s, 0 + length bs))] (rev subs ++ [sub])). exact E1.
      + reflexivity.
      + reflexivity.
      + exists sub, subs. split; [reflexivity|]. split; [easy|]. split; [exact F6|exact F9].
      + rewrite G4. apply Forall_app. split.
        * eapply clocked_grows; [|exact A12]. rewrite <- B6.
          eapply grows_trans; [exact C11|exact F10].
        * apply Forall_app. split; [|exact F11]. eapply clocked_grows; [exact F10|exact C12].
      + now apply Hoi.
    - assert (exists n'' rest'' g5 off'', res = (n'', rest'', g5, empty_tree [], m3, off'') /\
          opening g5 = closing g5 /\ output g5 = output g3 /\ roles g5 = roles g3 /\ clocks g5 = clocks g3)
        as (n'' & rest'' & g5 & off'' & -> & G1 & G2 & G3 & G4).
      { destruct (loop p) as [x|]; cbn [app loop_depth loop_close] in *.
        - apply step_line in C2 as (ff & -> & C2); [|split; cbn; try lia; split; try lia; easy|easy].
          cbn [what close_line] in C2. apply stop_line in C2; [|lia|cbn; lia|cbn; lia].
          subst res. eexists _, _, _, _. split; [reflexivity|]. cbn. repeat split; try easy. lia.
        - apply stop_line in C2; [|lia|cbn; lia|cbn; lia].
          subst res. eexists _, _, _, _. split; [reflexivity|]. cbn. repeat split; try easy. lia. }
      eexists _, _, _, _, _, _, _. split; [reflexivity|]. split; [easy|].
      constructor; try rewrite Ee.
      + congruence.
      + fold i. congruence.
      + fold i. unfold start_choice. now rewrite Ee.
      + reflexivity.
      + congruence.
      + congruence.
      + rewrite G4, app_nil_r. apply Forall_app. split; [|easy].
        eapply clocked_grows; [|exact A12]. rewrite <- B6. exact C11.
      + exact Logic.I.
  Qed.
End Title.
