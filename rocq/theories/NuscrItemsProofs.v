(** * The names of the generated file *)

From Coq Require Import Ascii String ZArith Bool Lia List.
From Verif Require Import Checker CheckerText CheckerAll Nuscr NuscrSpec NuscrMaps NuscrTree NuscrRun NuscrFile
  NuscrNames NuscrStructs NuscrItems.
Import ListNotations.

Section Title.
  Variable title : str -> str.

  (** ** Every name in use is declared *)

  Lemma number_messages_in ix a b l : forall k d, In d (number_messages title ix k a b l) ->
    exists j dir m, In (dir, m) l /\ (k <= j < k + length l)%nat /\ d = message_decl title ix j dir a b m.
  Proof.
    induction l as [|[dir m] l IH]; intros k d; [easy|]. cbn [number_messages]. intros [<-|H].
    - exists k, dir, m. split; [now left|]. split; [cbn; lia|reflexivity].
    - destruct (IH _ _ H) as (j & dir' & m' & A & B & ->). exists j, dir', m'.
      split; [now right|]. split; [cbn [length]; lia|reflexivity].
  Qed.
  Lemma number_stacks_in ix a l : forall k d, In d (number_stacks ix k a l) ->
    exists j r, In r l /\ (k <= j < k + length l)%nat /\ d = (ordering_name ix j a, RoleOf r (ordering_name ix (S j) a)).
  Proof.
    induction l as [|r l IH]; intros k d; [easy|]. cbn [number_stacks]. intros [<-|H].
    - exists k, r. split; [now left|]. split; [cbn; lia|reflexivity].
    - destruct (IH _ _ H) as (j & r' & A & B & ->). exists j, r'.
      split; [now right|]. split; [cbn [length]; lia|reflexivity].
  Qed.
  Lemma in_proj_in a b ms d m : In (d, m) (proj a b ms) -> In m ms.
  Proof.
    unfold proj. intros H. apply in_flat_map in H as (m' & Hm & H).
    destruct (_ && _); [destruct H as [[= _ <-]|[]]; exact Hm|].
    destruct (_ && _); [destruct H as [[= _ <-]|[]]; exact Hm|easy].
  Qed.
  Lemma in_partners_in a ms r : In r (partners a ms) -> exists m, In m ms /\ (r = sender m \/ r = receiver m).
  Proof.
    unfold partners. intros H. apply in_flat_map in H as (m & Hm & H). exists m. split; [exact Hm|].
    destruct (seqb (sender m) a); [destruct H as [<-|[]]; auto|].
    destruct (seqb (receiver m) a); [destruct H as [<-|[]]; auto|easy].
  Qed.
  Lemma part_choice_ending p i s : part_choice p i = Some s -> exists b bs, ending p = Some (s, b, bs).
  Proof.
    unfold part_choice. destruct i as [i|]; destruct (ending p) as [[[s' b] bs]|]; try discriminate.
    - destruct (nth_error (b :: bs) i) as [b'|]; [|discriminate]. destruct (loop p); [|discriminate].
      destruct (again b'); [|discriminate]. intros [= ->]. eauto.
    - intros [= ->]. eauto.
  Qed.

  Lemma function_in p f i r n :
    written title p f -> part p i -> In r (p_roles p) -> (n <= last (part_index i) 0)%nat ->
    exists cs, In (r, part_index i, n, endpoint_name (part_text i) r, cs) (functions f).
  Proof.
    intros W Hi Hr Hn. pose proof (wr_functions _ _ _ W) as E.
    assert (In (r, part_index i, n, endpoint_name (part_text i) r)
      (map (fun x : str * list nat * nat * str * list str => fst x) (functions f))) as K.
    { rewrite E. apply in_flat_map. exists i. split; [now apply parts_ok|]. apply in_flat_map. exists r.
      split; [now apply sort_in in Hr|]. apply in_map_iff. exists n. split; [reflexivity|].
      apply in_seq. lia. }
    apply in_map_iff in K as ([k cs] & E' & K). cbn [fst] in E'. subst k. eauto.
  Qed.
  Lemma function_of p f r ix n ty cs :
    written title p f -> In (r, ix, n, ty, cs) (functions f) ->
    exists i, part p i /\ In r (p_roles p) /\ ix = part_index i /\ (n <= last ix 0)%nat /\
      ty = endpoint_name (part_text i) r.
  Proof.
    intros W H. apply (in_map (fun x : str * list nat * nat * str * list str => fst x)) in H.
    rewrite (wr_functions _ _ _ W) in H. apply in_flat_map in H as (i & Hi & H).
    apply in_flat_map in H as (r' & Hr & H). apply in_map_iff in H as (n' & [= <- <- <- <-] & Hn).
    apply in_seq in Hn. exists i. split; [now apply parts_ok|]. split; [now apply sort_in|].
    split; [reflexivity|]. split; [lia|reflexivity].
  Qed.

  Lemma endpoint_declared p f i r : written title p f -> part p i -> In r (p_roles p) ->
    In (endpoint_name (part_text i) r) (map ep_name (endpoint_types f)).
  Proof.
    intros W Hi Hr. rewrite (wr_endpoints _ _ _ W), map_flat_map. apply in_flat_map. exists i.
    split; [now apply parts_ok|]. unfold part_endpoints. rewrite map_map. cbn [ep_name].
    apply in_map_iff. exists r. split; [reflexivity|now apply sort_in in Hr].
  Qed.
  Lemma message_declared p f i k a b :
    written title p f -> part p i -> In a (p_roles p) -> In b (p_roles p) -> a <> b ->
    (k <= length (proj a b (part_messages p i)))%nat ->
    In (message_name (part_text i) k a b) (map fst (types f)).
  Proof.
    intros W Hi Ha Hb Hab Hk. rewrite (wr_types _ _ _ W), map_app, !map_flat_map. apply in_app_iff. left.
    apply in_flat_map. exists i. split; [now apply parts_ok|]. unfold part_sessions. rewrite map_flat_map.
    apply in_flat_map. exists a. split; [now apply order_in|]. rewrite map_flat_map. apply in_flat_map. exists b.
    split; [apply in_others; split; [now apply sort_in in Hb|congruence]|].
    rewrite session_block_names. apply in_map_iff. exists k. split; [reflexivity|]. apply in_seq. lia.
  Qed.
  Lemma ordering_declared p f i k a :
    written title p f -> part p i -> In a (p_roles p) ->
    (k <= length (partners a (part_messages p i)))%nat ->
    In (ordering_name (part_text i) k a) (map fst (types f)).
  Proof.
    intros W Hi Ha Hk. rewrite (wr_types _ _ _ W), map_app, !map_flat_map. apply in_app_iff. right.
    apply in_flat_map. exists i. split; [now apply parts_ok|]. unfold part_stacks. rewrite map_flat_map.
    apply in_flat_map. exists a. split; [now apply order_in|].
    rewrite stack_block_names. apply in_map_iff. exists k. split; [reflexivity|]. apply in_seq. lia.
  Qed.
  Lemma enum_declared p f s b bs r : written title p f -> ending p = Some (s, b, bs) ->
    In r (p_roles p) -> r <> s -> In (choice_name (lit "0") s r) (map fst (enum_types f)).
  Proof.
    intros W Ee Hr Hrs. rewrite (wr_enums _ _ _ W), Ee, map_flat_map. apply in_flat_map. exists r.
    split; [now apply sort_in in Hr|]. apply seqb_false in Hrs. rewrite Hrs. now left.
  Qed.
  Lemma baked_in p f r x : written title p f -> In r (p_roles p) -> In x (baked_for r) -> In x (given f).
  Proof.
    intros W Hr Hx. unfold given, baked. rewrite !in_app_iff. right. right. right.
    apply in_flat_map. exists r. split; [|exact Hx]. rewrite (wr_roles _ _ _ W). now apply sort_in in Hr.
  Qed.
  Lemma import_in f x : In x [lit "End"; lit "RecvTimed"; lit "SendTimed"; lit "RoleEnd"; lit "HashMap"; lit "Error";
    lit "Instant"; lit "Result"; lit "Box"; lit "MeshedChannels"] -> In x (given f).
  Proof.
    unfold given, imports, prelude, baked. rewrite !in_app_iff. cbn [In].
    intuition (subst; auto 20).
  Qed.
  Lemma broadcast_in p f s b bs : written title p f -> ending p = Some (s, b, bs) ->
    In (lit "RoleBroadcast") (given f).
  Proof.
    intros W Ee. assert (has_sub_trees f = true) as K.
    { pose proof (wr_choice _ _ _ W) as C. rewrite Ee in C.
      destruct (function_in p f (Some 0%nat) s 0 W) as (cs & Hx).
      - unfold part. rewrite Ee. lia.
      - exact C.
      - lia.
      - unfold has_sub_trees. apply existsb_exists. eexists. split; [exact Hx|reflexivity]. }
    unfold given, imports. rewrite K, !in_app_iff. cbn [In]. auto 20.
  Qed.

  Lemma uses_declared p f :
    written title p f -> declared title p f -> (forall m, spoken p m -> lb m <> lit "-2") ->
    incl (uses f) (type_names f ++ given f).
  Proof.
    intros W D B x Hx. unfold uses, type_names in *. rewrite !in_app_iff in *.
    destruct Hx as [Hx|[Hx|[Hx|[Hx|Hx]]]]; apply in_flat_map in Hx.
    - destruct Hx as ([n [pl|]] & Hs & Hx); [|easy]. destruct Hx as [<-|[]]. left. left.
      destruct (de_only _ _ _ D n (Some pl) Hs) as [(m & M1 & M2 & M3 & M4)|(m & q & _ & _ & _ & E)]; [|discriminate].
      unfold struct_field, pay_text in M3. destruct (payload m) as [q|] eqn:Eq; [|discriminate].
      destruct q as [|c q]; [discriminate|]. injection M3 as ->. now apply M4.
    - destruct Hx as ([n b] & Hd & Hx). cbn [snd] in Hx. rewrite (wr_types _ _ _ W) in Hd.
      apply in_app_iff in Hd as [Hd|Hd]; apply in_flat_map in Hd as (i & Hi & Hd); apply parts_ok in Hi.
      + apply in_flat_map in Hd as (a & Ha & Hd). apply order_in in Ha. apply in_flat_map in Hd as (b' & Hb & Hd).
        apply in_others in Hb as [Hb Hab]. apply sort_in in Hb. unfold session_block in Hd.
        apply in_app_iff in Hd as [Hd|Hd].
        * apply number_messages_in in Hd as (j & dir & m & Hm & Hj & [= -> ->]).
          apply in_proj_in in Hm. destruct Hx as [<-|[<-|[<-|[]]]].
          -- right. apply import_in. cbn. destruct dir; auto.
          -- left. left. apply (de_label _ _ _ D); [now exists i|]. apply B. now exists i.
          -- left. right. left. apply (message_declared p); auto. lia.
        * destruct Hd as [[= <- <-]|[]]. unfold choice_of in Hx.
          destruct (part_choice p i) as [s|] eqn:Ec; cbn [option_map] in Hx.
          2: { destruct Hx as [<-|[]]. right. apply import_in. now left. }
          destruct (part_choice_ending p i s Ec) as (b0 & bs & Ee).
          assert (forall dir r, r <> s -> In r (p_roles p) -> In x (body_uses (choice_decl (lit "0") dir s r)) ->
            (In x (map fst (structs f)) \/ In x (map fst (types f)) \/ In x (map fst (enum_types f)) \/
             In x (map ep_name (endpoint_types f))) \/ In x (given f)) as K.
          { intros dir r Hr Hr' [<-|[<-|[<-|[]]]].
            - right. apply import_in. cbn. destruct dir; auto.
            - left. right. right. left. now apply (enum_declared p f s b0 bs).
            - right. apply import_in. now left. }
          destruct (seqb a s) eqn:E1.
          -- apply seqb_true in E1. subst a. now apply (K true b').
          -- apply seqb_false in E1. destruct (seqb b' s) eqn:E2; [now apply (K false a)|].
             destruct Hx as [<-|[]]. right. apply import_in. now left.
      + apply in_flat_map in Hd as (a & Ha & Hd). apply order_in in Ha. unfold stack_block in Hd.
        apply in_app_iff in Hd as [Hd|Hd].
        * apply number_stacks_in in Hd as (j & r & Hr & Hj & [= -> ->]).
          apply in_partners_in in Hr as (m & Hm & Hr).
          pose proof (proj1 (Forall_forall _ _) (wr_roles_ok _ _ _ W i Hi) m Hm) as (R1 & R2 & _).
          destruct Hx as [<-|[<-|[]]].
          -- right. apply (baked_in p f r); [exact W|destruct Hr as [-> | ->]; assumption|now left].
          -- left. right. left. apply (ordering_declared p); auto. lia.
        * destruct Hd as [[= <- <-]|[]]. unfold choice_of in Hx.
          destruct (part_choice p i) as [s|] eqn:Ec; cbn [option_map] in Hx.
          2: { destruct Hx as [<-|[]]. right. apply import_in. cbn. auto. }
          destruct (part_choice_ending p i s Ec) as (b0 & bs & Ee). destruct (seqb a s).
          -- destruct Hx as [<-|[]]. right. now apply (broadcast_in p f s b0 bs).
          -- pose proof (wr_choice _ _ _ W) as C. rewrite Ee in C. destruct Hx as [<-|[<-|[]]]; right.
             ++ apply (baked_in p f s); [exact W|exact C|now left].
             ++ apply import_in. cbn. auto.
    - destruct Hx as ([n vs] & Hd & Hx). cbn [snd] in Hx. rewrite (wr_enums _ _ _ W) in Hd.
      destruct (ending p) as [[[s b] bs]|] eqn:Ee; [|easy]. apply in_flat_map in Hd as (r & Hr & Hd).
      apply sort_in in Hr. destruct (negb (seqb r s)); [|easy]. destruct Hd as [Hd|[]].
      apply pair_equal_spec in Hd as [_ <-]. apply in_map_iff in Hx as (k & <- & Hk). apply in_seq in Hk. left. right. right. right.
      change (lit "0_" ++ num k) with (part_text (Some k)). apply (endpoint_declared p); auto.
      unfold part. rewrite Ee. lia.
    - destruct Hx as (e & He & Hx). rewrite (wr_endpoints _ _ _ W) in He.
      apply in_flat_map in He as (i & Hi & He). apply parts_ok in Hi. apply in_map_iff in He as (r & <- & Hr).
      apply sort_in in Hr. cbn [ep_sessions ep_stack ep_role] in Hx. destruct Hx as [<-|Hx].
      { right. apply import_in. cbn. auto 20. }
      apply in_app_iff in Hx as [Hx|[<-|[<-|[]]]].
      + apply in_map_iff in Hx as (b & <- & Hb). apply in_others in Hb as [Hb Hbr]. apply sort_in in Hb.
        left. right. left. apply (message_declared p); auto. lia.
      + left. right. left. apply (ordering_declared p); auto. lia.
      + right. apply (baked_in p f r); auto. cbn. auto 20.
    - destruct Hx as ([[[[r ix] n] ty] cs] & Hf & Hx).
      destruct (function_of p f r ix n ty cs W Hf) as (i & Hi & Hr & _ & _ & ->).
      destruct Hx as [<-|Hx].
      + left. right. right. right. now apply (endpoint_declared p).
      + right. apply import_in. cbn in Hx |- *. intuition auto 20.
  Qed.

  (** ** No name is declared twice *)

  Lemma lower_under c s : lower_char c = "_"%char -> In c s -> In "_"%char s.
  Proof.
    unfold lower_char. destruct ((65 <=? nat_of_ascii c) && (nat_of_ascii c <=? 90))%nat eqn:E.
    - apply andb_prop in E as [E1 E2]. apply Nat.leb_le in E1, E2. intros H.
      apply (f_equal nat_of_ascii) in H. rewrite nat_ascii_embedding in H by lia.
      change (nat_of_ascii "_"%char) with 95%nat in H. lia.
    - now intros ->.
  Qed.
  Lemma lower_no_under r : ~ In "_"%char r -> ~ In "_"%char (lower r).
  Proof. intros H G. apply in_map_iff in G as (c & E & G). apply H. now apply (lower_under c). Qed.

  Lemma function_name_inj i i' r r' n n' :
    ~ In "_"%char r -> ~ In "_"%char r' ->
    function_name r (part_index i) n = function_name r' (part_index i') n' ->
    lower r = lower r' /\ i = i' /\ n = n'.
  Proof.
    intros Hr Hr' H. unfold function_name in H. rewrite !part_text_index in H. apply app_inv_head in H.
    change (lit "_") with ["_"%char] in H. cbn [app] in H.
    apply cut_char in H as [-> H]; [|now apply lower_no_under..].
    split; [reflexivity|].
    assert (forall j (w : str), part_text j ++ lit "_v_" ++ w = (part_text j ++ lit "_") ++ "v"%char :: lit "_" ++ w)
      as R by (intros; now rewrite <- app_assoc).
    rewrite !R in H. clear R.
    apply cut_char in H as [H1 H2].
    2,3: rewrite in_app_iff; intros [G|[G|[]]]; [apply part_text_chars in G as [G|G]; [cbn in G; lia|discriminate]|discriminate].
    apply app_inv_tail in H1. apply part_text_inj in H1 as ->. apply app_inv_head in H2.
    apply num_inj in H2 as ->. auto.
  Qed.

  Lemma functions_nodup p f : NoDup (p_roles p) -> apart p -> written title p f -> NoDup (function_names f).
  Proof.
    intros N [A1 A2] W.
    assert (function_names f = flat_map (fun i => flat_map (fun r =>
      map (function_name r (part_index i)) (seq 0 (S (last (part_index i) 0%nat))))
      (sort_by (fun r => r) (p_roles p))) (parts p)) as ->.
    { unfold function_names.
      assert (forall l, map (fun x : str * list nat * nat * str * list str => let '(r, ix, n, _, _) := x in function_name r ix n) l =
        map (fun y : str * list nat * nat * str => let '(r, ix, n, _) := y in function_name r ix n)
          (map (fun x : str * list nat * nat * str * list str => fst x) l)) as E.
      { intros l. rewrite map_map. apply map_ext. now intros [[[[r ix] n] ty] cs]. }
      rewrite E, (wr_functions _ _ _ W), map_flat_map. clear E.
      induction (parts p) as [|i is IH]; [reflexivity|]. cbn [flat_map]. f_equal; [|exact IH].
      rewrite map_flat_map. clear. induction (sort_by (fun r => r) (p_roles p)) as [|r rs IH]; [reflexivity|].
      cbn [flat_map]. f_equal; [|exact IH]. now rewrite map_map. }
    apply nodup_flat_map; [apply parts_nodup|..].
    - intros i _. apply nodup_flat_map; [now apply sort_nodup|..].
      + intros r Hr. apply sort_in in Hr. apply FinFun.Injective_map_NoDup; [|apply seq_NoDup].
        intros n n' E. apply function_name_inj in E; [tauto|now apply A1..].
      + intros r r' x Hr Hr' H H'. apply sort_in in Hr, Hr'. apply in_map_iff in H as (n & <- & _).
        apply in_map_iff in H' as (n' & E & _). apply function_name_inj in E; [|now apply A1..].
        symmetry. now apply A2.
    - intros i i' x _ _ H H'. apply in_flat_map in H as (r & Hr & H). apply in_flat_map in H' as (r' & Hr' & H').
      apply sort_in in Hr, Hr'. apply in_map_iff in H as (n & <- & _). apply in_map_iff in H' as (n' & E & _).
      apply function_name_inj in E; [|now apply A1..]. symmetry. tauto.
  Qed.

  Lemma app_len_eq {A} (u u' v v' : list A) : u ++ v = u' ++ v' -> length v = length v' -> u = u' /\ v = v'.
  Proof.
    revert u'. induction u as [|a u IH]; intros [|b u'] E L; cbn in E.
    - auto.
    - apply (f_equal (@length _)) in E. cbn in E. rewrite app_length in E. lia.
    - apply (f_equal (@length _)) in E. cbn in E. rewrite app_length in E. lia.
    - injection E as -> E. destruct (IH u' E L) as [-> ->]. auto.
  Qed.
  Lemma dual_toall u v : u ++ lit "Dual" <> v ++ lit "toAll".
  Proof.
    intros E. change (lit "toAll") with ([("t"%char)] ++ lit "oAll") in E. rewrite app_assoc in E.
    apply app_len_eq in E as [_ E]; [discriminate|reflexivity].
  Qed.
  Lemma toall_allto r r' : r ++ lit "toAll" = lit "Allto" ++ r' -> starts (lit "All") r.
  Proof.
    intros E. destruct r as [|a [|b [|c r]]]; cbn in E; try (injection E; intros; discriminate).
    injection E as -> -> -> E. now exists r.
  Qed.

  (** The name of the kind [k] of a role. *)
  Definition tail (k : nat) (r : str) : str :=
    match k with
    | 0 => r
    | 1 => r ++ lit "Dual"
    | 2 => r ++ lit "toAll"
    | _ => lit "Allto" ++ r
    end%nat.
  Lemma tail_inj k k' r r' : bakeable r -> bakeable r' -> (k <= 3)%nat -> (k' <= 3)%nat ->
    tail k r = tail k' r' -> k = k' /\ r = r'.
  Proof.
    assert (forall k k' r r', (k < k' <= 3)%nat -> bakeable r -> bakeable r' -> tail k r <> tail k' r') as K.
    { intros a b u v L (_ & _ & B3 & B4 & B5) (_ & _ & C3 & C4 & C5) E.
      destruct a as [|[|[|a]]]; [| | |lia].
      - destruct b as [|[|[|b]]]; [lia|..]; cbn [tail] in E.
        + apply B4. now exists v.
        + apply B5. now exists v.
        + apply B3. exists (lit "to" ++ v). exact E.
      - destruct b as [|[|[|b]]]; [lia|lia|..]; cbn [tail] in E.
        + now apply dual_toall in E.
        + apply B3. destruct u as [|x [|y [|z u]]]; cbn in E; try (injection E; intros; discriminate).
          injection E as -> -> -> E. now exists u.
      - destruct b as [|[|[|b]]]; [lia|lia|lia|]; cbn [tail] in E. apply B3. now apply (toall_allto u v). }
    intros B C L L' E. destruct (Nat.lt_trichotomy k k') as [H|[H|H]].
    - exfalso. apply (K k k' r r'); auto.
    - subst k'. split; [reflexivity|]. destruct k as [|[|[|k]]]; cbn [tail] in E;
        [exact E|now apply app_inv_tail in E..|now apply app_inv_head in E].
    - exfalso. apply (K k' k r' r); auto.
  Qed.
  Lemma baked_for_eq r : baked_for r = map (fun k => lit "Role" ++ tail k r) [0;1;2;3]%nat ++ [lit "Name" ++ r].
  Proof. reflexivity. Qed.
  Lemma in_baked_for x r : In x (baked_for r) <->
    (exists k, (k <= 3)%nat /\ x = lit "Role" ++ tail k r) \/ x = lit "Name" ++ r.
  Proof.
    rewrite baked_for_eq, in_app_iff, in_map_iff. cbn [In]. split.
    - intros [(k & <- & Hk)|[<-|[]]]; [left|now right]. exists k. split; [lia|reflexivity].
    - intros [(k & Hk & ->)| ->]; [left|right; now left]. exists k. split; [reflexivity|lia].
  Qed.
  Lemma baked_for_nodup r : bakeable r -> NoDup (baked_for r).
  Proof.
    intros B. rewrite baked_for_eq. apply nodup_app.
    - assert (forall l, NoDup l -> (forall k, In k l -> (k <= 3)%nat) -> NoDup (map (fun k => lit "Role" ++ tail k r) l)) as K.
      { induction 1 as [|k l H N IH]; intros L; cbn [map]; constructor.
        - intros G. apply in_map_iff in G as (k' & E & G). apply app_inv_head in E.
          apply tail_inj in E as [-> _]; auto; [apply L; now right|apply L; now left].
        - apply IH. intros k' Hk. apply L. now right. }
      apply K; [repeat constructor; cbn; lia|]. intros k Hk. cbn in Hk. lia.
    - constructor; [easy|constructor].
    - intros x H [<-|[]]. apply in_map_iff in H as (k & E & _). discriminate.
  Qed.
  Lemma baked_for_inj r r' x : bakeable r -> bakeable r' -> In x (baked_for r) -> In x (baked_for r') -> r = r'.
  Proof.
    intros B C H H'. apply in_baked_for in H as [(k & Hk & ->)| ->]; apply in_baked_for in H' as [(k' & Hk' & E)|E].
    - apply app_inv_head in E. now apply tail_inj in E.
    - discriminate.
    - discriminate.
    - now apply app_inv_head in E.
  Qed.

  Lemma given_nodup p f : written title p f -> NoDup (p_roles p) -> (forall r, In r (p_roles p) -> bakeable r) ->
    NoDup (given f).
  Proof.
    intros W N B. unfold given, baked.
    assert (forall r, In r (meshed_roles f) <-> In r (p_roles p)) as R.
    { intros r. rewrite (wr_roles _ _ _ W). symmetry. apply sort_in. }
    assert (forall r, bakeable r -> forall k, (k <= 3)%nat -> tail k r <> lit "End" /\ tail k r <> lit "Broadcast") as K.
    { intros r (B1 & B2 & _) k Hk. destruct k as [|[|[|k]]]; cbn [tail]; [auto|split; intros E..].
      - apply (f_equal (@length _)) in E. rewrite app_length in E. cbn in E. lia.
      - change (lit "Broadcast") with (lit "Broad" ++ lit "cast") in E.
        apply app_len_eq in E as [_ E]; [discriminate|reflexivity].
      - apply (f_equal (@length _)) in E. rewrite app_length in E. cbn in E. lia.
      - change (lit "Broadcast") with (lit "Broa" ++ lit "dcast") in E.
        apply app_len_eq in E as [_ E]; [discriminate|reflexivity].
      - discriminate.
      - discriminate. }
    assert (forall x, In x (flat_map baked_for (meshed_roles f)) ->
      exists r, In r (p_roles p) /\ ((exists k, (k <= 3)%nat /\ x = lit "Role" ++ tail k r) \/ x = lit "Name" ++ r)) as F.
    { intros x H. apply in_flat_map in H as (r & Hr & H). exists r. split; [now apply R|now apply in_baked_for]. }
    apply nodup_app; [|apply nodup_app|].
    - unfold imports. destruct (has_sub_trees f); cbn [app]; repeat constructor; cbn; intuition discriminate.
    - repeat constructor; cbn; intuition discriminate.
    - constructor.
      + intros H. apply F in H as (r & _ & [(k & _ & E)|E]); discriminate.
      + apply nodup_flat_map.
        * rewrite (wr_roles _ _ _ W). now apply sort_nodup.
        * intros r Hr. apply baked_for_nodup, B. now apply R.
        * intros r r' x Hr Hr'. apply baked_for_inj; apply B; now apply R.
    - intros x H [<-|H']; [cbn in H; intuition discriminate|].
      apply F in H' as (r & _ & [(k & _ & ->)| ->]); cbn in H; intuition discriminate.
    - intros x H H'. apply in_app_iff in H' as [H'|[<-|H']].
      + unfold imports in H. rewrite !in_app_iff in H.
        destruct H' as [<-|[<-|[]]]; destruct (has_sub_trees f); cbn in H; intuition discriminate.
      + unfold imports in H. rewrite !in_app_iff in H. destruct (has_sub_trees f); cbn in H; intuition discriminate.
      + apply F in H' as (r & Hr & [(k & Hk & ->)| ->]).
        * destruct (K r (B r Hr) k Hk) as [K1 K2]. unfold imports in H. rewrite !in_app_iff in H.
          assert (lit "RoleEnd" <> lit "Role" ++ tail k r) as E1.
          { change (lit "RoleEnd") with (lit "Role" ++ lit "End"). intros E. apply app_inv_head in E. auto. }
          assert (lit "RoleBroadcast" <> lit "Role" ++ tail k r) as E2.
          { change (lit "RoleBroadcast") with (lit "Role" ++ lit "Broadcast"). intros E. apply app_inv_head in E. auto. }
          destruct (has_sub_trees f); cbn [In] in H; intuition discriminate.
        * unfold imports in H. rewrite !in_app_iff in H. destruct (has_sub_trees f); cbn [In] in H; intuition discriminate.
  Qed.

  (** What the generator writes in front of "_" *)
  Definition written_name (x : str) : Prop :=
    (exists i k a b, x = message_name i k a b) \/ (exists i k a, x = ordering_name i k a) \/
    (exists s r, x = choice_name (lit "0") s r) \/ (exists i r, x = endpoint_name i r).
  Lemma written_names p f x : written title p f ->
    In x (map fst (types f) ++ map fst (enum_types f) ++ map ep_name (endpoint_types f)) -> written_name x.
  Proof.
    intros W H. rewrite !in_app_iff in H. destruct H as [H|[H|H]].
    - destruct (types_names title p f x W H) as [(i & k & a & b & ->)|(i & k & a & ->)]; [left|right; left]; eauto 6.
    - rewrite (wr_enums _ _ _ W) in H. destruct (ending p) as [[[s b] bs]|]; [|easy].
      rewrite map_flat_map in H. apply in_flat_map in H as (r & _ & H). destruct (negb (seqb r s)); [|easy].
      destruct H as [<-|[]]. right. right. left. now exists s, r.
    - rewrite (wr_endpoints _ _ _ W), map_flat_map in H. apply in_flat_map in H as (i & _ & H).
      unfold part_endpoints in H. rewrite map_map in H. apply in_map_iff in H as (a & <- & _).
      right. right. right. now exists (part_text i), a.
  Qed.
  Lemma written_under x : written_name x -> In "_"%char x.
  Proof.
    intros [(i & k & a & b & ->)|[(i & k & a & ->)|[(s & r & ->)|(i & r & ->)]]].
    - unfold message_name. apply in_app_iff. left. cbn. auto 20.
    - unfold ordering_name. apply in_app_iff. left. cbn. auto 20.
    - unfold choice_name. apply in_app_iff. left. cbn. auto 20.
    - unfold endpoint_name. apply in_app_iff. left. cbn. auto 20.
  Qed.
  Lemma written_given f x : written_name x -> ~ In x (given f).
  Proof.
    intros Hx H. unfold given, imports, prelude, baked in H. rewrite !in_app_iff in H.
    destruct H as [H|[H|H]].
    - destruct Hx as [(i & k & a & b & ->)|[(i & k & a & ->)|[(s & r & ->)|(i & r & ->)]]];
        destruct (has_sub_trees f); cbn in H; intuition discriminate.
    - destruct Hx as [(i & k & a & b & ->)|[(i & k & a & ->)|[(s & r & ->)|(i & r & ->)]]];
        cbn in H; intuition discriminate.
    - destruct H as [H|H].
      + destruct Hx as [(i & k & a & b & ->)|[(i & k & a & ->)|[(s & r & ->)|(i & r & ->)]]]; discriminate.
      + apply in_flat_map in H as (u & _ & H). apply in_baked_for in H.
        destruct Hx as [(i & k & a & b & ->)|[(i & k & a & ->)|[(s & r & ->)|(i & r & ->)]]];
          destruct H as [(k' & _ & E)|E]; discriminate.
  Qed.

  Lemma struct_fresh p f x : declared title p f -> fresh_titles title p f -> In x (map fst (structs f)) ->
    ~ In "_"%char x /\ ~ In x (given f).
  Proof.
    intros D F H. apply in_map_iff in H as ([n pl] & <- & H). cbn [fst].
    destruct (de_only _ _ _ D n pl H) as [(m & M1 & -> & _)|(m & q & M1 & M2 & -> & _)].
    - exact (proj1 (F m M1)).
    - exact (proj2 (F m M1) q M2).
  Qed.

  Lemma all_nodup p f : clean p -> written title p f -> declared title p f ->
    (forall r, In r (p_roles p) -> bakeable r) -> fresh_titles title p f ->
    NoDup (given f ++ type_names f).
  Proof.
    intros C W D B F. apply nodup_app.
    - apply (given_nodup p); auto. apply C.
    - unfold type_names. apply nodup_app.
      + apply (de_once _ _ _ D).
      + now apply (names_nodup title p).
      + intros x H H'. apply (struct_fresh p f x D F) in H as [H _]. apply H.
        now apply written_under, (written_names p f).
    - intros x H H'. unfold type_names in H'. apply in_app_iff in H' as [H'|H'].
      + now apply (struct_fresh p f x D F) in H' as [_ H'].
      + now apply (written_names p f x W), (written_given f) in H'.
  Qed.
End Title.
