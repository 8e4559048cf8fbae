(** * A generated file read as a system: proofs

    Statements are in Properties_NuscrGlobal.v. *)

From Coq Require Import Ascii String Arith Bool Lia Permutation List.
From Verif Require Import Types Session Mesh MeshSpec MeshExt Global Properties_Mesh Properties_Global.
From Verif Require Import Checker CheckerText CheckerAll Nuscr NuscrSpec NuscrFile NuscrNames NuscrText NuscrTextSpec NuscrPrint
  Properties_Nuscr NuscrGlobalSpec NuscrGlobal.
Import ListNotations.
Open Scope nat_scope.
Open Scope list_scope.

(** ** Facts about one accepted protocol *)

Section Accepted.
  Variables (title : str -> str) (code : str -> nat) (name : str) (p : proto) (ls : list str) (f : rust_file).
  Hypothesis HT : protocol_text name p ls.
  Hypothesis HR : no_rec p.
  Hypothesis HC : clean p.
  Hypothesis HF : no_enum_message title p.
  Hypothesis HG : generator_text title ls = Fine f.
  Hypothesis H2 : 2 <= length (p_roles p).

  Notation rs := (meshed_roles f).
  Notation n := (length (meshed_roles f)).
  Notation P := (global_of title code (meshed_roles f) p).

  Lemma acc_written : written title p f.
  Proof. exact (text_written title name p ls f HT HR (proj1 HC) HG). Qed.
  Lemma acc_perm : Permutation rs (p_roles p).
  Proof. rewrite (wr_roles _ _ _ acc_written). apply sort_perm. Qed.
  Lemma acc_nodup : NoDup rs.
  Proof. exact (Permutation_NoDup (Permutation_sym acc_perm) (proj1 HC)). Qed.
  Lemma acc_in a : In a rs <-> In a (p_roles p).
  Proof. split; apply Permutation_in; [|symmetry]; apply acc_perm. Qed.
  Lemma acc_n : 2 <= n.
  Proof. rewrite (Permutation_length acc_perm). exact H2. Qed.
  Lemma acc_roles i : part p i -> roles_in rs (part_messages p i).
  Proof.
    intros Hi. refine (Forall_impl _ _ (wr_roles_ok _ _ _ acc_written i Hi)). intros m (R1 & R2 & R3).
    rewrite !acc_in. auto.
  Qed.
  Lemma acc_chooser i : part p i -> match part_choice p i with
    | Some s => exists c cs, ending p = Some (s, c, cs) /\ In s rs | None => True end.
  Proof.
    intros Hi. pose proof (wr_choice _ _ _ acc_written) as W. unfold part_choice.
    destruct i as [i|], (ending p) as [[[s c] cs]|]; try exact Logic.I.
    - destruct (nth_error (c :: cs) i), (loop p); try exact Logic.I. destruct (again b); [|exact Logic.I].
      exists c, cs. split; [reflexivity|now apply acc_in].
    - exists c, cs. split; [reflexivity|now apply acc_in].
  Qed.
  Lemma acc_enum_names x : In x (map fst (enum_types f)) -> exists s r, x = choice_name (lit "0") s r.
  Proof.
    rewrite (wr_enums _ _ _ acc_written). destruct (ending p) as [[[s c] cs]|]; [|easy].
    intros H. apply in_map_iff in H as ((y & vs) & <- & H). apply in_flat_map in H as (r & _ & H).
    destruct (negb (seqb r s)); [|easy]. destruct H as [[= <- <-]|[]]. now exists s, r.
  Qed.
  Lemma acc_fresh i : part p i -> fresh_in title f (part_messages p i).
  Proof.
    intros Hi. apply Forall_forall. intros m Hm Hx. apply acc_enum_names in Hx as (s & r & E).
    exact (HF i m Hi Hm s r E).
  Qed.

  Lemma acc_names : NoDup (map fst (enum_types f)) /\ NoDup (map ep_name (endpoint_types f)).
  Proof.
    destruct (generated_names_distinct title name p ls f HT HR HC HG) as [Nd _].
    assert (forall {A} (l l' : list A), NoDup (l ++ l') -> NoDup l /\ NoDup l') as K.
    { intros A l l'. induction l as [|x l IH]; cbn; intros H; [split; [constructor|exact H]|].
      inversion H as [|? ? Hx Hl]; subst. destruct (IH Hl) as [I1 I2]. split; [|exact I2]. constructor; [|exact I1].
      intros Hin. apply Hx, in_or_app. now left. }
    apply K in Nd as [_ Nd]. now apply K in Nd.
  Qed.
  Lemma same_name {A B} (g : A -> B) l x y : NoDup (map g l) -> In x l -> In y l -> g x = g y -> x = y.
  Proof.
    induction l as [|z l IH]; [easy|]. cbn. intros Nd. inversion Nd as [|? ? Hz Hl]; subst. intros [->|Hx] [->|Hy] E; auto.
    - exfalso. apply Hz. rewrite E. now apply in_map.
    - exfalso. apply Hz. rewrite <- E. now apply in_map.
  Qed.

  (** The endpoints. *)
  Lemma acc_endpoint i a : part p i -> In a rs -> exists e, In e (endpoint_types f) /\
    ep_name e = endpoint_name (part_text i) a /\ ep_role e = a.
  Proof.
    intros Hi Ha. apply acc_in in Ha.
    destruct (generated_endpoints title name p ls f i a HT HR (proj1 HC) HG Hi Ha) as (_ & _ & e & E1 & E2 & E3 & _).
    eauto.
  Qed.
  Lemma acc_enum s c cs : ending p = Some (s, c, cs) -> forall r, In r rs -> r <> s ->
    payload_as f code (choice_name (lit "0") s r) (PChoice 0 (number_in rs r)).
  Proof.
    intros He r Hr Hne.
    apply (pa_enum f code _ (map (fun k => endpoint_name (part_text (Some k)) r) (seq 0 (length (c :: cs)))) _ r).
    - apply (generated_enums title name p ls f s c cs HT HR (proj1 HC) HG He). exists r. now rewrite <- acc_in.
    - discriminate.
    - exact (no_number rs f eq_refl r Hr).
    - intros v Hv. apply in_map_iff in Hv as (k & <- & Hk). apply in_seq in Hk.
      destruct (acc_endpoint (Some k) r) as (e & E1 & E2 & E3); [|exact Hr|eauto].
      cbn. rewrite He. cbn in Hk. lia.
  Qed.

  Lemma acc_choice i : part p i ->
    match part_choice p i with
    | Some s => In s rs /\ forall r, In r rs -> r <> s ->
        payload_as f code (choice_name (lit "0") s r) (PChoice 0 (number_in rs r))
    | None => True
    end.
  Proof.
    intros Hi. pose proof (acc_chooser i Hi) as H. destruct (part_choice p i) as [s|]; [|trivial].
    destruct H as (c & cs & He & Hs). split; [exact Hs|]. exact (acc_enum s c cs He).
  Qed.

  Lemma acc_projection i a : part p i -> In a rs -> exists e, In e (endpoint_types f) /\
    ep_name e = endpoint_name (part_text i) a /\ ep_role e = a /\
    endpoint_as f code e (proj n (round_of title code rs p i) (number_in rs a)).
  Proof.
    intros Hi Ha. pose proof (proj1 (acc_in a) Ha) as Ha'.
    destruct (generated_endpoints title name p ls f i a HT HR (proj1 HC) HG Hi Ha') as (_ & _ & e & E1 & E2 & E3 & E4 & E5).
    exists e. do 3 (split; [assumption|]). split.
    - cbn [proj fst]. unfold sessions_of.
      match goal with |- Forall2 _ _ ?l => replace l with
        (map (fun b => sess_of (number_in rs a) (number_in rs b) (map (told title code rs) (part_messages p i))
                         (finale_of rs (part_choice p i))) (filter (fun b => negb (seqb b a)) rs)) end.
      + assert (forall b, In b (filter (fun b => negb (seqb b a)) rs) -> In b rs /\ a <> b) as K.
        { intros b Hb. apply filter_In in Hb as [Hb E]. apply negb_true_iff, seqb_false in E. auto. }
        revert E4 K. generalize (filter (fun b => negb (seqb b a)) rs) as l. intros l E4.
        induction E4 as [|b nm l l' H _ IH]; intros K; cbn [map]; constructor.
        * eexists. split; [exact H|]. destruct (K b (or_introl eq_refl)) as [Hb Hab].
          exact (session_projected title code rs f a b _ _ Ha Hb (acc_roles i Hi) (acc_fresh i Hi)
                   (acc_choice i Hi) Hab).
        * apply IH. intros x Hx. apply K. now right.
      + transitivity (map (fun q => sess_of (number_in rs a) q (fst (round_of title code rs p i))
                                    (snd (round_of title code rs p i)))
                        (map (number_in rs) (filter (fun b => negb (seqb b a)) rs))); [now rewrite map_map|].
        unfold number_in at 2. rewrite (others_numbers rs a acc_nodup Ha), map_map. reflexivity.
    - eexists. split; [exact E5|]. cbn [proj snd].
      apply (stack_projected title code rs f eq_refl a _ _ Ha (acc_roles i Hi)).
      pose proof (acc_choice i Hi) as H. destruct (part_choice p i); [now destruct H|trivial].
  Qed.

  (** Reading is unique. *)
  Lemma acc_role_number k k' a : role_number f k a -> role_number f k' a -> k = k'.
  Proof.
    intros H H'. apply (number_no rs acc_nodup f eq_refl) in H, H'. destruct H, H'. congruence.
  Qed.
  Lemma acc_payload x q q' : payload_as f code x q -> payload_as f code x q' -> q = q'.
  Proof.
    intros H H'. destruct H as [x H|x vs k a Hin Hv Hk Ha], H' as [x H'|x vs' k' a' Hin' Hv' Hk' Ha'].
    - reflexivity.
    - exfalso. apply H. exact (in_map fst _ _ Hin').
    - exfalso. apply H'. exact (in_map fst _ _ Hin).
    - f_equal. assert ((x, vs) = (x, vs')) as [= <-]
        by (apply (same_name fst (enum_types f)); auto; apply acc_names).
      destruct vs as [|v vs]; [easy|]. destruct (Ha v (or_introl eq_refl)) as (e & I1 & I2 & I3).
      destruct (Ha' v (or_introl eq_refl)) as (e' & J1 & J2 & J3).
      assert (e = e') as <- by (apply (same_name ep_name (endpoint_types f)); auto; [apply acc_names|congruence]).
      subst a a'. exact (acc_role_number _ _ _ Hk Hk').
  Qed.
  Lemma acc_untimed y s s' : untimed_as f code y s -> untimed_as f code y s' -> s = s'.
  Proof.
    intros H. revert s'. induction H as [|x c lo loi hi hii r k q k' Hq _ IH|x c lo loi hi hii r k q k' Hq _ IH];
      intros s' H'; inversion H'; subst; f_equal; auto; eapply acc_payload; eauto.
  Qed.
  Lemma acc_order y s s' : order_as f y s -> order_as f y s' -> s = s'.
  Proof.
    intros H. revert s'. induction H as [| |a i k k' Hi _ IH]; intros s' H'; inversion H'; subst; f_equal; auto.
    eapply acc_role_number; eauto.
  Qed.
  Lemma acc_endpoint_as e T T' : endpoint_as f code e T -> endpoint_as f code e T' -> T = T'.
  Proof.
    destruct (generated_names_distinct title name p ls f HT HR HC HG) as (_ & U1 & U2).
    destruct T as [ss r], T' as [ss' r']. intros [F1 (y & S1 & O1)] [F2 (y' & S2 & O2)]. cbn [fst snd] in *. f_equal.
    - clear S1 S2 O1 O2. revert ss' F2. induction F1 as [|nm s l l' (z & Z1 & Z2) _ IH]; intros ss' F2; inversion F2; subst; [reflexivity|].
      destruct H1 as (z' & Z1' & Z2'). rewrite (U1 nm z' z Z1' Z1) in Z2'. f_equal; [eapply acc_untimed; eauto|auto].
    - rewrite (U2 _ _ _ S2 S1) in O2. eapply acc_order; eauto.
  Qed.
  Lemma acc_endpoint_name e e' : In e (endpoint_types f) -> In e' (endpoint_types f) -> ep_name e = ep_name e' -> e = e'.
  Proof. apply same_name. apply acc_names. Qed.

  Lemma acc_labels labels T B : system_as f code labels T B -> forall b, labels b = variants p b.
  Proof.
    intros Y [|b]; [|apply (sys_one _ _ _ _ _ Y)]. unfold variants. pose proof acc_n as Hn.
    destruct (ending p) as [[[s c] cs]|] eqn:He.
    - assert (exists r, In r rs /\ r <> s) as (r & Hr & Hne).
      { pose proof acc_nodup as Nd. destruct rs as [|x [|y l]]; cbn in Hn; [lia..|].
        destruct (seqb x s) eqn:E.
        - apply seqb_true in E. exists y. split; [cbn; tauto|]. inversion Nd as [|? ? Hx]; subst. intros ->. apply Hx. now left.
        - apply seqb_false in E. exists x. split; [cbn; tauto|exact E]. }
      rewrite (sys_variants _ _ _ _ _ Y (choice_name (lit "0") s r)
        (map (fun k => endpoint_name (part_text (Some k)) r) (seq 0 (length (c :: cs))))).
      + now rewrite map_length, seq_length.
      + apply (generated_enums title name p ls f s c cs HT HR (proj1 HC) HG He). exists r. now rewrite <- acc_in.
    - apply (sys_no_enum _ _ _ _ _ Y). now rewrite (wr_enums _ _ _ acc_written), He.
  Qed.

  Lemma acc_part_variant l : part p (Some l) <-> l < variants p 0.
  Proof. cbn. destruct (ending p) as [[[s c] cs]|]; cbn; lia. Qed.

  Lemma acc_number k : 1 <= k <= n -> exists a, role_number f k a /\ In a rs /\ k = number_in rs a.
  Proof.
    intros Hk. destruct (nth_error rs (k - 1)) as [a|] eqn:E.
    - exists a. assert (role_number f k a) as H by (split; [lia|exact E]). split; [exact H|].
      apply (number_no rs acc_nodup f eq_refl) in H. tauto.
    - apply nth_error_None in E. lia.
  Qed.

  Lemma acc_system : system_as f code (variants p) (proj n (first_round P)) (branches P n).
  Proof.
    split.
    - intros k a Hk. apply (number_no rs acc_nodup f eq_refl) in Hk as [-> Ha].
      destruct (acc_projection None a Logic.I Ha) as (e & E1 & E2 & _ & E3). eauto.
    - intros x vs Hin. destruct (ending p) as [[[s c] cs]|] eqn:He.
      + destruct (proj1 (generated_enums title name p ls f s c cs HT HR (proj1 HC) HG He x vs) Hin) as (r & _ & _ & _ & ->).
        unfold variants. rewrite He. now rewrite map_length, seq_length.
      + rewrite (wr_enums _ _ _ acc_written), He in Hin. destruct Hin.
    - intros E. unfold variants. destruct (ending p) as [[[s c] cs]|] eqn:He; [|reflexivity].
      pose proof acc_n as Hn. pose proof acc_nodup as Nd.
      assert (exists r, In r rs /\ r <> s) as (r & Hr & Hne).
      { destruct rs as [|x [|y l]]; cbn in Hn; [lia..|]. destruct (seqb x s) eqn:Ex.
        - apply seqb_true in Ex. exists y. split; [cbn; tauto|]. inversion Nd as [|? ? Hx]; subst. intros ->. apply Hx. now left.
        - apply seqb_false in Ex. exists x. split; [cbn; tauto|exact Ex]. }
      pose proof (acc_enum s c cs He r Hr Hne) as K. inversion K as [|? ? ? ? Hin]. rewrite E in Hin. destruct Hin.
    - reflexivity.
    - intros x vs k Hin Hk l v Hl. destruct (ending p) as [[[s c] cs]|] eqn:He;
        [|rewrite (wr_enums _ _ _ acc_written), He in Hin; destruct Hin].
      destruct (proj1 (generated_enums title name p ls f s c cs HT HR (proj1 HC) HG He x vs) Hin) as (r & Hr & Hne & -> & ->). clear Hin.
      apply acc_in in Hr. pose proof (acc_payload _ _ _ Hk (acc_enum s c cs He r Hr Hne)) as [= ->].
      assert (l < length (c :: cs)) as Hlt.
      { apply nth_error_Some_length in Hl || (assert (nth_error (map (fun k => endpoint_name (part_text (Some k)) r)
          (seq 0 (length (c :: cs)))) l <> None) as K by congruence; apply nth_error_Some in K;
          rewrite map_length, seq_length in K; exact K). }
      assert (v = endpoint_name (part_text (Some l)) r) as ->.
      { apply (nth_error_nth _ _ v) in Hl. rewrite <- Hl.
        rewrite (nth_indep _ v (endpoint_name (part_text (Some 0)) r)) by (now rewrite map_length, seq_length).
        rewrite (map_nth (fun k => endpoint_name (part_text (Some k)) r)). now rewrite seq_nth. }
      destruct (acc_projection (Some l) r) as (e & E1 & E2 & _ & E3); [|exact Hr|].
      { cbn. rewrite He. cbn in Hlt. lia. }
      eauto.
    - intros l k a Hl Hk. apply (number_no rs acc_nodup f eq_refl) in Hk as [-> Ha]. apply acc_part_variant in Hl.
      destruct (acc_projection (Some l) a Hl Ha) as (e & E1 & E2 & _ & E3). eauto.
  Qed.

  Lemma acc_wf labels : (forall b, labels b = variants p b) -> wf_protocol n labels P.
  Proof.
    intros Hl.
    assert (forall i, part p i -> wf_round n labels (round_of title code rs p i)) as K.
    { intros i Hi. apply wf_round_of; [exact (acc_roles i Hi)|]. pose proof (acc_chooser i Hi) as H.
      destruct (part_choice p i) as [s|]; [|trivial]. destruct H as (c & cs & He & Hs). split; [exact Hs|].
      rewrite Hl. unfold variants. rewrite He. cbn. lia. }
    split; [exact acc_n|]. split; [exact (K None Logic.I)|]. intros b l Hb. apply K, acc_part_variant.
    rewrite Hl in Hb. destruct b; [exact Hb|cbn in Hb; lia].
  Qed.

  Lemma acc_unique labels T B : system_as f code labels T B ->
    (forall k, 1 <= k <= n -> T k = proj n (first_round P) k) /\
    (forall b l k, l < labels b -> 1 <= k <= n -> B b l k = branches P n b l k).
  Proof.
    intros Y. split.
    - intros k Hk. destruct (acc_number k Hk) as (a & Ha & Hin & ->).
      destruct (sys_start _ _ _ _ _ Y _ a Ha) as (e & E1 & E2 & E3).
      destruct (sys_start _ _ _ _ _ acc_system _ a Ha) as (e' & E1' & E2' & E3').
      assert (e = e') as <- by (apply acc_endpoint_name; auto; congruence).
      exact (acc_endpoint_as _ _ _ E3 E3').
    - intros b l k Hl Hk. destruct b as [|b]; [|rewrite (sys_one _ _ _ _ _ Y) in Hl; lia].
      destruct (acc_number k Hk) as (a & Ha & Hin & ->).
      destruct (sys_branches _ _ _ _ _ Y l _ a Hl Ha) as (e & E1 & E2 & E3).
      rewrite (acc_labels _ _ _ Y) in Hl.
      destruct (sys_branches _ _ _ _ _ acc_system l _ a Hl Ha) as (e' & E1' & E2' & E3').
      assert (e = e') as <- by (apply acc_endpoint_name; auto; congruence).
      exact (acc_endpoint_as _ _ _ E3 E3').
  Qed.

  (** An execution with types read from the file is an execution of the
      protocol. *)
  Lemma acc_executes labels T B strict tr st : system_as f code labels T B ->
    Mesh.steps heap_ops n B labels strict (start n T) tr st ->
    exists st', executes n labels strict P tr st' /\ same n st st' /\ all_chosen_ok n labels st.
  Proof.
    intros Y H. destruct (acc_unique labels T B Y) as [U1 U2].
    refine (steps_same heap_ops n B (branches P n) labels strict U2 _ _ _ H _ _ _).
    - apply same_init. exact U1.
    - apply init_chosen.
  Qed.
End Accepted.
