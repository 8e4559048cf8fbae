(** C58: from endpoint types back to the global protocol; which protocols of the repository have one; rings and meshes of every
    size. *)
From Coq Require Import List Arith Bool Lia Permutation.
From Verif Require Import Types WiringProofs Session Mesh MeshSpec MeshExt TidySpec OrderSpec OrderProofs OrderProj Global MeshGlobal MeshTidy MeshSched Proto ProtoProofs Synth SynthProofs
  Families Corpus CorpusRing CorpusMesh Properties_Mesh Properties_Global Properties_Schedule Properties_Order Properties_Corpus.
Import ListNotations.

(** * The search finds a global round exactly if there is one *)

(** The types [Ts] (role 1 first) are the projections of round G. *)
Definition projects (n : nat) (G : round) (Ts : list mty) : Prop := forall p, 1 <= p <= n -> type_of Ts p = proj n G p.

Theorem recover_exact : forall n labels Ts, 2 <= n -> length Ts = n ->
  (forall G, recover n labels Ts = Some G -> wf_round n labels G /\ projects n G Ts) /\
  (forall G, wf_round n labels G -> projects n G Ts -> exists G', recover n labels Ts = Some G').
Proof.
  intros n labels Ts Hn Hl. split.
  - intros G H. apply recover_sound; assumption.
  - intros G W H. destruct (recover_complete n labels Hn Ts G Hl W H) as (G' & E & _). eauto.
Qed.
Print Assumptions recover_exact.

(** The global round is determined by the endpoint types, up to the order of its messages. *)
Theorem projections_determine : forall n labels G G', 2 <= n -> wf_round n labels G -> wf_round n labels G' ->
  (forall p, 1 <= p <= n -> proj n G p = proj n G' p) -> snd G = snd G' /\ Permutation (fst G) (fst G').
Proof.
  intros n labels G G' Hn W W' H. set (Ts := map (proj n G) (seq 1 n)).
  assert (Hl : length Ts = n) by (unfold Ts; rewrite map_length, seq_length; reflexivity).
  assert (HT : forall p, 1 <= p <= n -> type_of Ts p = proj n G p).
  { intros p Hp. unfold type_of, of_list, Ts. rewrite nth_indep with (d' := proj n G 0) by (rewrite map_length, seq_length; lia).
    rewrite map_nth, seq_nth by lia. f_equal. lia. }
  destruct (recover_complete n labels Hn Ts G Hl W HT) as (R & E & E1 & E2).
  destruct (recover_complete n labels Hn Ts G' Hl W') as (R' & E' & E1' & E2').
  { intros p Hp. rewrite HT by exact Hp. apply H, Hp. }
  rewrite E in E'. injection E' as <-. split; [congruence|]. rewrite E2. symmetry. exact E2'.
Qed.
Print Assumptions projections_determine.

(** * Whole tables *)

(** Protocol G has the types of table P. *)
Definition describes (G : protocol) (P : proto) : Prop :=
  wf_protocol (p_roles P) (p_labels P) G /\
  (forall p, 1 <= p <= p_roles P -> p_types P p = proj (p_roles P) (first_round G) p) /\
  (forall b l p, l < p_labels P b -> 1 <= p <= p_roles P -> p_branch P b l p = proj (p_roles P) (body G b l) p).
(** The table has a type for every role in every branch. *)
Definition filled (P : proto) : Prop := forall c Ts, In c (p_choices P) -> In Ts c -> length Ts = p_roles P.

Lemma labelled : forall P b l, l < p_labels P b -> In (nth l (nth b (p_choices P) []) []) (concat (p_choices P)).
Proof.
  intros P b l Hl. apply in_concat. exists (nth b (p_choices P) []). unfold p_labels in Hl. split; [|apply nth_In, Hl].
  destruct (lt_dec b (length (p_choices P))); [apply nth_In; lia|]. rewrite nth_overflow in Hl by lia. cbn in Hl. lia.
Qed.

Theorem is_global_sound : forall P, is_global P = true -> describes (global_of P) P.
Proof.
  intros P H. unfold is_global in H. rewrite andb_true_iff, Nat.leb_le, forallb_forall in H. destruct H as [Hn H].
  assert (K : forall Ts, In Ts (p_start P :: concat (p_choices P)) ->
              wf_round (p_roles P) (p_labels P) (found P Ts) /\ projects (p_roles P) (found P Ts) Ts).
  { intros Ts Hin. specialize (H Ts Hin). unfold found. destruct (recover (p_roles P) (p_labels P) Ts) as [G|] eqn:E; [|discriminate].
    apply recover_sound; assumption. }
  split; [split; [exact Hn|split]|split].
  - apply K. left. reflexivity.
  - intros b l Hl. apply K. right. apply labelled, Hl.
  - intros p Hp. apply (K (p_start P)); [left; reflexivity|exact Hp].
  - intros b l p Hl Hp. apply (K (nth l (nth b (p_choices P) []) [])); [right; apply labelled, Hl|exact Hp].
Qed.
Print Assumptions is_global_sound.

Theorem is_global_exact : forall P, filled P -> (is_global P = true <-> exists G, describes G P).
Proof.
  intros P F. split; [intros H; exists (global_of P); apply is_global_sound, H|].
  intros (G & (Hn & W1 & W2) & D1 & D2). unfold is_global. rewrite andb_true_iff, Nat.leb_le, forallb_forall. split; [exact Hn|].
  assert (K : forall Ts R, length Ts = p_roles P -> wf_round (p_roles P) (p_labels P) R -> projects (p_roles P) R Ts ->
              match recover (p_roles P) (p_labels P) Ts with Some _ => true | None => false end = true).
  { intros Ts R Hl W HP. destruct (recover_complete _ (p_labels P) Hn Ts R Hl W HP) as (R' & -> & _). reflexivity. }
  intros Ts [<-|Hin]; [apply (K _ (first_round G)); [reflexivity|exact W1|exact D1]|].
  apply in_concat in Hin. destruct Hin as (c & Hc & Hin). pose proof (F c Ts Hc Hin) as Hl.
  apply In_nth with (d := []) in Hc. destruct Hc as (b & Hb & Ec). apply In_nth with (d := []) in Hin. destruct Hin as (l & Hll & Et).
  assert (Hlab : l < p_labels P b) by (unfold p_labels; rewrite Ec; exact Hll).
  apply (K _ (body G b l)); [exact Hl|apply W2, Hlab|]. intros p Hp. specialize (D2 b l p Hlab Hp). unfold p_branch in D2. rewrite Ec, Et in D2. exact D2.
Qed.
Print Assumptions is_global_exact.

(** ** What is said about global protocols holds for the table *)

(** Tables described by a global protocol are accepted by the test of Properties_Corpus. *)
Lemma ordered_same : forall n labels T T', (forall p, 1 <= p <= n -> T p = T' p) -> ordered n labels T' -> ordered n labels T.
Proof.
  intros n labels T T' H (rank & H1 & H2 & H3).
  assert (E : forall p, 1 <= p <= n -> script_of n labels T p = script_of n labels T' p) by (intros p Hp; unfold script_of; rewrite H by exact Hp; reflexivity).
  exists rank. split; [|split].
  - intros p Hp. rewrite E by exact Hp. auto.
  - intros p l i j Hp Hs. rewrite E in Hs by exact Hp. eauto.
  - intros p l i a x lx Hp Hs Hn Hw Hx. rewrite E in Hs by exact Hp.
    destruct (script_peer n labels p _ _ _ _ _ _ Hs Hn Hw) as [_ Hr]. rewrite E in Hx by exact Hr. eauto.
Qed.
Lemma dual_same : forall n T T', (forall p, 1 <= p <= n -> T p = T' p) -> dual_mesh n T' -> dual_mesh n T.
Proof.
  intros n T T' H [D1 D2]. split; [intros p Hp; rewrite H by exact Hp; auto|]. intros p q Hp Hq Hne. unfold sess. rewrite !H by assumption. apply D2; assumption.
Qed.
Lemma tidy_same : forall n T T', (forall p, 1 <= p <= n -> T p = T' p) -> tidy_mesh n T' -> tidy_mesh n T.
Proof. intros n T T' H D p Hp. rewrite H by exact Hp. apply D, Hp. Qed.

Theorem global_accepted : forall P G, describes G P -> accepts P = true.
Proof.
  intros P G ((Hn & W1 & W2) & D1 & D2). apply accepts_rounds.
  assert (K : forall T R, wf_round (p_roles P) (p_labels P) R -> (forall p, 1 <= p <= p_roles P -> T p = proj (p_roles P) R p) ->
              dual_mesh (p_roles P) T /\ tidy_mesh (p_roles P) T /\ ordered (p_roles P) (p_labels P) T).
  { intros T R W H. split; [eapply dual_same; [exact H|apply proj_dual]|]. split; [eapply tidy_same; [exact H|eapply proj_tidy; exact W]|].
    eapply ordered_same; [exact H|apply proj_ordered; assumption]. }
  intros T [->|(b & l & Hl & ->)]; [apply (K _ (first_round G)); [exact W1|exact D1]|apply (K _ (body G b l)); [apply W2, Hl|]].
  intros p Hp. apply D2; assumption.
Qed.
Print Assumptions global_accepted.

(** The executions are those of the global protocol. *)
Theorem global_runs : forall P G strict tr, describes G P ->
  (forall st, proto_steps P strict tr st -> exists st', executes (p_roles P) (p_labels P) strict G tr st' /\ same (p_roles P) st st') /\
  (forall st', executes (p_roles P) (p_labels P) strict G tr st' -> exists st, proto_steps P strict tr st /\ same (p_roles P) st' st).
Proof.
  intros P G strict tr (_ & D1 & D2). split.
  - intros st H. destruct (steps_same heap_ops (p_roles P) (p_branch P) (branches G (p_roles P)) (p_labels P) strict D2 _ tr st H
      (start (p_roles P) (proj (p_roles P) (first_round G)))) as (st' & H1 & H2 & _); [apply same_init; exact D1|apply init_chosen|eauto].
  - intros st' H. assert (D2' : forall b l p, l < p_labels P b -> 1 <= p <= p_roles P -> branches G (p_roles P) b l p = p_branch P b l p)
      by (intros b l p Hl Hp; symmetry; apply D2; assumption).
    destruct (steps_same heap_ops (p_roles P) (branches G (p_roles P)) (p_branch P) (p_labels P) strict D2' _ tr st' H
      (start (p_roles P) (p_types P))) as (st & H1 & H2 & _); [apply same_init; intros p Hp; symmetry; apply (D1 p Hp)|apply init_chosen|eauto].
Qed.
Print Assumptions global_runs.

(** * The protocols of the repository *)

(** All tables but one are the projections of a global protocol, which is computed. *)
Definition exceptions : list proto := [four_players_game_sync].
Lemma repository_searched : filter (fun P => negb (is_global P)) all_protocols = exceptions.
Proof. vm_compute. reflexivity. Qed.
Theorem repository_global : forall P, In P all_protocols -> In P exceptions \/ describes (global_of P) P.
Proof.
  intros P H. destruct (is_global P) eqn:E; [right; apply is_global_sound, E|left].
  rewrite <- repository_searched. apply filter_In. rewrite E. auto.
Qed.
Print Assumptions repository_global.

(** The exception (tests/checking_mod/complex/four_players_game_sync.rs) can only be followed because sends do not wait: it is no
    projection of any global protocol, although it never blocks. *)
Theorem four_players_no_global_refuted : accepts four_players_game_sync = true /\ forall G, ~ describes G four_players_game_sync.
Proof.
  split; [apply repository_accepted; apply in_or_app; left; unfold corpus; repeat first [left; reflexivity|right]|].
  intros G D. assert (F : filled four_players_game_sync).
  { intros c Ts Hc HT. assert (E : forallb (fun c => forallb (fun Ts => length Ts =? 4) c) (p_choices four_players_game_sync) = true) by (vm_compute; reflexivity).
    rewrite forallb_forall in E. specialize (E c Hc). rewrite forallb_forall in E. apply Nat.eqb_eq. exact (E Ts HT). }
  assert (E : is_global four_players_game_sync = true) by (apply (is_global_exact _ F); eauto).
  assert (E' : is_global four_players_game_sync = false) by (vm_compute; reflexivity). congruence.
Qed.
Print Assumptions four_players_no_global_refuted.

(** * Rings and meshes of every size *)
Lemma table_roles : forall n sizes G, p_roles (table n sizes G) = n.
Proof. intros. unfold p_roles, table. cbn [p_start]. rewrite map_length, seq_length. reflexivity. Qed.
Lemma of_proj : forall n R p, 1 <= p <= n -> of_list (map (proj n R) (seq 1 n)) p = proj n R p.
Proof.
  intros n R p Hp. unfold of_list. rewrite nth_indep with (d' := proj n R 0) by (rewrite map_length, seq_length; lia).
  rewrite map_nth, seq_nth by lia. f_equal. lia.
Qed.
Lemma table_choice : forall n sizes G b, b < length sizes ->
  nth b (p_choices (table n sizes G)) [] = map (fun l => map (proj n (body G b l)) (seq 1 n)) (seq 0 (nth b sizes 0)).
Proof.
  intros n sizes G b Hb. unfold table. cbn [p_choices].
  set (f := fun bk : nat * nat => map (fun l => map (proj n (body G (fst bk) l)) (seq 1 n)) (seq 0 (snd bk))).
  rewrite nth_indep with (d' := f (0, 0)) by (rewrite map_length, combine_length, seq_length; lia).
  rewrite (map_nth f), combine_nth by (rewrite seq_length; reflexivity). unfold f. cbn [fst snd]. rewrite seq_nth by exact Hb. reflexivity.
Qed.
Lemma table_labels : forall n sizes G b, p_labels (table n sizes G) b = nth b sizes 0.
Proof.
  intros n sizes G b. unfold p_labels. destruct (lt_dec b (length sizes)) as [Hb|Hb].
  - rewrite table_choice by exact Hb. rewrite map_length, seq_length. reflexivity.
  - rewrite !nth_overflow; [reflexivity|lia|]. unfold table. cbn [p_choices]. rewrite map_length, combine_length, seq_length. lia.
Qed.
Lemma wf_labels : forall n labels labels' G, (forall b, labels b = labels' b) -> wf_protocol n labels G -> wf_protocol n labels' G.
Proof.
  intros n labels labels' G H (W0 & W1 & W2).
  assert (K : forall R, wf_round n labels R -> wf_round n labels' R) by (intros [ms [|c b]] [A B]; split; auto; cbn in *; rewrite <- H; exact B).
  split; [exact W0|]. split; [apply K, W1|]. intros b l Hl. rewrite <- H in Hl. apply K, W2, Hl.
Qed.
Theorem table_described : forall n sizes G, wf_protocol n (fun b => nth b sizes 0) G -> describes G (table n sizes G).
Proof.
  intros n sizes G W. unfold describes. rewrite table_roles. split; [|split].
  - eapply wf_labels; [|exact W]. intros b. symmetry. apply table_labels.
  - intros p Hp. apply of_proj, Hp.
  - intros b l p Hl Hp. rewrite table_labels in Hl. destruct (lt_dec b (length sizes)) as [Hb|Hb]; [|rewrite nth_overflow in Hl by lia; lia].
    unfold p_branch. rewrite table_choice by exact Hb.
    set (f := fun l => map (proj n (body G b l)) (seq 1 n)).
    rewrite nth_indep with (d' := f 0) by (rewrite map_length, seq_length; exact Hl).
    rewrite (map_nth f), seq_nth by exact Hl. apply of_proj, Hp.
Qed.
Print Assumptions table_described.

Definition ring (n : nat) : proto := table n [3] (ring_protocol n).
Definition mesh (n : nat) : proto := table n [2] (mesh_protocol n).

Lemma ring_wf : forall n, 2 <= n -> wf_protocol n (fun b => nth b [3] 0) (ring_protocol n).
Proof.
  intros n Hn. split; [exact Hn|]. split; [split; [constructor|cbn; lia]|].
  intros b l Hl. destruct b as [|[|b]]; cbn in Hl; [|lia|destruct b; lia].
  destruct l as [|[|l]]; cbn [body ring_protocol]; (split; [|cbn; lia]); cbn [fst].
  - apply Forall_forall. intros m Hm. apply in_map_iff in Hm. destruct Hm as (p & <- & Hp). apply in_seq in Hp. unfold wf_message. cbn. lia.
  - apply Forall_forall. intros m Hm. apply in_map_iff in Hm. destruct Hm as (p & <- & Hp). apply in_rev, in_seq in Hp. unfold wf_message. cbn. lia.
  - constructor.
Qed.
Lemma mesh_wf : forall n, 2 <= n -> wf_protocol n (fun b => nth b [2] 0) (mesh_protocol n).
Proof.
  intros n Hn. split; [exact Hn|]. split; [split; [constructor|cbn; lia]|].
  intros b l Hl. destruct b as [|[|b]]; cbn in Hl; [|lia|destruct b; lia].
  destruct l as [|l]; cbn [body mesh_protocol]; (split; [|cbn; lia]); cbn [fst]; [|constructor].
  apply Forall_forall. intros m Hm. apply in_flat_map in Hm. destruct Hm as (k & Hk & Hm). apply in_seq in Hk.
  apply in_app_or in Hm. destruct Hm as [[<-|[<-|[]]]|Hm]; unfold wf_message; cbn; [lia|lia|].
  apply in_flat_map in Hm. destruct Hm as (j & Hj & Hm). apply in_seq in Hj. destruct Hm as [<-|[<-|[]]]; cbn; lia.
Qed.

(** The types of all files of examples/ring and examples/mesh are those of the family. *)
Theorem repository_rings : rings = map ring [2; 3; 4; 5; 6; 7; 8; 9; 10; 11; 20].
Proof. vm_compute. reflexivity. Qed.
Print Assumptions repository_rings.
Theorem repository_meshes : meshes = map mesh [2; 3; 4; 5; 6; 7; 8; 9; 10; 11; 20].
Proof. vm_compute. reflexivity. Qed.
Print Assumptions repository_meshes.

(** Rings and meshes of every size are described by a global protocol and accepted: nobody blocks in them, complete runs end with Ok
    (accepted_progress, accepted_one_ok_answer). *)
Theorem rings_of_every_size : forall n, 2 <= n -> describes (ring_protocol n) (ring n) /\ accepts (ring n) = true.
Proof. intros n Hn. assert (D : describes (ring_protocol n) (ring n)) by (apply table_described, ring_wf, Hn). split; [exact D|eapply global_accepted; exact D]. Qed.
Print Assumptions rings_of_every_size.
Theorem meshes_of_every_size : forall n, 2 <= n -> describes (mesh_protocol n) (mesh n) /\ accepts (mesh n) = true.
Proof. intros n Hn. assert (D : describes (mesh_protocol n) (mesh n)) by (apply table_described, mesh_wf, Hn). split; [exact D|eapply global_accepted; exact D]. Qed.
Print Assumptions meshes_of_every_size.

(** ** Examples *)

(** The protocol found for examples/mpst/o_auth.rs. *)
Example o_auth_global : first_round (global_of o_auth) = ([Msg3 2 3 3; Msg3 3 2 4; Msg3 2 1 0; Msg3 1 2 1; Msg3 2 1 2], GChoose 1 0) /\ describes (global_of o_auth) o_auth.
Proof. split; [vm_compute; reflexivity|]. apply is_global_sound. vm_compute. reflexivity. Qed.
(** Two rounds with the same projections whose messages come in a different order. *)
Example two_orders : (forall p, 1 <= p <= 4 -> proj 4 ([Msg3 1 2 0; Msg3 3 4 0], GEnd) p = proj 4 ([Msg3 3 4 0; Msg3 1 2 0], GEnd) p) /\
  Permutation [Msg3 1 2 0; Msg3 3 4 0] [Msg3 3 4 0; Msg3 1 2 0].
Proof.
  assert (H : forall p, 1 <= p <= 4 -> proj 4 ([Msg3 1 2 0; Msg3 3 4 0], GEnd) p = proj 4 ([Msg3 3 4 0; Msg3 1 2 0], GEnd) p)
    by (intros p Hp; assert (p = 1 \/ p = 2 \/ p = 3 \/ p = 4) as [-> | [-> | [-> | ->]]] by lia; reflexivity).
  split; [exact H|]. refine (proj2 (projections_determine 4 (fun _ => 0) (_, GEnd) (_, GEnd) _ _ _ H)); [lia| |];
    (split; [repeat constructor; cbn; lia|exact I]).
Qed.
(** The order of messages between the same roles matters: no round is found if the roles disagree on it. *)
Example crossed : recover 2 (fun _ => 0) [([Snd (PVal 0) (Rcv (PVal 1) End)], SRole 2 (SRole 2 SEnd)); ([Rcv (PVal 0) (Snd (PVal 1) End)], SRole 1 (SRole 1 SEnd))] =
    Some ([Msg3 1 2 0; Msg3 2 1 1], GEnd) /\
  recover 2 (fun _ => 0) [([Snd (PVal 0) (Rcv (PVal 1) End)], SRole 2 (SRole 2 SEnd)); ([Snd (PVal 1) (Rcv (PVal 0) End)], SRole 1 (SRole 1 SEnd))] = None.
Proof. vm_compute. auto. Qed.
(** Which message keeps the four players from having a global protocol: D waits for A, which first waits for C, which first sends to D. *)
Example four_players_stuck : fst (gather 4 100 (nth 1 (nth 0 (p_choices four_players_game_sync) []) [])) = [Msg3 1 3 0; Msg3 3 2 0; Msg3 2 1 0].
Proof. vm_compute. reflexivity. Qed.
