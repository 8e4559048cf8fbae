(** * The walks of a graph with loops: proofs for C45 *)

From Coq Require Import Ascii String ZArith Lia Bool Permutation List.
From Verif Require Import Checker CheckerSpec CheckerText CheckerClean CheckerGraph CheckerRun
  CheckerAll CheckerLoopSpec CheckerLoop CheckerLoopRun.
Import ListNotations.

Lemma moves_in : forall U T a l b, In (a, l, b) (moves_of U T) <->
  l <> Finish /\ exists b', In (a, Some l, b') T /\ b = goto U b'.
Proof.
  intros U T a l b. unfold moves_of. rewrite in_flat_map. split.
  - intros ([[a' x] b'] & I & J). cbn [fst snd] in J.
    destruct x as [[i p|i p|]|]; try contradiction; destruct J as [J|[]]; injection J as <- <- <-;
      (split; [discriminate|now exists b']).
  - intros (NF & b' & I & ->). exists (a, Some l, b'). split; [exact I|]. cbn [fst snd].
    destruct l; try congruence; now left.
Qed.

Section Walk.
  Variable roles : list str.
  Variable me : nat.
  Variable E : enum_table.
  Variable G : line_table.
  Hypothesis Roles : NoDup roles.
  Hypothesis Listed : well_listed E G.
  Variable T : list medge.
  Variable F : nat -> option config.
  Variable ok : nat -> Prop.
  Hypothesis Nodes : forall n, ok n ->
    match F n with Some c => node_ok roles me E G T F n c | None => forall x b, ~ In (n, x, b) T end.
  Hypothesis Targets : forall a x b, In (a, x, b) T -> ok b.

  Notation does_ c tr := (performs E G roles me (fst c) (snd c) tr).

  Lemma jump_to : forall n c, jumps roles me E G T F n c ->
    exists h ch, mu_from T n = Some h /\ In (n, None, h) T /\ ok h /\ F h = Some ch /\
      explored roles me E G T F h None ch /\ forall tr, does_ c tr <-> does_ ch tr.
  Proof.
    intros n c (_ & h & ch & alts & I & One & _ & Fh & U1 & U2 & Um). exists h, ch.
    assert (ok h) as Oh by exact (Targets _ _ _ I).
    split; [|split; [exact I|split; [exact Oh|split; [exact Fh|split]]]].
    - destruct (mu_from T n) as [h'|] eqn:Q.
      + f_equal. apply One. now apply mu_from_some.
      + exfalso. exact (proj2 (mu_from_none T n) Q h I).
    - pose proof (Nodes h Oh) as N. rewrite Fh in N. destruct N as [N|N]; [exact N|].
      exfalso. destruct N as (_ & h' & _ & _ & J & _). exact (Um h' J).
    - exact (does_same roles me E G Roles Listed c ch alts U1 U2).
  Qed.

  Lemma walk_from : forall n tr, silent_walk None T n (map Some tr) -> ok n ->
    match F n with Some c => does_ c tr | None => tr = [] end.
  Proof.
    intros n tr W. remember (map Some tr) as ls eqn:El. revert tr El.
    induction W as [a|a l b ls I NM W IH|a b ls I W IH]; intros tr El On.
    - destruct tr as [|x tr]; [|discriminate El]. destruct (F a); [constructor|reflexivity].
    - destruct tr as [|x tr]; [discriminate El|]. injection El as -> ->.
      specialize (IH tr eq_refl (Targets _ _ _ I)). pose proof (Nodes a On) as N.
      destruct (F a) as [c|]; [|exfalso; exact (N _ _ I)].
      destruct N as [[Um X]|[V _]]; [|exfalso; exact (V _ _ I)].
      apply (does_steps roles me E G c (x :: tr)). exists (F b). split; [|exact IH].
      apply X. now exists b.
    - specialize (IH tr El (Targets _ _ _ I)). pose proof (Nodes a On) as N.
      destruct (F a) as [c|]; [|exfalso; exact (N _ _ I)].
      destruct N as [[Um X]|J]; [exfalso; exact (Um _ I)|].
      destruct (jump_to a c J) as (h & ch & Mu & Ih & _ & Fh & _ & Q).
      destruct J as (_ & h' & _ & _ & Ih' & One & _).
      assert (b = h) as -> by (rewrite (One b I), (One h Ih); reflexivity).
      rewrite Fh in IH. now apply Q.
  Qed.

  Lemma walk_to : forall tr n c, ok n -> F n = Some c -> does_ c tr -> silent_walk None T n (map Some tr).
  Proof.
    induction tr as [|l tr IH]; intros n c On Fn D; [constructor|].
    assert (forall m d, ok m -> F m = Some d -> explored roles me E G T F m None d -> does_ d (l :: tr) ->
              silent_walk None T m (map Some (l :: tr))) as K.
    { intros m d Om Fm [_ X] Dm. apply (does_steps roles me E G d (l :: tr)) in Dm.
      destruct Dm as (o & Nx & Af). apply X in Nx. destruct Nx as (b & I & Fb).
      cbn [map]. apply sw_step with (b := b); [exact I|discriminate|].
      destruct o as [c'|].
      - exact (IH b c' (Targets _ _ _ I) Fb Af).
      - cbn in Af. subst tr. constructor. }
    pose proof (Nodes n On) as N. rewrite Fn in N. destruct N as [N|J].
    - exact (K n c On Fn N D).
    - destruct (jump_to n c J) as (h & ch & Mu & Ih & Oh & Fh & Xh & Q).
      apply sw_skip with (b := h); [exact Ih|]. apply (K h ch Oh Fh Xh). now apply Q.
  Qed.

  Lemma machine_walks : forall tr n c, ok n -> F n = Some c -> unmarked T n ->
    (walk (moves T) n tr <-> does_ c tr /\ ~ In Finish tr).
  Proof.
    induction tr as [|l tr IH]; intros n c On Fn Um.
    - split; [intros _; split; [constructor|intros []]|intros _; constructor].
    - assert (explored roles me E G T F n None c) as [_ X].
      { pose proof (Nodes n On) as N. rewrite Fn in N. destruct N as [N|J]; [exact N|].
        exfalso. destruct J as (_ & h & _ & _ & I & _). exact (Um _ I). }
      assert (forall b, ok b ->
                (walk (moves T) (goto T b) tr <->
                 match F b with Some c' => does_ c' tr | None => tr = [] end /\ ~ In Finish tr)) as K.
      { intros b Ob. unfold goto. pose proof (Nodes b Ob) as N. destruct (F b) as [c'|] eqn:Fb.
        - destruct N as [N|J].
          + rewrite (proj1 (mu_from_none T b) (proj1 N)). exact (IH b c' Ob Fb (proj1 N)).
          + destruct (jump_to b c' J) as (h & ch & Mu & Ih & Oh & Fh & Xh & Q).
            rewrite Mu, (IH h ch Oh Fh (proj1 Xh)), <- Q. reflexivity.
        - assert (mu_from T b = None) as -> by (apply mu_from_none; intros h I; exact (N _ _ I)).
          split.
          + intros W. inversion W as [|? x b' ls I W']; subst; [split; [reflexivity|intros []]|].
            exfalso. apply moves_in in I. destruct I as (_ & b'' & I & _). exact (N _ _ I).
          + intros [-> _]. constructor. }
      rewrite (does_steps roles me E G c (l :: tr)). split.
      + intros W. inversion W as [|? x b ls I W']; subst. apply moves_in in I.
        destruct I as (NF & b' & I & ->). apply (K b' (Targets _ _ _ I)) in W'. destruct W' as [W1 W2].
        split.
        * exists (F b'). split; [apply X; now exists b'|exact W1].
        * intros [Z|Z]; [now apply NF|now apply W2].
      + intros [(o & Nx & Af) NF]. apply X in Nx. destruct Nx as (b & I & Fb).
        apply w_step with (b := goto T b).
        * apply moves_in. split; [intros Z; apply NF; now left|]. now exists b.
        * apply (K b (Targets _ _ _ I)). split; [now rewrite Fb|]. intros Z. apply NF. now right.
  Qed.
End Walk.

(** The texts of the labels are not the mark of the loops. *)
Lemma text_not_mark : forall role roles l, edge_text role roles l <> lit "µ".
Proof.
  intros role roles l Q. assert (In ":"%char (edge_text role roles l) \/ edge_text role roles l = lit "0") as [I|I].
  { destruct l as [i p|i p|]; [left|left|now right]; cbn [edge_text];
      apply in_or_app; right; apply in_or_app; right; apply in_or_app; right; apply in_or_app; left; now left. }
  - rewrite Q in I. cbn in I. intuition discriminate.
  - rewrite Q in I. discriminate I.
Qed.

Lemma shown : forall role roles (T : list medge) n l,
  silent_walk (lit "µ") (map (fun e => (fst (fst e), snd e, snd (fst e))) (map (mark_edge role roles) T)) n l <->
  exists tr, silent_walk None T n (map Some tr) /\ l = map (edge_text role roles) tr.
Proof.
  intros role roles T n l. split.
  - intros W. induction W as [a|a x b ls I NM W IH|a b ls I W IH].
    + exists []. split; [constructor|reflexivity].
    + destruct IH as (tr & W' & ->). rewrite map_map in I. apply in_map_iff in I.
      destruct I as ([[a' y] b'] & Q & I). cbn in Q. injection Q as -> <- ->.
      destruct y as [y|]; [|exfalso; now apply NM]. exists (y :: tr). split; [|reflexivity].
      cbn [map]. now apply sw_step with (b := b).
    + destruct IH as (tr & W' & ->). rewrite map_map in I. apply in_map_iff in I.
      destruct I as ([[a' y] b'] & Q & I). cbn in Q. injection Q as -> Q ->.
      destruct y as [y|]; [exfalso; exact (text_not_mark _ _ _ Q)|]. exists tr. split; [|reflexivity].
      now apply sw_skip with (b := b).
  - intros (tr & W & ->). remember (map Some tr) as ls eqn:El. revert tr El.
    induction W as [a|a x b ls I NM W IH|a b ls I W IH]; intros tr El.
    + destruct tr; [constructor|discriminate El].
    + destruct tr as [|y tr]; [discriminate El|]. injection El as -> ->. cbn [map].
      apply sw_step with (b := b); [|apply text_not_mark|now apply IH].
      rewrite map_map. apply in_map_iff. exists (a, Some y, b). now split.
    + apply sw_skip with (b := b); [|now apply IH].
      rewrite map_map. apply in_map_iff. exists (a, None, b). now split.
Qed.

(** ** One role *)

Theorem loop_session : forall E G br bs gb role roles me c,
  NoDup roles -> nth_error roles me = Some role ->
  well_listed E G -> given E G br bs gb -> tidy_tables E G ->
  S (length (fst c)) = length roles -> tidy_config c ->
  guarded E G roles me [] None c ->
  exists g M N,
    (forall fuel, (N <= fuel)%nat ->
       get_graph_session fuel role (map short (fst c) ++ [short (snd c)]) roles br bs gb =
       Ok (g, machine_text role M)) /\
    (forall l, shows g l <->
       exists tr, performs E G roles me (fst c) (snd c) tr /\ l = map (edge_text role roles) tr) /\
    (forall tr, walk M 0 tr <-> performs E G roles me (fst c) (snd c) tr /\ ~ In Finish tr).
Proof.
  intros E G br bs gb role roles me c Rs Me Ls Gv Tt Ll Tc Gd.
  set (F0 := fun n => if (n =? 0)%nat then Some c else None).
  destruct (built_all role roles me E G Rs Me Ls br bs gb Gv Tt [] None c Gd Tc [] eq_refl
              [0%nat] 0%nat 0%nat [] (Graph [num 0] []) [] F0 eq_refl)
    as (g & T & F & N & Run & Ed & Gr & Nd).
  - cbn. lia.
  - intros a b w [].
  - intros _. split; [intros b w []|]. split; [intros alts h []|reflexivity].
  - discriminate.
  - split; [intros alts h a []|intros k h Q; discriminate Q].
  - intros alts h [].
  - set (ok := fun n => (n < length (nodes g))%nat).
    pose proof (gr_lo _ _ _ _ _ _ _ _ _ _ _ Gr) as L1. pose proof (gr_hi _ _ _ _ _ _ _ _ _ _ _ Gr) as L2.
    cbn [nodes length] in L1, L2, Gr.
    assert (F 0%nat = Some c) as Fz.
    { rewrite (gr_old _ _ _ _ _ _ _ _ _ _ _ Gr) by lia. reflexivity. }
    assert (forall n, ok n ->
      match F n with Some c => node_ok roles me E G T F n c | None => forall x b, ~ In (n, x, b) T end) as Nodes.
    { intros n On. destruct n as [|n]; [rewrite Fz; exact Nd|].
      apply (gr_new _ _ _ _ _ _ _ _ _ _ _ Gr). unfold ok in On. lia. }
    assert (forall a x b, In (a, x, b) T -> ok b) as Targets.
    { intros a [x|] b I; unfold ok.
      - apply (gr_dst _ _ _ _ _ _ _ _ _ _ _ Gr _ _ _ I).
      - destruct (gr_mu _ _ _ _ _ _ _ _ _ _ _ Gr _ _ I) as [(alts & [])|[->|Z]]; lia. }
    assert (ok 0%nat) as O0 by (unfold ok; lia).
    assert (unmarked T 0) as Um.
    { destruct Nd as [Nd|(_ & h & ch & alts & _ & _ & Z & _)]; [apply Nd|lia]. }
    exists g, (moves T), N. split; [|split].
    + intros fuel Fu. unfold get_graph_session. rewrite (position_nth _ _ _ Rs Me).
      cbn [add_node nodes edges app length].
      replace (length (map short (fst c) ++ [short (snd c)]) - 1)%nat with (length roles - 1)%nat
        by (rewrite app_length, map_length; cbn; lia).
      rewrite (Run fuel Fu). cbn [bind]. unfold bend.
      rewrite (proj1 (mu_from_none T 0) Um). cbn [app]. unfold machine_text. do 2 f_equal.
      cbn [app]. do 2 f_equal. f_equal. rewrite map_map. apply map_ext_in.
      intros [[a l] b] I. apply entry_line. apply moves_in in I. destruct I as [NF _].
      destruct l; try reflexivity. congruence.
    + intros l. unfold shows. rewrite Ed. cbn [edges app]. rewrite shown.
      split; intros (tr & A & ->); exists tr; (split; [|reflexivity]).
      * pose proof (walk_from roles me E G Rs Ls T F ok Nodes Targets 0 tr A O0) as K. now rewrite Fz in K.
      * exact (walk_to roles me E G Rs Ls T F ok Nodes Targets tr 0 c O0 Fz A).
    + intros tr. exact (machine_walks roles me E G Rs Ls T F ok Nodes Targets tr 0 c O0 Fz Um).
Qed.
