(** * The graph of a role with enums of branches: proofs for C45 *)

From Coq Require Import Ascii String ZArith Lia Bool Permutation List.
From Verif Require Import Checker CheckerSpec CheckerText CheckerClean CheckerGraph CheckerRun
  CheckerLoopSpec CheckerLoop.
Import ListNotations.

(** Edges; [None] is the mark of a loop. *)
Definition medge : Type := (nat * option label * nat)%type.

Definition is_mark (n : nat) (e : medge) : bool :=
  (fst (fst e) =? n)%nat && match snd (fst e) with None => true | _ => false end.

Definition mu_from (T : list medge) (n : nat) : option nat :=
  match find (is_mark n) T with
  | Some e => Some (snd e)
  | None => None
  end.

Definition goto (T : list medge) (b : nat) : nat :=
  match mu_from T b with Some h => h | None => b end.

(** The transitions of the machine, [U] giving the marks. *)
Definition moves_of (U T : list medge) : list (nat * label * nat) :=
  flat_map (fun e => match snd (fst e) with
                     | None | Some Finish => []
                     | Some l => [(fst (fst e), l, goto U (snd e))]
                     end) T.
Notation moves T := (moves_of T T).

Definition bend (cf : cfsm) (n : nat) (T : list medge) : cfsm :=
  match mu_from T n with Some h => redirect cf h | None => cf end.

Definition unmarked (T : list medge) (n : nat) : Prop := forall h, ~ In (n, None, h) T.

Lemma mu_from_some : forall T n h, mu_from T n = Some h -> In (n, None, h) T.
Proof.
  intros T n h H. unfold mu_from in H. destruct (find (is_mark n) T) as [[[a x] b]|] eqn:F; [|discriminate].
  apply find_some in F. destruct F as [F1 F2]. unfold is_mark in F2. cbn [fst snd] in *. injection H as ->.
  apply andb_true_iff in F2. destruct F2 as [F2 F3]. apply Nat.eqb_eq in F2. subst.
  destruct x; [discriminate|exact F1].
Qed.

Lemma mu_from_none : forall T n, unmarked T n <-> mu_from T n = None.
Proof.
  intros T n. split.
  - intros U. destruct (mu_from T n) as [h|] eqn:E; [|reflexivity].
    exfalso. apply (U h). now apply mu_from_some.
  - intros H h I. unfold mu_from in H. destruct (find (is_mark n) T) eqn:F; [discriminate|].
    apply (find_none _ _ F) in I. unfold is_mark in I. cbn [fst snd] in I. rewrite Nat.eqb_refl in I. discriminate.
Qed.

Lemma mu_from_app : forall T U n, mu_from (T ++ U) n =
  match mu_from T n with Some h => Some h | None => mu_from U n end.
Proof.
  intros T U n. unfold mu_from. induction T as [|e T IH]; [reflexivity|]. cbn [app find].
  destruct (is_mark n e); [reflexivity|exact IH].
Qed.

Lemma mu_from_cons : forall a l b T n, mu_from ((a, Some l, b) :: T) n = mu_from T n.
Proof. intros. unfold mu_from, is_mark. cbn [find fst snd]. now rewrite andb_false_r. Qed.

Lemma moves_ext : forall U V T,
  (forall a l b, In (a, Some l, b) T -> goto U b = goto V b) -> moves_of U T = moves_of V T.
Proof.
  intros U V T H. unfold moves_of. induction T as [|[[a x] b] T IH]; [reflexivity|].
  cbn [flat_map fst snd]. rewrite IH by (intros a' l b' I; apply (H a' l b'); now right). f_equal.
  destruct x as [l|]; [|reflexivity]. rewrite (H a l b); [reflexivity|now left].
Qed.

Lemma moves_app : forall U T1 T2, moves_of U (T1 ++ T2) = moves_of U T1 ++ moves_of U T2.
Proof. intros. unfold moves_of. apply flat_map_app. Qed.

Lemma redirect_last : forall cf e h, redirect (cf ++ [e]) h = cf ++ [(fst e, h)].
Proof.
  intros cf e h. unfold redirect. rewrite rev_app_distr. cbn [rev app]. now rewrite rev_involutive.
Qed.

(** ** Maps *)

Lemma hget_app : forall {A} (m m' : hmap A) k,
  hget (m ++ m') k = match hget m k with Some a => Some a | None => hget m' k end.
Proof.
  intros A m m' k. induction m as [|[k' a] m IH]; [reflexivity|]. cbn [app hget].
  destruct (seqb k' k); [reflexivity|exact IH].
Qed.

Lemma hget_found : forall {A} (m : hmap A) k a, hget m k = Some a -> In (k, a) m.
Proof.
  intros A m k a. induction m as [|[k' b] m IH]; [discriminate|]. cbn [hget].
  destruct (seqb k' k) eqn:Q; intros H.
  - apply seqb_true in Q. subst. injection H as ->. now left.
  - right. now apply IH.
Qed.

Lemma hget_mem : forall {A} (m : hmap A) k, In k (map fst m) -> exists a, hget m k = Some a.
Proof.
  intros A m k. induction m as [|[k' b] m IH]; [contradiction|]. cbn [hget map fst].
  intros [<-|I]; [rewrite seqb_refl; eauto|]. destruct (seqb k' k); [eauto|now apply IH].
Qed.

Lemma hget_names : forall names (n : nat) k,
  (In k names -> hget (map (fun b => (b, n)) names) k = Some n) /\
  (forall h, hget (map (fun b => (b, n)) names) k = Some h -> h = n /\ In k names).
Proof.
  intros names n k. split.
  - intros I. destruct (hget_mem (map (fun b => (b, n)) names) k) as [a Ha].
    { rewrite map_map. cbn. now rewrite map_id. }
    rewrite Ha. apply hget_found in Ha. apply in_map_iff in Ha. destruct Ha as (x & Hx & _).
    now injection Hx as _ ->.
  - intros h H. apply hget_found in H. apply in_map_iff in H. destruct H as (x & Hx & I).
    injection Hx as -> <-. now split.
Qed.

Lemma insert_in : forall {A} (key : A -> str) x y l, In y (insert_by key x l) <-> y = x \/ In y l.
Proof.
  intros A key x y l. induction l as [|z l IH]; cbn [insert_by]; [cbn; intuition congruence|].
  destruct (str_le (key x) (key z)); cbn [In]; [intuition congruence|]. rewrite IH. intuition.
Qed.

Lemma sort_in : forall {A} (key : A -> str) y l, In y (sort_by key l) <-> In y l.
Proof.
  intros A key y l. induction l as [|x l IH]; [reflexivity|]. cbn [sort_by fold_right In].
  rewrite insert_in. fold (sort_by key l). rewrite IH. intuition congruence.
Qed.

Lemma insert_map : forall {A B} (f : A -> B) (ka : A -> str) (kb : B -> str),
  (forall a, kb (f a) = ka a) -> forall x l,
  insert_by kb (f x) (map f l) = map f (insert_by ka x l).
Proof.
  intros A B f ka kb K x l. induction l as [|y l IH]; [reflexivity|]. cbn [map insert_by].
  rewrite !K. destruct (str_le (ka x) (ka y)); [reflexivity|]. cbn [map]. now rewrite IH.
Qed.

Lemma sort_map : forall {A B} (f : A -> B) (ka : A -> str) (kb : B -> str),
  (forall a, kb (f a) = ka a) -> forall l, sort_by kb (map f l) = map f (sort_by ka l).
Proof.
  intros A B f ka kb K l. induction l as [|x l IH]; [reflexivity|]. cbn [map sort_by fold_right].
  fold (sort_by kb (map f l)). fold (sort_by ka l). rewrite IH. now apply insert_map.
Qed.

Lemma upto_written : forall c k l, written c k l ->
  upto k l = Ok (map short (fst c) ++ [short (snd c)]).
Proof.
  intros c k l (extra & <- & ->). unfold upto. rewrite app_assoc, app_length.
  assert ((length extra <=? length (map short (fst c) ++ [short (snd c)]) + length extra)%nat = true) as ->.
  { apply Nat.leb_le. lia. }
  f_equal. rewrite Nat.add_sub. rewrite firstn_app, Nat.sub_diag, firstn_all, firstn_O. apply app_nil_r.
Qed.

Section Run.
  Variable role : str.
  Variable roles : list str.
  Variable me : nat.
  Variable E : enum_table.
  Variable G : line_table.
  Hypothesis Roles : NoDup roles.
  Hypothesis Me : nth_error roles me = Some role.
  Hypothesis Listed : well_listed E G.
  Variable br : hmap (hmap (list str)).
  Variable bs : hmap (list str).
  Variable gb : hmap Z.
  Hypothesis Given : given E G br bs gb.
  Hypothesis Tidy : tidy_tables E G.

  Notation unf := (unfolds E G roles me).
  Notation nxt := (next roles me E G).
  Notation aux := (aux_get_graph role roles
    (repeat (lit "End") (length roles - 1) ++ [lit "RoleEnd"]) me br bs gb).
  Notation texts c := (map short (fst c) ++ [short (snd c)]).

  Definition mark_edge (e : medge) : nat * nat * str :=
    (fst (fst e), snd e,
     match snd (fst e) with Some l => edge_text role roles l | None => lit "µ" end).

  (** The node [n] has the first steps of [c]. *)
  Definition explored (T : list medge) (F : nat -> option config) (n : nat)
      (k : option alternatives) (c : config) : Prop :=
    unmarked T n /\
    forall l o, (exists b, In (n, Some l, b) T /\ F b = o) <-> nxt k c l o.

  (** The node [n] only leads back to [h], which has the same choice. *)
  Definition jumps (T : list medge) (F : nat -> option config) (n : nat) (c : config) : Prop :=
    (forall l b, ~ In (n, Some l, b) T) /\
    exists h ch alts, In (n, None, h) T /\ (forall h', In (n, None, h') T -> h' = h) /\
      (h < n)%nat /\ F h = Some ch /\ unf c alts /\ unf ch alts /\ unmarked T h.

  Definition node_ok (T : list medge) (F : nat -> option config) (n : nat) (c : config) : Prop :=
    explored T F n None c \/ jumps T F n c.

  (** The edges [T], from [prev] and the new nodes from [lo] below [hi]. *)
  Record grows (heads : nat -> Prop) (prev lo hi : nat) (F0 F : nat -> option config)
      (T : list medge) : Prop := {
    gr_lo : (prev < lo)%nat;
    gr_hi : (lo <= hi)%nat;
    gr_src : forall a x b, In (a, x, b) T -> a = prev \/ (lo <= a < hi)%nat;
    gr_dst : forall a l b, In (a, Some l, b) T -> (lo <= b < hi)%nat;
    gr_mu : forall a h, In (a, None, h) T -> heads h \/ h = prev \/ (lo <= h < hi)%nat;
    gr_old : forall n, (n < lo)%nat -> F n = F0 n;
    gr_new : forall n, (lo <= n < hi)%nat ->
      match F n with Some c => node_ok T F n c | None => forall x b, ~ In (n, x, b) T end
  }.

  Lemma explored_ext : forall T F U H n k c, explored T F n k c ->
    (forall x b, In (n, x, b) U <-> In (n, x, b) T) ->
    (forall l b, In (n, Some l, b) T -> H b = F b) -> explored U H n k c.
  Proof.
    intros T F U H n k c [M X] S A. split.
    - intros h I. apply (M h). now apply S.
    - intros l o. rewrite <- X. split; intros (b & I & Q); exists b.
      + apply S in I. split; [exact I|]. now rewrite <- (A l b I).
      + split; [now apply S|]. now rewrite (A l b I).
  Qed.

  Lemma node_ext : forall T F U H n c, node_ok T F n c ->
    (forall x b, In (n, x, b) U <-> In (n, x, b) T) ->
    (forall l b, In (n, Some l, b) T -> H b = F b) ->
    (forall h, In (n, None, h) T -> H h = F h) ->
    (forall h, In (n, None, h) T -> unmarked T h -> unmarked U h) -> node_ok U H n c.
  Proof.
    intros T F U H n c [X|(V & h & ch & alts & I & O & L & Fh & U1 & U2 & M)] S A B C.
    - left. now apply (explored_ext T F).
    - right. split; [intros l b J; apply (V l b); now apply S|].
      exists h, ch, alts. split; [now apply S|]. split; [intros h' J; apply O; now apply S|].
      split; [exact L|]. split; [now rewrite B|]. split; [exact U1|]. split; [exact U2|now apply C].
  Qed.

  Lemma grows_app : forall (heads : nat -> Prop) prev lo mid hi F0 F1 F2 T1 T2,
    (forall h, heads h -> (h <= prev)%nat) ->
    grows heads prev lo mid F0 F1 T1 -> grows heads prev mid hi F1 F2 T2 ->
    unmarked T1 prev -> unmarked T2 prev ->
    grows heads prev lo hi F0 F2 (T1 ++ T2) /\
    moves (T1 ++ T2) = moves T1 ++ moves T2 /\ unmarked (T1 ++ T2) prev.
  Proof.
    intros heads prev lo mid hi F0 F1 F2 T1 T2 Hd A B M1 M2.
    destruct A as [A1 A2 A3 A4 A5 A6 A7]. destruct B as [B1 B2 B3 B4 B5 B6 B7].
    assert (forall n x b, (lo <= n < mid)%nat -> ~ In (n, x, b) T2) as N2.
    { intros n x b L I. destruct (B3 _ _ _ I); lia. }
    assert (forall n x b, (mid <= n)%nat -> ~ In (n, x, b) T1) as N1.
    { intros n x b L I. destruct (A3 _ _ _ I); lia. }
    assert (unmarked (T1 ++ T2) prev) as M.
    { intros h I. apply in_app_or in I. destruct I as [I|I]; [now apply (M1 h)|now apply (M2 h)]. }
    split; [|split; [|exact M]].
    - constructor.
      + exact A1.
      + lia.
      + intros a x b I. apply in_app_or in I. destruct I as [I|I]; [destruct (A3 _ _ _ I)|destruct (B3 _ _ _ I)]; lia.
      + intros a l b I. apply in_app_or in I. destruct I as [I|I]; [pose proof (A4 _ _ _ I)|pose proof (B4 _ _ _ I)]; lia.
      + intros a h I. apply in_app_or in I.
        destruct I as [I|I]; [destruct (A5 _ _ I) as [?|[?|?]]|destruct (B5 _ _ I) as [?|[?|?]]];
          try (now left); right; try (now left); right; lia.
      + intros n L. rewrite B6 by lia. now apply A6.
      + intros n L. destruct (Nat.lt_ge_cases n mid) as [Lm|Lm].
        * rewrite B6 by exact Lm. specialize (A7 n ltac:(lia)). destruct (F1 n) as [c|].
          -- apply (node_ext T1 F1); [exact A7| | | |].
             ++ intros x b. rewrite in_app_iff. split; [|tauto]. intros [I|I]; [exact I|].
                exfalso. apply (N2 n x b); [lia|exact I].
             ++ intros l b I. apply B6. pose proof (A4 _ _ _ I). lia.
             ++ intros h I. apply B6. destruct (A5 _ _ I) as [Z|[Z|Z]]; [apply Hd in Z|..]; lia.
             ++ intros h I U h' J. apply in_app_or in J. destruct J as [J|J]; [now apply (U h')|].
                destruct (B3 _ _ _ J) as [->|Z]; [now apply (M2 h')|].
                destruct (A5 _ _ I) as [Y|[Y|Y]]; [apply Hd in Y|..]; lia.
          -- intros x b I. apply in_app_or in I. destruct I as [I|I]; [now apply (A7 x b)|].
             apply (N2 n x b); [lia|exact I].
        * specialize (B7 n ltac:(lia)). destruct (F2 n) as [c|].
          -- apply (node_ext T2 F2); [exact B7| | | |].
             ++ intros x b. rewrite in_app_iff. split; [|tauto]. intros [I|I]; [|exact I].
                exfalso. apply (N1 n x b); [lia|exact I].
             ++ reflexivity.
             ++ reflexivity.
             ++ intros h I U h' J. apply in_app_or in J. destruct J as [J|J]; [|now apply (U h')].
                destruct (A3 _ _ _ J) as [->|Z]; [now apply (M1 h')|].
                destruct (B5 _ _ I) as [Y|[Y|Y]]; [apply Hd in Y|..]; lia.
          -- intros x b I. apply in_app_or in I. destruct I as [I|I]; [|now apply (B7 x b)].
             apply (N1 n x b); [lia|exact I].
    - rewrite moves_app. f_equal; apply moves_ext; intros a l b I; unfold goto; rewrite mu_from_app.
      + destruct (mu_from T1 b) eqn:Q; [reflexivity|].
        assert (mu_from T2 b = None) as ->; [|reflexivity]. apply mu_from_none. intros h J.
        pose proof (A4 _ _ _ I). destruct (B3 _ _ _ J); lia.
      + assert (mu_from T1 b = None) as ->; [|reflexivity]. apply mu_from_none. intros h J.
        pose proof (B4 _ _ _ I). destruct (A3 _ _ _ J); lia.
  Qed.

  Lemma explored_sides : forall heads prev lo mid hi F0 F1 F2 T1 T2 k c c1 c2,
    grows heads prev lo mid F0 F1 T1 -> grows heads prev mid hi F1 F2 T2 ->
    explored T1 F1 prev k c1 -> explored T2 F2 prev k c2 ->
    (forall l o, nxt k c l o <-> nxt k c1 l o \/ nxt k c2 l o) ->
    explored (T1 ++ T2) F2 prev k c.
  Proof.
    intros heads prev lo mid hi F0 F1 F2 T1 T2 k c c1 c2 A B [M1 X1] [M2 X2] S. split.
    - intros h I. apply in_app_or in I. destruct I as [I|I]; [now apply (M1 h)|now apply (M2 h)].
    - intros l o. rewrite S, <- X1, <- X2. split.
      + intros (b & I & Q). apply in_app_or in I. destruct I as [I|I]; [left|right]; exists b; (split; [exact I|]); [|exact Q].
        rewrite <- (gr_old _ _ _ _ _ _ _ B); [exact Q|]. apply (gr_dst _ _ _ _ _ _ _ A _ _ _ I).
      + intros [(b & I & Q)|(b & I & Q)]; exists b; (split; [apply in_or_app|]); auto.
        rewrite (gr_old _ _ _ _ _ _ _ B); [exact Q|]. apply (gr_dst _ _ _ _ _ _ _ A _ _ _ I).
  Qed.

  (** The names already seen are those of the choices entered before. *)
  Definition seen_ok (env : list (alternatives * nat)) (seen : hmap nat) : Prop :=
    (forall alts h a, In (alts, h) env -> In a alts -> hget seen (fst a) = Some h) /\
    (forall k h, hget seen k = Some h ->
       exists alts h' a, In (alts, h') env /\ In a alts /\ together G k (fst a)).

  Definition heads_of (env : list (alternatives * nat)) (h : nat) : Prop :=
    exists alts, In (alts, h) env.

  Definition built (env : list (alternatives * nat)) (top : option (option alternatives))
      (c : config) : Prop :=
    forall ix prev d seen g cf F0,
    length ix = S d -> (prev < length (nodes g))%nat ->
    (forall a b w, In (a, b, w) (edges g) -> (a < length (nodes g))%nat) ->
    (top = None -> (forall b w, ~ In (prev, b, w) (edges g)) /\
       (forall alts h, In (alts, h) env -> (h < prev)%nat) /\ F0 prev = Some c) ->
    (forall alts, top = Some (Some alts) -> In (alts, prev) env) ->
    seen_ok env seen ->
    (forall alts h, In (alts, h) env -> (h <= prev)%nat /\ exists ch, F0 h = Some ch /\ unf ch alts) ->
    exists g' T F N,
      (forall fuel, (N <= fuel)%nat ->
         aux fuel (texts c) ix prev d seen g cf =
         Ok (g', bend cf prev T ++ map (entry role) (moves T))) /\
      edges g' = edges g ++ map mark_edge T /\
      grows (heads_of env) prev (length (nodes g)) (length (nodes g')) F0 F T /\
      match top with
      | None => node_ok T F prev c
      | Some k => explored T F prev k c
      end.

  Lemma grow_sources : forall heads prev lo hi F0 F T (g : graph) g',
    edges g' = edges g ++ map mark_edge T -> grows heads prev lo hi F0 F T ->
    lo = length (nodes g) -> hi = length (nodes g') ->
    (forall a b w, In (a, b, w) (edges g) -> (a < length (nodes g))%nat) ->
    (forall a b w, In (a, b, w) (edges g') -> (a < length (nodes g'))%nat).
  Proof.
    intros heads prev lo hi F0 F T g g' Ed Gr -> -> S a b w I. rewrite Ed in I.
    pose proof (gr_lo _ _ _ _ _ _ _ Gr). pose proof (gr_hi _ _ _ _ _ _ _ Gr).
    apply in_app_or in I. destruct I as [I|I].
    - specialize (S _ _ _ I). lia.
    - apply in_map_iff in I. destruct I as ([[a' x] b'] & X & I). cbn in X. injection X as -> _ _.
      destruct (gr_src _ _ _ _ _ _ _ Gr _ _ _ I); lia.
  Qed.

  (** *** End *)
  Lemma built_end : forall env top ss, Forall (eq tEnd) ss -> S (length ss) = length roles ->
    built env top (ss, tRoleEnd).
  Proof.
    intros env top ss Es L ix prev d seen g cf F0 Lix Lp Sr Rt Tp Sn En.
    assert (map short ss = repeat (lit "End") (length roles - 1)) as M.
    { rewrite <- L. cbn [Nat.sub]. rewrite Nat.sub_0_r. clear -Es.
      induction Es as [|s ss <- _ IH]; [reflexivity|]. cbn [map length repeat]. now rewrite IH. }
    destruct (nth_error ix d) as [k|] eqn:Ek.
    2:{ apply nth_error_None in Ek. lia. }
    assert (length (put ix d (S k)) = S d) as Lp' by (rewrite put_length; lia).
    destruct (extract_ok _ _ Lp') as [w Ew]. set (n := length (nodes g)).
    set (F := fun m => if (m =? n)%nat then None else F0 m).
    exists (add_edge (fst (add_node g w)) prev n (lit "0")), [(prev, Some Finish, n)], F, 1%nat.
    assert (explored [(prev, Some Finish, n)] F prev None (ss, tRoleEnd) /\
            forall k, explored [(prev, Some Finish, n)] F prev k (ss, tRoleEnd)) as [X1 X2].
    { assert (forall k, explored [(prev, Some Finish, n)] F prev k (ss, tRoleEnd)) as X; [|now split].
      intros k0. split; [intros h [I|[]]; discriminate|]. intros l o. split.
      - intros (b & [I|[]] & Q). injection I as <- <-. unfold F in Q. rewrite Nat.eqb_refl in Q. subst o.
        apply nx_now. now constructor.
      - intros N. inversion N as [c l' o' N'|c c1 c2 l' o' B|c c1 c2 l' o' B|c alts a l' o' U]; subst.
        + inversion N'; subst. exists n. split; [now left|]. unfold F. now rewrite Nat.eqb_refl.
        + inversion B.
        + inversion B.
        + inversion U. }
    split; [|split; [|split]].
    - intros fuel Fu. destruct fuel as [|fuel]; [lia|]. cbn [aux_get_graph fst snd]. rewrite M.
      destruct (list_eq_dec _ _ _) as [_|D]; [|exfalso; now apply D].
      rewrite (at_some _ _ _ Ek). cbn [bind].
      rewrite set_at_put by lia. cbn [bind]. rewrite Ew. cbn [bind].
      unfold bend. rewrite mu_from_cons. cbn [moves_of flat_map map find mu_from fst snd app]. rewrite app_nil_r.
      reflexivity.
    - reflexivity.
    - cbn [add_edge add_node fst nodes]. rewrite app_length. cbn [length]. fold n. constructor.
      + exact Lp.
      + lia.
      + intros a x b [I|[]]. injection I as <- <- <-. now left.
      + intros a x b [I|[]]. injection I as <- <- <-. lia.
      + intros a h [I|[]]. discriminate.
      + intros m Lm. unfold F. assert ((m =? n)%nat = false) as -> by (apply Nat.eqb_neq; lia). reflexivity.
      + intros m Lm. assert (m = n) as -> by lia. unfold F. rewrite Nat.eqb_refl.
        intros x b [I|[]]. injection I as Z _ _. unfold n in Z. lia.
    - destruct top as [k0|]; [apply X2|left; exact X1].
  Qed.

  (** *** A message *)
  Lemma built_message : forall env top ss st i r p s (out : bool) lab,
    nth_error roles i = Some r -> i <> me ->
    nth_error ss (slot me i) = Some (if out then tSend p s else tRecv p s) ->
    lab = (if out then Out i p else In_ i p) ->
    (out = false -> ~ In (short p) (map fst E)) ->
    Forall tidy ss -> tidy (Node [] r [st]) ->
    built env None (put ss (slot me i) s, st) ->
    built env top (ss, Node [] r [st]).
  Proof.
    intros env top ss st i r p s out lab Ni D Ns El Hne Ts Tst IH ix prev d seen g cf F0 Lix Lp Sr Rt Tp Sn En.
    destruct (nth_error ix d) as [k|] eqn:Ek.
    2:{ apply nth_error_None in Ek. lia. }
    assert (length (put ix d (S k)) = S d) as Lp' by (rewrite put_length; lia).
    destruct (extract_ok _ _ Lp') as [w Ew].
    set (n := length (nodes g)) in *. set (c' := (put ss (slot me i) s, st)).
    set (g2 := add_edge (fst (add_node g w)) prev n (edge_text role roles lab)).
    set (cf2 := cf ++ [entry role (prev, lab, n)]).
    set (F1 := fun m => if (m =? n)%nat then Some c' else F0 m).
    assert (length (nodes g2) = S n) as Ln.
    { unfold g2. cbn [add_edge add_node fst nodes]. rewrite app_length. cbn. lia. }
    assert (forall m, (m < n)%nat -> F1 m = F0 m) as F1o.
    { intros m Lm. unfold F1. assert ((m =? n)%nat = false) as -> by (apply Nat.eqb_neq; lia). reflexivity. }
    assert (F1 n = Some c') as F1n by (unfold F1; now rewrite Nat.eqb_refl).
    destruct (IH (put ix d (S k)) n d seen g2 cf2 F1 Lp' ltac:(lia)) as (g' & T & F & N & Run & Ed & Gr & Nd).
    { intros a b w' I. rewrite Ln. unfold g2 in I. cbn [add_edge add_node fst edges] in I.
      apply in_app_or in I. destruct I as [I|[I|[]]]; [specialize (Sr _ _ _ I); lia|].
      injection I as <- _ _. lia. }
    { intros _. split.
      - intros b w' I. unfold g2 in I. cbn [add_edge add_node fst edges] in I.
        apply in_app_or in I. destruct I as [I|[I|[]]]; [specialize (Sr _ _ _ I); lia|].
        injection I as Z _ _. lia.
      - split; [|exact F1n]. intros alts h I. destruct (En _ _ I). lia. }
    { discriminate. }
    { exact Sn. }
    { intros alts h I. destruct (En _ _ I) as (Lh & ch & Fh & U). split; [lia|]. exists ch. split; [|exact U].
      rewrite F1o by lia. exact Fh. }
    rewrite Ln in Gr. destruct Gr as [G1 G2 G3 G4 G5 G6 G7].
    exists g', ((prev, Some lab, n) :: T), F, (S N).
    assert (F n = Some c') as Fn by (rewrite G6 by lia; exact F1n).
    assert (forall k0 l o, nxt k0 (ss, Node [] r [st]) l o <-> l = lab /\ o = Some c') as Nx.
    { intros k0 l o. split.
      - intros X. inversion X as [c0 l' o' N'|c0 c1 c2 l' o' B|c0 c1 c2 l' o' B|c0 alts a l' o' U]; subst.
        + inversion N' as [|? ? i' ? p' s' Ni' D' Ns'|? ? i' ? p' s' Ni' D' Ns' NE]; subst;
            pose proof (same_role _ Roles _ _ _ Ni Ni') as <-; rewrite Ns in Ns'; destruct out; try discriminate;
            injection Ns' as <- <-; now split.
        + inversion B.
        + inversion B.
        + inversion U as [? ? i' ? p' s' vs Ni' D' Ns' I'|]; subst.
          pose proof (same_role _ Roles _ _ _ Ni Ni') as <-. rewrite Ns in Ns'. destruct out; [discriminate|].
          injection Ns' as <- <-. exfalso. apply Hne; [reflexivity|]. apply in_map_iff. now exists (short p, vs).
      - intros [-> ->]. apply nx_now. rewrite El. destruct out.
        + eapply nw_send; eassumption.
        + eapply nw_recv; try eassumption. now apply Hne. }
    assert (forall k0, explored ((prev, Some lab, n) :: T) F prev k0 (ss, Node [] r [st])) as X.
    { intros k0. split.
      - intros h [I|I]; [discriminate|]. destruct (G3 _ _ _ I); lia.
      - intros l o. rewrite Nx. split.
        + intros (b & [I|I] & Q); [|destruct (G3 _ _ _ I); lia]. injection I as <- <-. rewrite Fn in Q. now split.
        + intros [-> ->]. exists n. split; [now left|exact Fn]. }
    split; [|split; [|split]].
    - intros fuel Fu. destruct fuel as [|fuel]; [lia|]. cbn [fst snd].
      rewrite (message_step role roles me Roles br bs gb ss st i r p s out lab ix prev d seen g cf k w fuel);
        try assumption.
      2:{ intros O. apply (gv_only _ _ _ _ _ Given). now apply Hne. }
      fold n g2 cf2. specialize (Run fuel ltac:(lia)). cbn [fst snd] in Run. rewrite Run.
      f_equal. f_equal.
      unfold bend at 2. rewrite mu_from_cons.
      assert (mu_from T prev = None) as ->.
      { apply mu_from_none. intros h I. destruct (G3 _ _ _ I); lia. }
      assert (moves ((prev, Some lab, n) :: T) = (prev, lab, goto T n) :: moves T) as ->.
      { assert (moves_of ((prev, Some lab, n) :: T) T = moves T) as Q.
        { apply moves_ext. intros a l b _. unfold goto. now rewrite mu_from_cons. }
        change ((prev, Some lab, n) :: T) with ([(prev, Some lab, n)] ++ T) at 2.
        rewrite moves_app, Q. cbn [moves_of flat_map fst snd app].
        assert (goto ((prev, Some lab, n) :: T) n = goto T n) as -> by (unfold goto; now rewrite mu_from_cons).
        rewrite El. now destruct out. }
      cbn [map]. unfold bend, goto, cf2.
      assert (forall m, entry role (prev, lab, m) = (fst (entry role (prev, lab, n)), m)) as Em.
      { intros m. rewrite El. destruct out; reflexivity. }
      destruct (mu_from T n) as [h|]; [rewrite redirect_last, <- Em|]; rewrite <- app_assoc; reflexivity.
    - rewrite Ed. unfold g2. cbn [add_edge add_node fst edges map].
      rewrite <- app_assoc. reflexivity.
    - constructor.
      + exact Lp.
      + lia.
      + intros a x b [I|I]; [injection I as <- _ _; now left|]. destruct (G3 _ _ _ I); right; lia.
      + intros a l b [I|I]; [injection I as _ _ <-; lia|]. pose proof (G4 _ _ _ I). lia.
      + intros a h [I|I]; [discriminate|]. destruct (G5 _ _ I) as [Z|[Z|Z]]; [now left|..]; right; right; lia.
      + intros m Lm. rewrite G6 by lia. now apply F1o.
      + assert (forall m c0, (n <= m)%nat -> node_ok T F m c0 -> node_ok ((prev, Some lab, n) :: T) F m c0) as Q.
        { intros m c0 Lm Nm. apply (node_ext T F); [exact Nm| |reflexivity|reflexivity|].
          - intros x b. split; [|intros I; now right]. intros [I|I]; [injection I as Z _ _; lia|exact I].
          - intros h _ U h' [I|I]; [discriminate|now apply (U h')]. }
        intros m Lm. destruct (Nat.eq_dec m n) as [->|Dm].
        * rewrite Fn. now apply Q.
        * specialize (G7 m ltac:(lia)). destruct (F m) as [cm|]; [apply Q; [lia|exact G7]|].
          intros x b [I|I]; [injection I as Z _ _; lia|now apply (G7 x b)].
    - destruct top as [k0|]; [apply X|left; apply X].
  Qed.

  (** *** A binary choice *)
  Lemma built_binary : forall env top c c1 c2,
    built env (Some match top with Some k => k | None => None end) c1 ->
    built env (Some match top with Some k => k | None => None end) c2 ->
    (forall fuel ix prev d seen g cf,
       aux (S fuel) (texts c) ix prev d seen g cf =
       ('(g', c') <- aux fuel (texts c1) (ix ++ [0%nat]) prev (S d) seen g cf;;
        aux fuel (texts c2) (ix ++ [0%nat]) prev (S d) seen g' c')) ->
    (forall k l o, nxt k c l o <-> nxt k c1 l o \/ nxt k c2 l o) ->
    built env top c.
  Proof.
    intros env top c c1 c2 B1 B2 Step Nx ix prev d seen g cf F0 Lix Lp Sr Rt Tp Sn En.
    set (k := match top with Some k => k | None => None end) in *.
    assert (length (ix ++ [0%nat]) = S (S d)) as Lix' by (rewrite app_length; cbn; lia).
    assert (forall alts, Some k = Some (Some alts) -> In (alts, prev) env) as Tp'.
    { intros alts Q. apply Tp. unfold k in Q. destruct top as [[a|]|]; congruence. }
    destruct (B1 (ix ++ [0%nat]) prev (S d) seen g cf F0 Lix' Lp Sr ltac:(discriminate) Tp' Sn En)
      as (g1 & T1 & F1 & N1 & R1 & E1 & G1 & X1).
    assert (prev < length (nodes g1))%nat as Lp1.
    { pose proof (gr_lo _ _ _ _ _ _ _ G1). pose proof (gr_hi _ _ _ _ _ _ _ G1). lia. }
    assert (bend cf prev T1 = cf) as Bd1.
    { unfold bend. now rewrite (proj1 (mu_from_none _ _) (proj1 X1)). }
    destruct (B2 (ix ++ [0%nat]) prev (S d) seen g1 (cf ++ map (entry role) (moves T1)) F1 Lix' Lp1)
      as (g2 & T2 & F2 & N2 & R2 & E2 & G2 & X2).
    { exact (grow_sources _ _ _ _ _ _ _ _ _ E1 G1 eq_refl eq_refl Sr). }
    { discriminate. }
    { exact Tp'. }
    { exact Sn. }
    { intros alts h I. destruct (En _ _ I) as (Lh & ch & Fh & U). split; [exact Lh|]. exists ch.
      split; [|exact U]. rewrite (gr_old _ _ _ _ _ _ _ G1) by lia. exact Fh. }
    assert (bend (cf ++ map (entry role) (moves T1)) prev T2 = cf ++ map (entry role) (moves T1)) as Bd2.
    { unfold bend. now rewrite (proj1 (mu_from_none _ _) (proj1 X2)). }
    assert (forall h, heads_of env h -> (h <= prev)%nat) as Hd.
    { intros h [alts I]. apply (En alts h I). }
    destruct (grows_app _ _ _ _ _ _ _ _ _ _ Hd G1 G2 (proj1 X1) (proj1 X2)) as (Gr & Mv & Um).
    pose proof (explored_sides _ _ _ _ _ _ _ _ _ _ k c c1 c2 G1 G2 X1 X2 (Nx k)) as X.
    exists g2, (T1 ++ T2), F2, (S (N1 + N2)). split; [|split; [|split]].
    - intros fuel Fu. destruct fuel as [|fuel]; [lia|]. rewrite Step.
      rewrite R1 by lia. cbn [bind]. rewrite Bd1, R2 by lia. rewrite Bd2, Mv, map_app, app_assoc.
      unfold bend. now rewrite (proj1 (mu_from_none _ _) Um).
    - now rewrite E2, E1, map_app, app_assoc.
    - exact Gr.
    - destruct top as [k0|]; [exact X|left; exact X].
  Qed.

  Notation others := (filter (fun i => negb (i =? me)%nat) (seq 0 (length roles))).

  Lemma next_two : forall c c1 c2, binary roles me c c1 c2 ->
    (forall d1 d2, binary roles me c d1 d2 -> d1 = c1 /\ d2 = c2) ->
    forall k l o, nxt k c l o <-> nxt k c1 l o \/ nxt k c2 l o.
  Proof.
    intros c c1 c2 B One k l o. split.
    - intros N. inversion N as [d l' o' N'|d d1 d2 l' o' B' N'|d d1 d2 l' o' B' N'|d alts a l' o' U']; subst.
      + exfalso. inversion B; subst; inversion N'.
      + left. now destruct (One _ _ B') as [-> _].
      + right. now destruct (One _ _ B') as [_ ->].
      + exfalso. eapply unf_not_binary; eassumption.
    - intros [N|N]; [eapply nx_left|eapply nx_right]; eassumption.
  Qed.

  Lemma built_offer : forall env top ss r stl str k l ls lst ln rgt rs rst rn,
    S (length ss) = length roles ->
    nth_error ss k = Some (tRecv (tEither (Node [] l (ls ++ [lst; ln]))
                                          (Node [] rgt (rs ++ [rst; rn]))) tEnd) ->
    (forall j, j <> k -> forall s, nth_error ss j = Some s -> s = tEnd) ->
    Forall tidy ss -> tidy (Node [] r [stl; str]) ->
    built env (Some match top with Some k => k | None => None end) (ls, lst) ->
    built env (Some match top with Some k => k | None => None end) (rs, rst) ->
    built env top (ss, Node [] r [stl; str]).
  Proof.
    intros env top ss r stl str k l ls lst ln rgt rs rst rn L N O T Ts B1 B2.
    apply (built_binary env top _ _ _ B1 B2).
    - now apply (offer_step role roles me br bs gb ss r stl str k l ls lst ln rgt rs rst rn).
    - apply next_two; [eapply bi_offer; exact N|].
      intros d1 d2 X. inversion X as [? ? ? ? k' l' ls' lst' ln' rgt' rs' rst' rn' N'
                                     |? ? ? ? dl dr F1 F2]; subst.
      + assert (k' = k) as ->.
        { destruct (Nat.eq_dec k' k) as [Q|Q]; [exact Q|].
          pose proof (O k' Q _ N') as Z. discriminate Z. }
        rewrite N in N'. injection N' as _ E1 _ E2.
        apply app_two in E1. destruct E1 as (-> & -> & _).
        apply app_two in E2. destruct E2 as (-> & -> & _). now split.
      + exfalso.
        assert (length others = length ss) as Lo by (pose proof (others_length role roles me Me) as Q; unfold CheckerRun.others in Q; rewrite Q; lia).
        destruct (nth_error others k) as [i|] eqn:Ei.
        2:{ apply nth_error_None in Ei.
            assert (k < length ss)%nat by (apply nth_error_Some; rewrite N; discriminate). lia. }
        assert (In (i, tRecv (tEither (Node [] l (ls ++ [lst; ln]))
                         (Node [] rgt (rs ++ [rst; rn]))) tEnd) (combine others ss)) as I.
        { clear -Ei N. revert k Ei N. generalize others. intros o. revert ss.
          induction o as [|a o IH]; intros ss k Ei N; [destruct k; discriminate Ei|].
          destruct ss as [|s ss]; [destruct k; discriminate N|].
          destruct k as [|k]; cbn in Ei, N.
          - injection Ei as ->. injection N as ->. now left.
          - right. exact (IH ss k Ei N). }
        clear -F1 I. induction F1 as [|x d xs ds Hx _ IH]; [contradiction|].
        destruct I as [->|I]; [|exact (IH I)].
        destruct Hx as (? & ? & ? & ? & ? & Q & _). cbn [snd] in Q. discriminate Q.
  Qed.

  Lemma built_choose : forall env top ss r stl str dl dr,
    ss <> [] -> S (length ss) = length roles ->
    Forall2 (fun i_s d => exists l ls lst nm a rgt,
               snd i_s = tSend (tEither (Node [] l (ls ++ [lst; Node [] nm a])) rgt) tEnd /\
               nth_error roles (fst i_s) = Some nm /\
               exists s, nth_error ls (slot (fst i_s) me) = Some s /\ dual_of s d)
      (combine others ss) dl ->
    Forall2 (fun i_s d => exists lft r' rs rst rn,
               snd i_s = tSend (tEither lft (Node [] r' (rs ++ [rst; rn]))) tEnd /\
               exists s, nth_error rs (slot (fst i_s) me) = Some s /\ dual_of s d)
      (combine others ss) dr ->
    Forall tidy ss -> tidy (Node [] r [stl; str]) ->
    built env (Some match top with Some k => k | None => None end) (dl, stl) ->
    built env (Some match top with Some k => k | None => None end) (dr, str) ->
    built env top (ss, Node [] r [stl; str]).
  Proof.
    intros env top ss r stl str dl dr NE L F1 F2 T Ts B1 B2.
    assert (length others = length ss) as Lo by (pose proof (others_length role roles me Me) as Q; unfold CheckerRun.others in Q; rewrite Q; lia).
    assert (map snd (combine others ss) = ss) as Ms by now apply combine_snd.
    apply (built_binary env top _ _ _ B1 B2).
    - now apply (choose_step role roles me Roles Me br bs gb).
    - apply next_two.
      + apply bi_choose; [|exact F2].
        clear -F1. induction F1 as [|x d xs ds Hx _ IH]; constructor; [|exact IH].
        destruct Hx as (l & ls & lst & nm & a & rgt & E1 & _ & E2).
        now exists l, ls, lst, (Node [] nm a), rgt.
      + intros d1 d2 X. inversion X as [? ? ? ? k' l' ls' lst' ln' rgt' rs' rst' rn' N'
                                       |? ? ? ? dl' dr' F1' F2']; subst.
        * exfalso.
          assert (In (tRecv (tEither (Node [] l' (ls' ++ [lst'; ln']))
                       (Node [] rgt' (rs' ++ [rst'; rn']))) tEnd) (map snd (combine others ss))) as I.
          { rewrite Ms. eapply nth_error_In, N'. }
          clear -F1 I. induction F1 as [|x d xs ds Hx _ IH]; [contradiction|].
          destruct I as [Q|I]; [|exact (IH I)].
          destruct Hx as (? & ? & ? & ? & ? & ? & E2 & _). rewrite Q in E2. discriminate E2.
        * assert (dl' = dl) as ->.
          { clear -F1 F1'. revert dl' F1'. induction F1 as [|x d xs ds Hx _ IH]; intros dl' F'.
            - now inversion F'.
            - inversion F' as [|? d' ? ds' Hx' F'']; subst. f_equal; [|now apply IH].
              destruct Hx as (? & ? & ? & ? & ? & ? & E1 & _ & s & N1 & D1).
              destruct Hx' as (? & ? & ? & ? & ? & E2 & s' & N2 & D2).
              rewrite E1 in E2. injection E2 as _ E2 _.
              apply app_two in E2. destruct E2 as (<- & _ & _).
              rewrite N1 in N2. injection N2 as <-. symmetry. exact (dual_unique _ _ D1 _ D2). }
          assert (dr' = dr) as ->.
          { clear -F2 F2'. revert dr' F2'. induction F2 as [|x d xs ds Hx _ IH]; intros dl' F'.
            - now inversion F'.
            - inversion F' as [|? d' ? ds' Hx' F'']; subst. f_equal; [|now apply IH].
              destruct Hx as (? & ? & ? & ? & ? & E1 & s & N1 & D1).
              destruct Hx' as (? & ? & ? & ? & ? & E2 & s' & N2 & D2).
              rewrite E1 in E2. injection E2 as _ _ E2.
              apply app_two in E2. destruct E2 as (<- & _ & _).
              rewrite N1 in N2. injection N2 as <-. symmetry. exact (dual_unique _ _ D1 _ D2). }
          now split.
  Qed.

  (** *** Choices with enums *)

  Lemma together_sym : forall a b, together G a b -> together G b a.
  Proof. intros a b (c & vs & I & A & B). now exists c, vs. Qed.

  Lemma alt_listed : forall c alts a, unf c alts -> In a alts -> together G (fst a) (fst a).
  Proof.
    intros c alts a U I. inversion U as [ss st i r p s vs Ni D Ns Iv|ss alls F]; subst.
    - apply in_map_iff in I. destruct I as ([b v] & <- & I). cbn [fst snd].
      pose proof (wl_all _ _ Listed _ _ _ _ Iv I) as W. apply in_concat in W.
      destruct W as (vs' & W1 & W2). apply in_map_iff in W1. destruct W1 as ([c' vs''] & <- & W1).
      exists c', vs''. assert (In (variant_name (short p) b) (names_of vs'')).
      { unfold names_of. apply in_map_iff. now exists (short p, b). }
      now repeat split.
    - apply in_concat in I. destruct I as (alts & I1 & I2). clear U.
      induction F as [|s0 al ss alls (p & s' & vs & -> & Iv & F') _ IH]; [contradiction|].
      destruct I1 as [->|I1]; [|now apply IH]. clear -F' I2.
      induction F' as [|b a' vs al (Q & names & J1 & J2) _ IH]; [contradiction|].
      destruct I2 as [->|I2]; [|now apply IH]. exists (snd a), names. rewrite Q.
      assert (In (variant_name (short p) (fst b)) (names_of names)).
      { unfold names_of. apply in_map_iff. now exists (short p, fst b). }
      now repeat split.
  Qed.

  Lemma mark_ok : forall seen b n, together G b b ->
    exists marks, mark_group gb seen b n = Ok (marks ++ seen) /\
      forall k h, hget marks k = Some h -> h = n /\ together G k b.
  Proof.
    intros seen b n (c & vs & I & J & _). apply In_nth_error in I. destruct I as [m I].
    assert (In (b, Z.of_nat m) gb) as Ig.
    { apply (gv_groups _ _ _ _ _ Given). now exists m, c, vs. }
    destruct (hget_mem gb b) as [i Hi].
    { apply in_map_iff. now exists (b, Z.of_nat m). }
    unfold mark_group. rewrite Hi. eexists. split; [reflexivity|].
    intros k h H. apply hget_found in H. apply in_map_iff in H. destruct H as ([k' i'] & Q & H).
    cbn [fst] in Q. injection Q as -> <-. split; [reflexivity|].
    apply filter_In in H. destruct H as [H1 H2]. cbn [snd] in H2. apply Z.eqb_eq in H2. subst i'.
    apply hget_found in Hi. apply (gv_groups _ _ _ _ _ Given) in Hi, H1.
    destruct Hi as (n1 & c1 & vs1 & E1 & N1 & J1). destruct H1 as (n2 & c2 & vs2 & E2 & N2 & J2).
    assert (n2 = n1) as -> by lia. rewrite N1 in N2. injection N2 as <- <-.
    exists c1, vs1. split; [eapply nth_error_In; exact N1|]. now split.
  Qed.

  Definition branch_texts (rest : alternatives) : list (str * res (list str)) :=
    map (fun a : str * config => (fst a, Ok (texts (snd a)))) rest.

  (** Branches already seen. *)
  Lemma branches_seen : forall rec names prev h rest ix d added seen g cf,
    (forall a, In a rest -> hget seen (fst a) = Some h) ->
    contains_edge g prev h = true \/ prev = h ->
    branch_loop gb rec names prev (branch_texts rest) ix d added seen g cf = Ok (g, cf).
  Proof.
    intros rec names prev h rest. induction rest as [|a rest IH]; intros ix d added seen g cf Sn C; [reflexivity|].
    cbn [branch_texts map branch_loop]. rewrite (Sn a) by now left. unfold seen_branch.
    assert (negb (contains_edge g prev h) && negb (prev =? h)%nat = false) as ->.
    { destruct C as [-> | ->]; [reflexivity|]. rewrite Nat.eqb_refl. apply andb_false_r. }
    apply IH; [|exact C]. intros b I. apply Sn. now right.
  Qed.

  Lemma grows_none : forall heads prev lo F, (prev < lo)%nat -> grows heads prev lo lo F F [].
  Proof.
    intros heads prev lo F L. constructor; try contradiction; try lia; intros; try reflexivity; lia.
  Qed.

  Section Branches.
    Variable env : list (alternatives * nat).
    Variable alts : alternatives.
    Variable prev : nat.
    Variable names : list str.
    Hypothesis Names : forall k, In k names <-> exists a, In a alts /\ fst a = k.
    Hypothesis All : forall a, In a alts -> together G (fst a) (fst a).
    Hypothesis New : forall o h a b, In (o, h) env -> In a alts -> In b o -> ~ together G (fst a) (fst b).
    Hypothesis Built : forall a, In a alts -> built ((alts, prev) :: env) (Some (Some alts)) (snd a).
    Hypothesis Same : forall a b, In a alts -> In b alts -> together G (fst a) (fst b) -> snd a = snd b.

    Lemma branches_new : forall rest : list (str * config), incl rest alts ->
      forall P ix d added seen g cf F0,
      incl P alts -> length ix = S d -> (prev < length (nodes g))%nat ->
      (forall a b w, In (a, b, w) (edges g) -> (a < length (nodes g))%nat) ->
      (forall o h a, In (o, h) env -> In a o -> hget seen (fst a) = Some h) ->
      (forall k h, hget seen k = Some h ->
         (exists o h' a, In (o, h') env /\ In a o /\ together G k (fst a)) \/
         (h = prev /\ exists a, In a P /\ together G k (fst a))) ->
      (forall o h, In (o, h) ((alts, prev) :: env) ->
         (h <= prev)%nat /\ exists ch, F0 h = Some ch /\ unf ch o) ->
      exists g' T F N Q,
        (forall fuel, (N <= fuel)%nat ->
           branch_loop gb (fun s ix d seen' g' c' => aux fuel s ix prev d seen' g' c')
             names prev (branch_texts rest) ix d added seen g cf =
           Ok (g', cf ++ map (entry role) (moves T))) /\
        edges g' = edges g ++ map mark_edge T /\
        grows (heads_of ((alts, prev) :: env)) prev (length (nodes g)) (length (nodes g')) F0 F T /\
        unmarked T prev /\ incl Q rest /\
        (forall l o, (exists b, In (prev, Some l, b) T /\ F b = o) <->
           exists a, In a Q /\ nxt (Some alts) (snd a) l o) /\
        (forall a, In a rest -> exists a', In a' (P ++ Q) /\ snd a' = snd a).
    Proof.
      induction rest as [|a rest IH]; intros Ir P ix d added seen g cf F0 Ip Lix Lp Sr S1 S2 En.
      - exists g, [], F0, 0%nat, []. split; [|split; [|split; [|split; [|split; [|split]]]]].
        + intros fuel _. cbn. now rewrite app_nil_r.
        + cbn. now rewrite app_nil_r.
        + now apply grows_none.
        + intros h [].
        + intros x [].
        + intros l o. split; [intros (b & [] & _)|intros (x & [] & _)].
        + intros x [].
      - assert (In a alts) as Ia by (apply Ir; now left).
        assert (incl rest alts) as Ir' by (intros x X; apply Ir; now right).
        cbn [branch_texts map branch_loop]. destruct (hget seen (fst a)) as [h|] eqn:Hs.
        + destruct (S2 _ _ Hs) as [(o & h' & b & I1 & I2 & Tg)|(-> & p & Jp & Tg)].
          { exfalso. exact (New o h' a b I1 Ia I2 Tg). }
          assert (seen_branch g cf prev prev = (g, cf)) as Sb.
          { unfold seen_branch. now rewrite Nat.eqb_refl, andb_false_r. }
          destruct (IH Ir' P ix d added seen g cf F0 Ip Lix Lp Sr S1 S2 En)
            as (g' & T & F & N & Q & R & Ed & Gr & Um & Iq & X & C).
          exists g', T, F, N, Q. split; [|split; [|split; [|split; [|split; [|split]]]]]; try assumption.
          * intros fuel Fu. rewrite Sb. now apply R.
          * intros x X'. right. now apply Iq.
          * intros x [<-|J]; [|now apply C]. exists p. split; [apply in_or_app; now left|].
            apply Same; [now apply Ip|exact Ia|now apply together_sym].
        + set (ix' := if added then ix else ix ++ [0%nat]). set (d' := if added then d else S d).
          assert (length ix' = S d') as Lix'.
          { unfold ix', d'. destruct added; [exact Lix|]. rewrite app_length. cbn. lia. }
          destruct (Built a Ia ix' prev d' (map (fun b => (b, prev)) names ++ seen) g cf F0 Lix' Lp Sr)
            as (g1 & T1 & F1 & N1 & R1 & E1 & G1 & X1).
          { discriminate. }
          { intros o Q. injection Q as <-. now left. }
          { split.
            - intros o h b [Q|I] J; rewrite hget_app.
              + injection Q as <- <-.
                rewrite (proj1 (hget_names names prev (fst b))); [reflexivity|]. apply Names. eauto.
              + destruct (hget (map _ names) (fst b)) as [h'|] eqn:Q; [|now apply (S1 o)].
                exfalso. apply (proj2 (hget_names names prev (fst b))) in Q. destruct Q as [_ Q].
                apply Names in Q. destruct Q as (a' & J' & Q).
                apply (New o h a' b I J' J). rewrite <- Q. now apply All.
            - intros k h. rewrite hget_app. destruct (hget (map _ names) k) as [h'|] eqn:Q; intros H.
              + apply (proj2 (hget_names names prev k)) in Q. destruct Q as [_ Q].
                apply Names in Q. destruct Q as (a' & J' & <-).
                exists alts, prev, a'. split; [now left|]. split; [exact J'|now apply All].
              + destruct (S2 _ _ H) as [(o & h1 & b & I1 & I2 & Tg)|(_ & p & Jp & Tg)].
                * exists o, h1, b. split; [now right|]. now split.
                * exists alts, prev, p. split; [now left|]. split; [now apply Ip|exact Tg]. }
          { exact En. }
          assert (prev < length (nodes g1))%nat as Lp1.
          { pose proof (gr_lo _ _ _ _ _ _ _ G1). pose proof (gr_hi _ _ _ _ _ _ _ G1). lia. }
          assert (bend cf prev T1 = cf) as Bd1.
          { unfold bend. now rewrite (proj1 (mu_from_none _ _) (proj1 X1)). }
          destruct (mark_ok seen (fst a) prev (All a Ia)) as (marks & Mk & Mo).
          destruct (IH Ir' (a :: P) ix' d' true (marks ++ seen) g1 (cf ++ map (entry role) (moves T1)) F1)
            as (g2 & T2 & F2 & N2 & Q & R2 & E2 & G2 & U2 & Iq & X2 & C2).
          { intros x [<-|X]; [exact Ia|now apply Ip]. }
          { exact Lix'. }
          { exact Lp1. }
          { exact (grow_sources _ _ _ _ _ _ _ _ _ E1 G1 eq_refl eq_refl Sr). }
          { intros o h b I J. rewrite hget_app. destruct (hget marks (fst b)) as [h'|] eqn:Q; [|now apply (S1 o)].
            exfalso. destruct (Mo _ _ Q) as [_ Tg]. apply (New o h a b I Ia J). now apply together_sym. }
          { intros k h. rewrite hget_app. destruct (hget marks k) as [h'|] eqn:Q; intros H.
            - injection H as ->. destruct (Mo _ _ Q) as [-> Tg]. right. split; [reflexivity|].
              exists a. split; [now left|exact Tg].
            - destruct (S2 _ _ H) as [Z|(-> & p & Jp & Tg)]; [now left|right].
              split; [reflexivity|]. exists p. split; [now right|exact Tg]. }
          { intros o h I. destruct (En _ _ I) as (Lh & ch & Fh & U). split; [exact Lh|]. exists ch.
            split; [|exact U]. rewrite (gr_old _ _ _ _ _ _ _ G1) by lia. exact Fh. }
          assert (forall h, heads_of ((alts, prev) :: env) h -> (h <= prev)%nat) as Hd.
          { intros h [o I]. apply (En o h I). }
          destruct (grows_app _ _ _ _ _ _ _ _ _ _ Hd G1 G2 (proj1 X1) U2) as (Gr & Mv & Um).
          exists g2, (T1 ++ T2), F2, (N1 + N2)%nat, (a :: Q).
          split; [|split; [|split; [|split; [|split; [|split]]]]].
          * intros fuel Fu. cbn [bind]. fold ix' d'. rewrite R1 by lia. cbn [bind].
            rewrite Mk. cbn [bind]. rewrite Bd1, R2 by lia. rewrite Mv, map_app, app_assoc. reflexivity.
          * now rewrite E2, E1, map_app, app_assoc.
          * exact Gr.
          * exact Um.
          * intros x [<-|X]; [now left|right; now apply Iq].
          * intros l o. split.
            -- intros (b & I & Z). apply in_app_or in I. destruct I as [I|I].
               ++ exists a. split; [now left|]. apply X1. exists b. split; [exact I|].
                  rewrite <- (gr_old _ _ _ _ _ _ _ G2); [exact Z|]. apply (gr_dst _ _ _ _ _ _ _ G1 _ _ _ I).
               ++ destruct (proj1 (X2 l o)) as (a' & J & Nx); [now exists b|].
                  exists a'. split; [now right|exact Nx].
            -- intros (a' & [<-|J] & Nx).
               ++ apply X1 in Nx. destruct Nx as (b & I & Z). exists b. split; [apply in_or_app; now left|].
                  rewrite (gr_old _ _ _ _ _ _ _ G2); [exact Z|]. apply (gr_dst _ _ _ _ _ _ _ G1 _ _ _ I).
               ++ destruct (proj2 (X2 l o)) as (b & I & Z); [now exists a'|].
                  exists b. split; [apply in_or_app; now right|exact Z].
          * intros x [<-|J].
            -- exists a. split; [apply in_or_app; right; now left|reflexivity].
            -- destruct (C2 x J) as (a' & J' & Z). exists a'. split; [|exact Z].
               apply in_app_or in J'. apply in_or_app. destruct J' as [[<-|J']|J'].
               ++ right. now left.
               ++ now left.
               ++ right. now right.
    Qed.
  End Branches.

  (** The first step at a choice with enums. *)
  Definition enters (c : config) (alts : alternatives) : Prop :=
    exists rest names,
      (forall a, In a rest <-> In a alts) /\
      (forall k, In k names <-> exists a, In a alts /\ fst a = k) /\
      forall fuel ix prev d seen g cf,
        aux (S fuel) (texts c) ix prev d seen g cf =
        branch_loop gb (fun s ix d seen' g' c' => aux fuel s ix prev d seen' g' c')
          names prev (branch_texts rest) ix d false seen g cf.

  Lemma built_new : forall env c alts,
    enters c alts -> unf c alts ->
    (forall o h a b, In (o, h) env -> In a alts -> In b o -> ~ together G (fst a) (fst b)) ->
    (forall a b, In a alts -> In b alts -> together G (fst a) (fst b) -> snd a = snd b) ->
    (forall prev a, In a alts -> built ((alts, prev) :: env) (Some (Some alts)) (snd a)) ->
    built env None c.
  Proof.
    intros env c alts (rest & names & Rs & Nm & Step) U New Same B ix prev d seen g cf F0 Lix Lp Sr Rt _ Sn En.
    destruct (Rt eq_refl) as (Ne & Lt & Fp).
    assert (forall a, In a alts -> together G (fst a) (fst a)) as All.
    { intros a I. exact (alt_listed c alts a U I). }
    destruct (branches_new env alts prev names Nm All New (B prev) Same rest ltac:(intros a I; now apply Rs)
                [] ix d false seen g cf F0) as (g' & T & F & N & Q & R & Ed & Gr & Um & Iq & X & C).
    - intros a [].
    - exact Lix.
    - exact Lp.
    - exact Sr.
    - apply Sn.
    - intros k h H. left. exact (proj2 Sn k h H).
    - intros o h [I|I].
      + injection I as <- <-. split; [lia|]. now exists c.
      + destruct (En _ _ I) as (Lh & Z). now split.
    - exists g', T, F, (S N). split; [|split; [|split]].
      + intros fuel Fu. destruct fuel as [|fuel]; [lia|]. rewrite Step, R by lia.
        unfold bend. now rewrite (proj1 (mu_from_none _ _) Um).
      + exact Ed.
      + destruct Gr as [G1 G2 G3 G4 G5 G6 G7]. constructor; try assumption.
        intros a h I. destruct (G5 _ _ I) as [(o & [Z|Z])|Z].
        * injection Z as _ ->. right. now left.
        * left. now exists o.
        * now right.
      + left. split; [exact Um|]. intros l o. rewrite X, (next_unfold _ _ _ _ Roles Listed c alts U). split.
        * intros (a & I & Nx). exists a. split; [|exact Nx]. apply Rs. now apply Iq.
        * intros (a & I & Nx). destruct (C a) as (a' & I' & Z); [now apply Rs|].
          exists a'. split; [exact I'|now rewrite Z].
  Qed.

  Lemma built_again : forall env top c alts,
    enters c alts -> unf c alts -> alts <> [] ->
    (top = None /\ (exists h, In (alts, h) env) \/ top = Some (Some alts)) ->
    built env top c.
  Proof.
    intros env top c alts (rest & names & Rs & _ & Step) U Ne Tc ix prev d seen g cf F0 Lix Lp Sr Rt Tp Sn En.
    destruct Tc as [[-> [h Ih]]| ->].
    - destruct (Rt eq_refl) as (Nf & Lt & Fp). specialize (Lt _ _ Ih).
      destruct (En _ _ Ih) as (_ & ch & Fh & Uh).
      exists (add_edge g prev h (lit "µ")), [(prev, None, h)], F0, 1%nat. split; [|split; [|split]].
      + intros fuel Fu. destruct fuel as [|fuel]; [lia|]. rewrite Step.
        destruct rest as [|a rest].
        { exfalso. destruct alts as [|a alts]; [now apply Ne|]. apply (Rs a). now left. }
        assert (forall a', In a' (a :: rest) -> hget seen (fst a') = Some h) as Hs.
        { intros a' I. apply (proj1 Sn alts); [exact Ih|now apply Rs]. }
        cbn [branch_texts map branch_loop]. rewrite (Hs a) by now left. unfold seen_branch.
        assert (contains_edge g prev h = false) as Cf.
        { unfold contains_edge. apply not_true_is_false. intros H. apply existsb_exists in H.
          destruct H as ([[a1 b1] w] & I & H). cbn [fst snd] in H. apply andb_true_iff in H.
          destruct H as [H _]. apply Nat.eqb_eq in H. subst a1. exact (Nf _ _ I). }
        assert ((prev =? h)%nat = false) as Pf by (apply Nat.eqb_neq; lia).
        rewrite Cf, Pf. cbn [negb andb].
        rewrite (branches_seen _ _ _ h).
        * f_equal. f_equal. unfold bend, mu_from, is_mark. cbn [find fst snd]. rewrite Nat.eqb_refl. cbn [andb snd].
          cbn [moves_of flat_map map fst snd app]. now rewrite app_nil_r.
        * intros a' I. apply Hs. now right.
        * left. unfold contains_edge. apply existsb_exists. exists (prev, h, lit "µ"). split.
          -- cbn [add_edge edges]. apply in_or_app. right. now left.
          -- cbn [fst snd]. now rewrite !Nat.eqb_refl.
      + reflexivity.
      + cbn [add_edge nodes]. constructor; try lia; try reflexivity.
        * intros a x b [I|[]]. injection I as <- _ _. now left.
        * intros a l b [I|[]]. discriminate I.
        * intros a h' [I|[]]. injection I as _ <-. left. now exists alts.
      + right. split; [intros l b [I|[]]; discriminate I|].
        exists h, ch, alts. split; [now left|]. split; [intros h' [I|[]]; now injection I as <-|].
        split; [exact Lt|]. split; [exact Fh|]. split; [exact U|]. split; [exact Uh|].
        intros h' [I|[]]. injection I as Z _. lia.
    - specialize (Tp alts eq_refl).
      exists g, [], F0, 1%nat. split; [|split; [|split]].
      + intros fuel Fu. destruct fuel as [|fuel]; [lia|]. rewrite Step.
        rewrite (branches_seen _ _ _ prev); [unfold bend; cbn; now rewrite app_nil_r| |now right].
        intros a I. apply (proj1 Sn alts); [exact Tp|now apply Rs].
      + cbn. now rewrite app_nil_r.
      + now apply grows_none.
      + split; [intros h []|]. intros l o. split; [intros (b & [] & _)|].
        intros Nx. exfalso.
        inversion Nx as [d0 l' o' N'|d0 d1 d2 l' o' B|d0 d1 d2 l' o' B|d0 alts' a l' o' U' D]; subst.
        * eapply unf_not_now; eassumption.
        * eapply unf_not_binary; eassumption.
        * eapply unf_not_binary; eassumption.
        * apply D. f_equal. eapply unf_unique; eassumption.
  Qed.

  Lemma enum_enters : forall c alts, unf c alts -> tidy_config c -> enters c alts.
  Proof.
    intros c alts U [Ts Tst]. inversion U as [ss st i r p s vs Ni D Ns Iv|ss alls F]; subst; cbn [fst snd] in *.
    - destruct (gv_enums _ _ _ _ _ Given _ _ Iv) as (m & vs' & Hm & Pm & Fm).
      set (al := fun b : str * config => (variant_name (short p) (fst b), snd b)) in *.
      set (rest := sort_by fst (map al vs')).
      assert (forall a, In a (map al vs') <-> In a (map al vs)) as Ip.
      { intros a. split; intros I.
        - apply (Permutation_in a (l := map al vs')); [|exact I]. symmetry. now apply Permutation_map.
        - apply (Permutation_in a (l := map al vs)); [|exact I]. now apply Permutation_map. }
      assert (sort_by fst (map (fun b => (short p ++ lit "::" ++ fst b, upto 2 (snd b))) m) = branch_texts rest) as Sm.
      { replace (map (fun b => (short p ++ lit "::" ++ fst b, upto 2 (snd b))) m)
          with (map (fun a : str * config => (fst a, Ok (texts (snd a)))) (map al vs')).
        - unfold branch_texts, rest. rewrite (sort_map _ fst fst) by reflexivity. reflexivity.
        - clear -Fm. induction Fm as [|b y vs' m (Q1 & Q2) _ IH]; [reflexivity|]. cbn [map].
          f_equal; [|exact IH]. destruct b as [b v], y as [b1 y]. cbn [al fst snd] in *. subst b1. now rewrite (upto_written _ _ _ Q2). }
      exists rest, (map fst (branch_texts rest)). split; [|split].
      + intros a. unfold rest. rewrite sort_in. apply Ip.
      + intros k. unfold branch_texts. rewrite map_map. cbn [fst]. rewrite in_map_iff. unfold rest.
        split; intros (a & A & B); exists a.
        * split; [|exact A]. apply Ip. now apply sort_in in B.
        * split; [exact B|]. apply sort_in. now apply Ip.
      + intros fuel ix prev d seen g cf. cbn [fst snd aux_get_graph].
        rewrite not_finished, rev_app_one, (hpc_short' _ _ Tst). cbn [map].
        rewrite (position_nth roles i r Roles Ni).
        rewrite (slot_code me i) by congruence.
        rewrite (at_some _ (slot me i) (short (tRecv p s))).
        2:{ rewrite nth_error_app1 by (rewrite map_length; eapply slot_lt; exact Ns).
            rewrite nth_error_map, Ns. reflexivity. }
        cbn [bind].
        assert (tidy (tRecv p s)) as Trun.
        { rewrite Forall_forall in Ts. apply Ts. eapply nth_error_In, Ns. }
        assert (get_hpc (short (tRecv p s)) = [lit "Recv"; short p; short s]) as Hr.
        { unfold tRecv in *; now rewrite hpc_short'. }
        rewrite !Hr.
        rewrite (at_some _ 0 (lit "Recv")) by reflexivity.
        rewrite (at_some _ 1 (short p)) by reflexivity. cbn [bind].
        change (seqb (lit "Recv") (lit "Send")) with false. rewrite seqb_refl. cbv iota.
        rewrite Hm, Sm. reflexivity.
    - assert (exists alts', (forall a, In a alts' <-> In a (concat alls)) /\
                forall pos all, scan_broadcast br pos pos (map short ss) all = Ok (all ++ map fst alts')) as (alts' & Ia & Sc).
      { clear U Tst. revert Ts. induction F as [|s0 al ss alls (p & s' & vs & -> & Iv & Fv) _ IH]; intros Ts.
        - exists []. split; [reflexivity|]. intros pos all. cbn. now rewrite app_nil_r.
        - inversion Ts as [|? ? T1 T2]; subst. destruct (IH T2) as (alts' & Ia & Sc).
          destruct (gv_enums _ _ _ _ _ Given _ _ Iv) as (m & vs' & Hm & Pm & Fm).
          destruct (Permutation_Forall2 Pm Fv) as (al' & Pa & Fa).
          exists (al' ++ alts'). split.
          + intros a. cbn [concat]. rewrite !in_app_iff, Ia. split; (intros [I|I]; [left|now right]).
            * apply (Permutation_in a (l := al')); [now symmetry|exact I].
            * now apply (Permutation_in a (l := al)).
          + intros pos all. cbn [map scan_broadcast].
            assert (get_hpc (short (tSend p s')) = [lit "Send"; short p; short s']) as Hr.
            { unfold tSend in *; now rewrite hpc_short'. }
            rewrite !Hr. rewrite (at_some _ 0 (lit "Send")) by reflexivity.
            rewrite (at_some _ 1 (short p)) by reflexivity. cbn [bind].
            rewrite seqb_refl, Nat.eqb_refl. cbn [andb]. rewrite Hm, Sc, map_app, app_assoc.
            do 2 f_equal. f_equal. clear -Fm Fa. revert al' Fa.
            induction Fm as [|b y vs' m (Q1 & _) _ IH]; intros al' Fa; inversion Fa as [|? a ? ? (Q & _) Fa']; subst;
              [reflexivity|]. cbn [map]. rewrite Q. f_equal; [|now apply IH]. destruct b as [b v], y as [b1 y]. cbn [fst snd] in *. now subst b1. }
      assert (forall a, In a (concat alls) -> exists l, hget bs (fst a) = Some l /\ written (snd a) 1 l) as Hb.
      { intros a I. apply in_concat in I. destruct I as (al & I1 & I2). clear -F I1 I2 Given.
        induction F as [|s0 al0 ss alls (p & s' & vs & -> & Iv & Fv) _ IH]; [contradiction|].
        destruct I1 as [->|I1]; [|now apply IH]. clear -Fv I2 Given.
        induction Fv as [|b a' vs al (Q & names & J1 & J2) _ IH]; [contradiction|].
        destruct I2 as [->|I2]; [|now apply IH]. rewrite Q.
        apply (gv_lines _ _ _ _ _ Given _ _ _ J1). unfold names_of. apply in_map_iff. now exists (short p, fst b). }
      set (rest := sort_by fst alts').
      assert (sort_by (fun b => b) (map fst alts') = map fst rest) as Sn.
      { unfold rest. now rewrite (sort_map fst fst (fun b => b)). }
      exists rest, (map fst rest). split; [|split].
      + intros a. unfold rest. rewrite sort_in. apply Ia.
      + intros k. rewrite in_map_iff. unfold rest. split; intros (a & A & B); exists a.
        * split; [|exact A]. apply Ia. now apply sort_in in B.
        * split; [exact B|]. apply sort_in. now apply Ia.
      + intros fuel ix prev d seen g cf. cbn [fst snd aux_get_graph].
        unfold tBroadcast in *.
        destruct (list_eq_dec _ _ _) as [Q|_].
        { exfalso. apply app_inj_tail in Q. destruct Q as [_ Q]. discriminate Q. }
        rewrite rev_app_one, (hpc_short' _ _ Tst). cbn [map].
        rewrite seqb_refl. rewrite rev_involutive, Sc. cbn [bind app]. rewrite Sn.
        assert (map (fun b => (b, match hget bs b with Some s => upto 1 s | None => Panics end)) (map fst rest)
                = branch_texts rest) as ->; [|reflexivity].
        unfold branch_texts. rewrite map_map. apply map_ext_in. intros a I. unfold rest in I.
        apply sort_in in I. apply Ia in I. destruct (Hb a I) as (l & Hl & W). cbn [fst].
        rewrite Hl, (upto_written _ _ _ W). reflexivity.
  Qed.

  Lemma alt_tidy : forall c alts a, unf c alts -> In a alts -> tidy_config (snd a).
  Proof.
    intros c alts a U I. destruct Tidy as [TE TG]. inversion U as [ss st i r p s vs Ni D Ns Iv|ss alls F]; subst.
    - apply in_map_iff in I. destruct I as ([b v] & <- & I). cbn [fst snd]. exact (TE _ _ _ _ Iv I).
    - apply in_concat in I. destruct I as (alts & I1 & I2). clear U.
      induction F as [|s0 al ss alls (p & s' & vs & -> & Iv & F') _ IH]; [contradiction|].
      destruct I1 as [->|I1]; [|now apply IH]. clear -F' I2 TG.
      induction F' as [|b a' vs al (Q & names & J1 & J2) _ IH]; [contradiction|].
      destruct I2 as [->|I2]; [|now apply IH]. exact (TG _ _ J1).
  Qed.

  Lemma built_all : forall old top c, guarded E G roles me old top c -> tidy_config c ->
    forall env, map fst env = old -> built env top c.
  Proof.
    intros old top c Gd. induction Gd as
      [old top ss Es L|old top ss st i r p s Ni D Ns Gd IH|old top ss st i r p s Ni D Ns Ne Gd IH
      |old top ss r stl str k l ls lst ln rgt rs rst rn L N O Gd1 IH1 Gd2 IH2
      |old top ss r stl str dl dr NE L F1 F2 Gd1 IH1 Gd2 IH2
      |old c alts U New Same Gd IH|old top c alts U Ne Tp]; intros [T Ts] env Hold; cbn [fst snd] in *.
    - now apply built_end.
    - apply (built_message env top ss st i r p s true (Out i p)); try assumption; try reflexivity.
      + discriminate.
      + assert (tidy s) as T1.
        { rewrite Forall_forall in T. pose proof (T _ (nth_error_In _ _ Ns)) as T1.
          now apply tidy_two in T1. }
        apply IH; [|exact Hold]. split; cbn [fst snd]; [now apply put_In|]. now apply tidy_one in Ts.
    - apply (built_message env top ss st i r p s false (In_ i p)); try assumption; try reflexivity.
      + intros _. exact Ne.
      + assert (tidy s) as T1.
        { rewrite Forall_forall in T. pose proof (T _ (nth_error_In _ _ Ns)) as T1.
          now apply tidy_two in T1. }
        apply IH; [|exact Hold]. split; cbn [fst snd]; [now apply put_In|]. now apply tidy_one in Ts.
    - assert (tidy (tRecv (tEither (Node [] l (ls ++ [lst; ln]))
                                   (Node [] rgt (rs ++ [rst; rn]))) tEnd)) as Tk.
      { rewrite Forall_forall in T. apply T. eapply nth_error_In, N. }
      pose proof (tidy_two _ _ _ _ Tk) as [Te _]. pose proof (tidy_two _ _ _ _ Te) as [Tl Tr].
      destruct (tidy_node _ _ _ Tl) as (_ & _ & _ & Al). apply Forall_app in Al.
      destruct (tidy_node _ _ _ Tr) as (_ & _ & _ & Ar). apply Forall_app in Ar.
      eapply built_offer; try eassumption.
      + apply IH1; [|exact Hold]. split; [apply Al|]. destruct Al as [_ Al]. now inversion Al.
      + apply IH2; [|exact Hold]. split; [apply Ar|]. destruct Ar as [_ Ar]. now inversion Ar.
    - assert (forall i_s, In i_s (combine others ss) -> tidy (snd i_s)) as Tc.
      { intros [i s] I. apply in_combine_r in I. rewrite Forall_forall in T. now apply T. }
      pose proof (tidy_two _ _ _ _ Ts) as [Tl Tr].
      apply (built_choose env top ss r stl str dl dr NE L F1 F2 T Ts).
      + apply IH1; [|exact Hold]. split; [|exact Tl]. clear -F1 Tc. cbn [fst]. revert Tc.
        induction F1 as [|x d xs ds Hx _ IH]; intros Tc; constructor.
        * destruct Hx as (? & ? & ? & ? & ? & ? & Q & _ & s & N & D).
          specialize (Tc x (or_introl eq_refl)). rewrite Q in Tc.
          apply tidy_two in Tc. destruct Tc as [Tc _]. apply tidy_two in Tc. destruct Tc as [Tc _].
          destruct (tidy_node _ _ _ Tc) as (_ & _ & _ & A). apply Forall_app in A.
          destruct A as [A _]. rewrite Forall_forall in A.
          exact (tidy_dual _ _ D (A _ (nth_error_In _ _ N))).
        * apply IH. intros y Y. apply Tc. now right.
      + apply IH2; [|exact Hold]. split; [|exact Tr]. clear -F2 Tc. cbn [fst]. revert Tc.
        induction F2 as [|x d xs ds Hx _ IH]; intros Tc; constructor.
        * destruct Hx as (? & ? & ? & ? & ? & Q & s & N & D).
          specialize (Tc x (or_introl eq_refl)). rewrite Q in Tc.
          apply tidy_two in Tc. destruct Tc as [Tc _]. apply tidy_two in Tc. destruct Tc as [_ Tc].
          destruct (tidy_node _ _ _ Tc) as (_ & _ & _ & A). apply Forall_app in A.
          destruct A as [A _]. rewrite Forall_forall in A.
          exact (tidy_dual _ _ D (A _ (nth_error_In _ _ N))).
        * apply IH. intros y Y. apply Tc. now right.
    - apply (built_new env c alts).
      + apply enum_enters; [exact U|now split].
      + exact U.
      + intros o h a b Io Ia Ib. apply (New o a b); [|exact Ia|exact Ib]. rewrite <- Hold.
        apply in_map_iff. now exists (o, h).
      + exact Same.
      + intros prev a Ia. apply (IH a Ia).
        * now apply (alt_tidy c alts).
        * cbn [map fst]. now rewrite Hold.
    - apply (built_again env top c alts).
      + apply enum_enters; [exact U|now split].
      + exact U.
      + exact Ne.
      + destruct Tp as [[-> I]| ->]; [left|now right]. split; [reflexivity|].
        rewrite <- Hold in I. apply in_map_iff in I. destruct I as ([o h] & <- & I). now exists h.
  Qed.
End Run.
