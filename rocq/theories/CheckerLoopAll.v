(** * The whole checker with enums of branches: proofs for C45 *)

From Coq Require Import Ascii String ZArith Lia Bool Permutation Sorted List.
From Verif Require Import Checker CheckerSpec CheckerText CheckerClean CheckerGraph CheckerRun
  CheckerAll CheckerRefClean CheckerMacro CheckerLoopSpec CheckerLoop CheckerLoopRun CheckerLoopWalk.
Import ListNotations.

(** ** The maps of the macro *)

Lemma filter_all : forall {A} (f : A -> bool) l, (forall x, In x l -> f x = true) -> filter f l = l.
Proof.
  intros A f l H. induction l as [|a l IH]; [reflexivity|]. cbn [filter].
  rewrite (H a (or_introl eq_refl)). f_equal. apply IH. intros x I. apply H. now right.
Qed.

Lemma hinsert_new : forall {A} (m : hmap A) k a, ~ In k (map fst m) -> hinsert m k a = (k, a) :: m.
Proof.
  intros A m k a N. unfold hinsert. f_equal. apply filter_all. intros [k' a'] I. cbn [fst].
  destruct (seqb k' k) eqn:E; [|reflexivity]. exfalso. apply N.
  unfold seqb in E. destruct (list_eq_dec ascii_dec k' k); [|discriminate E]. subst.
  apply in_map_iff. now exists (k, a').
Qed.

Lemma hget_hinsert : forall {A} (m : hmap A) k a k',
  hget (hinsert m k a) k' = if seqb k k' then Some a else hget m k'.
Proof.
  intros A m k a k'. unfold hinsert. cbn [hget]. destruct (seqb k k') eqn:E; [reflexivity|].
  induction m as [|[k2 a2] m IH]; [reflexivity|]. cbn [filter fst hget].
  destruct (seqb k2 k) eqn:E2; cbn [negb].
  - rewrite IH. assert (seqb k2 k' = false) as ->; [|reflexivity].
    apply seqb_false. unfold seqb in E, E2. destruct (list_eq_dec ascii_dec k2 k); [|discriminate E2].
    subst. destruct (list_eq_dec ascii_dec k k'); [discriminate E|assumption].
  - cbn [hget]. destruct (seqb k2 k'); [reflexivity|exact IH].
Qed.

(** Insertions with different keys. *)
Lemma inserted : forall {A X} (key : X -> str) (val : X -> A) xs m,
  NoDup (map key xs) -> (forall x, In x xs -> ~ In (key x) (map fst m)) ->
  fold_left (fun m x => hinsert m (key x) (val x)) xs m =
  rev (map (fun x => (key x, val x)) xs) ++ m.
Proof.
  intros A X key val xs. induction xs as [|x xs IH]; intros m D N; [reflexivity|].
  cbn [map] in D. inversion D as [|? ? D1 D2]; subst. cbn [fold_left map rev].
  rewrite hinsert_new by (apply N; now left). rewrite IH.
  - now rewrite <- app_assoc.
  - exact D2.
  - intros y I [Q|J]; [|exact (N y (or_intror I) J)]. cbn [fst] in Q. apply D1. rewrite Q.
    now apply in_map.
Qed.


Lemma NoDup_app_both : forall {A} (l m : list A), NoDup (l ++ m) ->
  NoDup l /\ NoDup m /\ forall x, In x l -> ~ In x m.
Proof.
  intros A l m. induction l as [|a l IH]; intros D; [repeat split; [constructor|exact D|intros x []]|].
  cbn [app] in D. inversion D as [|? ? D1 D2]; subst. destruct (IH D2) as (A1 & A2 & A3).
  repeat split; [constructor; [|exact A1]|exact A2|].
  - intros I. apply D1. apply in_or_app. now left.
  - intros x [<-|I]; [|now apply A3]. intros J. apply D1. apply in_or_app. now right.
Qed.

Lemma NoDup_join : forall {A} (l m : list A), NoDup l -> NoDup m ->
  (forall x, In x l -> ~ In x m) -> NoDup (l ++ m).
Proof.
  intros A l m D. induction D as [|a l I D IH]; intros Dm H; [exact Dm|]. cbn [app]. constructor.
  - intros J. apply in_app_or in J. destruct J as [J|J]; [contradiction|]. exact (H a (or_introl eq_refl) J).
  - apply IH; [exact Dm|]. intros x X. apply H. now right.
Qed.

(** One line after the other, each with its own value. *)
Lemma inserted_lines : forall {A} (val : macro_line -> A) lines m,
  NoDup (map branch_key (concat (map snd lines))) ->
  (forall v, In v (concat (map snd lines)) -> ~ In (branch_key v) (map fst m)) ->
  NoDup (map fst m) ->
  let m' := fold_left (fun m line =>
              fold_left (fun m v => hinsert m (branch_key v) (val line)) (snd line) m) lines m in
  NoDup (map fst m') /\
  forall k a, In (k, a) m' <-> In (k, a) m \/
    exists line v, In line lines /\ In v (snd line) /\ k = branch_key v /\ a = val line.
Proof.
  intros A val lines. induction lines as [|line lines IH]; intros m D N Dm.
  - split; [exact Dm|]. intros k a. split; [now left|]. intros [I|(line & v & [] & _)]. exact I.
  - cbn [map concat] in D, N. rewrite map_app in D. destruct (NoDup_app_both _ _ D) as (D1 & D2 & D3).
    cbn [fold_left]. rewrite (inserted branch_key (fun _ => val line)).
    2: exact D1.
    2:{ intros v I. apply N. apply in_or_app. now left. }
    set (new := rev (map (fun x => (branch_key x, val line)) (snd line))).
    assert (map fst new = rev (map branch_key (snd line))) as En.
    { unfold new. rewrite map_rev, map_map. reflexivity. }
    destruct (IH (new ++ m) D2) as (R1 & R2).
    + intros v I. rewrite map_app, En. intros J. apply in_app_or in J. destruct J as [J|J].
      * rewrite <- in_rev in J. apply (D3 (branch_key v) J). now apply in_map.
      * revert J. apply N. apply in_or_app. now right.
    + rewrite map_app, En. apply NoDup_join; [now apply NoDup_rev|exact Dm|].
      intros k I J. rewrite <- in_rev in I. apply in_map_iff in I. destruct I as (v & <- & I).
      revert J. apply N. apply in_or_app. now left.
    + split; [exact R1|]. intros k a. rewrite R2, in_app_iff. unfold new.
      rewrite <- in_rev, in_map_iff. split.
      * intros [[(v & Q & I)|I]|(l & v & I & J & K & L)].
        -- injection Q as <- <-. right. exists line, v. split; [now left|]. now split.
        -- now left.
        -- right. exists l, v. split; [now right|]. now split.
      * intros [I|(l & v & [->|I] & J & -> & ->)].
        -- left. now right.
        -- left. left. now exists v.
        -- right. now exists l, v.
Qed.

Lemma branching_in : forall lines, NoDup (map branch_key (concat (map snd lines))) ->
  NoDup (map fst (branching_of lines)) /\
  forall k a, In (k, a) (branching_of lines) <->
    exists line v, In line lines /\ In v (snd line) /\ k = branch_key v /\ a = type_name (fst line).
Proof.
  intros lines D.
  destruct (inserted_lines (fun line => type_name (fst line)) lines [] D) as [R1 R2].
  - intros v _ [].
  - constructor.
  - split; [exact R1|]. intros k a. unfold branching_of. rewrite R2. split; [intros [[]|H]; exact H|now right].
Qed.

Lemma groups_in : forall lines index m,
  NoDup (map branch_key (concat (map snd lines))) ->
  (forall v, In v (concat (map snd lines)) -> ~ In (branch_key v) (map fst m)) ->
  forall k a, In (k, a) (groups_from index lines m) <-> In (k, a) m \/
    exists n line v, nth_error lines n = Some line /\ In v (snd line) /\ k = branch_key v /\
                     a = Z.of_nat (index + n).
Proof.
  induction lines as [|line lines IH]; intros index m D N k a.
  - cbn [groups_from]. split; [now left|]. intros [I|([|n] & line & v & Q & _)]; [exact I|discriminate Q..].
  - cbn [map concat] in D, N. rewrite map_app in D. destruct (NoDup_app_both _ _ D) as (D1 & D2 & D3).
    cbn [groups_from]. rewrite (inserted branch_key (fun _ => Z.of_nat index)).
    2: exact D1.
    2:{ intros v I. apply N. apply in_or_app. now left. }
    rewrite IH.
    2: exact D2.
    2:{ intros v I. rewrite map_app, map_rev, map_map. cbn [fst]. intros J. apply in_app_or in J.
        destruct J as [J|J].
        - rewrite <- in_rev in J. apply (D3 (branch_key v) J). now apply in_map.
        - revert J. apply N. apply in_or_app. now right. }
    rewrite in_app_iff, <- in_rev, in_map_iff. split.
    + intros [[(v & Q & I)|I]|(n & l & v & Nn & J & -> & ->)].
      * injection Q as <- <-. right. exists 0%nat, line, v. rewrite Nat.add_0_r. now repeat split.
      * now left.
      * right. exists (S n), l, v. rewrite Nat.add_succ_r. now repeat split.
    + intros [I|([|n] & l & v & Nn & J & -> & ->)].
      * left. now right.
      * injection Nn as ->. rewrite Nat.add_0_r. left. left. now exists v.
      * right. exists n, l, v. rewrite Nat.add_succ_r. now repeat split.
Qed.

(** The variants collected for each enum. *)
Lemma choices_get : forall xs m e,
  hget (fold_left (fun m v => hinsert m (fst v)
          match hget m (fst v) with Some l => l ++ [snd v] | None => [snd v] end) xs m) e =
  match map snd (filter (fun v : str * str => seqb (fst v) e) xs) with
  | [] => hget m e
  | bs => Some (match hget m e with Some l => l | None => [] end ++ bs)
  end.
Proof.
  induction xs as [|[e' b] xs IH]; intros m e; [reflexivity|].
  cbn [fold_left fst snd filter]. rewrite IH, hget_hinsert. destruct (seqb e' e) eqn:Q.
  - unfold seqb in Q. destruct (list_eq_dec ascii_dec e' e); [|discriminate Q]. subst e'.
    cbn [map snd]. destruct (map snd (filter (fun v => seqb (fst v) e) xs)) as [|b' bs].
    + destruct (hget m e); reflexivity.
    + destruct (hget m e) as [l|]; [rewrite <- app_assoc|]; reflexivity.
  - reflexivity.
Qed.

Lemma choices_of_get : forall lines e,
  hget (choices_of lines) e =
  match map snd (filter (fun v : str * str => seqb (fst v) e) (concat (map snd lines))) with
  | [] => None
  | bs => Some bs
  end.
Proof.
  intros lines e. unfold choices_of. rewrite choices_get. cbn [hget app].
  destruct (map snd _); reflexivity.
Qed.

Lemma seqb_true : forall a b, seqb a b = true <-> a = b.
Proof. intros a b. unfold seqb. destruct (list_eq_dec ascii_dec a b); split; congruence. Qed.

Lemma filter_enum : forall e (xs : list (str * str)) b,
  In b (map snd (filter (fun v => seqb (fst v) e) xs)) <-> In (e, b) xs.
Proof.
  intros e xs b. rewrite in_map_iff. split.
  - intros ([e' b'] & Q & I). apply filter_In in I. cbn in *. destruct I as [I S]. subst.
    apply seqb_true in S. now subst.
  - intros I. exists (e, b). split; [reflexivity|]. apply filter_In. split; [exact I|]. apply seqb_refl.
Qed.

Lemma filter_enum_NoDup : forall e (xs : list (str * str)),
  NoDup (map branch_key xs) -> NoDup (map snd (filter (fun v => seqb (fst v) e) xs)).
Proof.
  intros e xs. induction xs as [|[e' b] xs IH]; intros D; [constructor|].
  cbn [map] in D. inversion D as [|? ? D1 D2]; subst. cbn [filter fst].
  destruct (seqb e' e) eqn:Q; [|now apply IH]. apply seqb_true in Q. subst.
  cbn [map snd]. constructor; [|now apply IH]. intros I. apply filter_enum in I.
  apply D1. apply in_map_iff. now exists (e, b).
Qed.

(** ** What the checker makes of them *)

Lemma hmapM_ok : forall {A B} (g : A -> res B) (P : A -> B -> Prop) (m : hmap A),
  (forall k a, In (k, a) m -> exists b, g a = Ok b /\ P a b) ->
  exists m', hmapM g m = Ok m' /\ Forall2 (fun x y => fst y = fst x /\ P (snd x) (snd y)) m m'.
Proof.
  intros A B g P m. induction m as [|[k a] m IH]; intros H; [exists []; split; [reflexivity|constructor]|].
  destruct (H k a (or_introl eq_refl)) as (b & Gb & Pb).
  destruct IH as (m' & Hm & F); [intros k' a' I; apply (H k' a'); now right|].
  exists ((k, b) :: m'). cbn [hmapM]. rewrite Gb. cbn [bind]. rewrite Hm. cbn [bind].
  split; [reflexivity|]. now constructor.
Qed.

Lemma hget_through : forall {A B} (P : A -> B -> Prop) (m : hmap A) (m' : hmap B) k,
  Forall2 (fun x y => fst y = fst x /\ P (snd x) (snd y)) m m' ->
  match hget m k with
  | Some a => exists b, hget m' k = Some b /\ P a b
  | None => hget m' k = None
  end.
Proof.
  intros A B P m m' k F. induction F as [|[k1 a] [k2 b] m m' [Q1 Q2] F IH]; [reflexivity|].
  cbn in Q1, Q2. subst k2. cbn [hget]. destruct (seqb k1 k); [now exists b|exact IH].
Qed.

Lemma clean_endpoint : forall N t c, names_fit N -> endpoint N t c ->
  exists l, clean_session (type_name t) = Ok l /\ written c 2 l.
Proof.
  intros N t c F (W & A & mc & r & a & P).
  change [snd c; Node [] r a] with ([snd c] ++ [Node [] r a]) in P. rewrite app_assoc in P.
  exists (map short ((fst c ++ [snd c]) ++ [Node [] r a]) ++ [r]). split.
  - unfold type_name. exact (clean_session_type N true _ mc _ r a W A F P).
  - exists [short (Node [] r a); r]. split; [reflexivity|]. rewrite !map_app. cbn [map].
    rewrite <- !app_assoc. reflexivity.
Qed.

Lemma clean_carried : forall N t c, names_fit N -> endpoint N t c ->
  ~ named (match t with Node path name _ => full_head path name end) ->
  exists l, clean_session (lit "&&" ++ type_name t) = Ok l /\ written c 2 l.
Proof.
  intros N t c F (W & A & mc & r & a & P) NN.
  change [snd c; Node [] r a] with ([snd c] ++ [Node [] r a]) in P. rewrite app_assoc in P.
  exists (map short ((fst c ++ [snd c]) ++ [Node [] r a]) ++ [r]). split.
  - exact (clean_session_ref N _ mc _ r a W A F P NN).
  - exists [short (Node [] r a); r]. split; [reflexivity|]. rewrite !map_app. cbn [map].
    rewrite <- !app_assoc. reflexivity.
Qed.

Lemma endpoint_tidy : forall N t c, names_fit N -> endpoint N t c -> tidy_config c.
Proof.
  intros N t c F (W & _ & mc & r & a & P). pose proof (plain_tidy _ _ _ F W P) as T.
  destruct (tidy_node _ _ _ T) as (_ & _ & _ & A). apply Forall_app in A.
  destruct A as [A B]. inversion B; subst. now split.
Qed.

Lemma same_names : forall N lines (G : line_table),
  Forall2 (fun (l : ty * list (str * str)) (e : config * list (str * str)) =>
             snd l = snd e /\ endpoint N (fst l) (fst e)) lines G ->
  map snd lines = map snd G.
Proof.
  intros N lines G F. induction F as [|l e lines G [Q _] F IH]; [reflexivity|]. cbn [map]. now rewrite Q, IH.
Qed.

Lemma names_keys : forall vs, names_of vs = map branch_key vs.
Proof. reflexivity. Qed.

Theorem macro_given : forall N carried lines E G,
  names_fit N -> well_listed E G -> declared N carried lines E G ->
  exists br bs,
    hmapM (hmapM clean_session) (receivers_of carried lines) = Ok br /\
    hmapM (fun s => b <- clean_session s;; upto 1 b) (branching_of lines) = Ok bs /\
    given E G br bs (group_of lines) /\ tidy_tables E G.
Proof.
  intros N carried lines E G F [W1 W2 W3] D. pose proof (same_names _ _ _ (dc_lines _ _ _ _ _ D)) as Sn.
  assert (NoDup (map branch_key (concat (map snd lines)))) as Dk by (rewrite Sn; exact W2).
  assert (forall line, In line lines -> exists c, In (c, snd line) G /\ endpoint N (fst line) c) as Hl.
  { pose proof (dc_lines _ _ _ _ _ D) as F2. clear -F2. intros line I.
    induction F2 as [|l [c vs] lines G [Q P] F2 IH]; [contradiction|]. cbn in Q, P. destruct I as [->|I].
    - exists c. split; [left; now rewrite Q|exact P].
    - destruct (IH I) as (c' & A & B). exists c'. split; [now right|exact B]. }
  assert (forall e vs, In (e, vs) E -> forall b, In b (map fst vs) -> exists c, In (b, c) vs /\
    exists l, clean_session (lit "&&" ++ type_name (carried e b)) = Ok l /\ written c 2 l) as Hc.
  { intros e vs I b J. apply in_map_iff in J. destruct J as ([b' c] & <- & J). cbn [fst]. exists c.
    split; [exact J|]. destruct (dc_carried _ _ _ _ _ D e vs b' c I J) as [P NN].
    exact (clean_carried N _ c F P NN). }
  set (R := fun (m : hmap str) (m' : hmap (list str)) =>
         Forall2 (fun x y => fst y = fst x /\ clean_session (snd x) = Ok (snd y)) m m').
  destruct (hmapM_ok (hmapM clean_session) R (receivers_of carried lines)) as (br & Hbr & Fbr).
  { intros e m I. unfold receivers_of in I. apply in_map_iff in I. destruct I as ([e' bs] & Q & I).
    cbn [fst snd] in Q. injection Q as <- <-.
    assert (bs = map snd (filter (fun v : str * str => seqb (fst v) e') (concat (map snd lines))) /\
            exists b0, In (e', b0) (concat (map snd lines))) as [Eb [b0 Ib]].
    { pose proof (choices_of_get lines e') as Cg.
      assert (NoDup (map fst (choices_of lines))) as Dc.
      { unfold choices_of. generalize (concat (map snd lines)). intros xs.
        assert (forall m : hmap (list str), NoDup (map fst m) ->
          NoDup (map fst (fold_left (fun m v => hinsert m (fst v)
            match hget m (fst v) with Some l => l ++ [snd v] | None => [snd v] end) xs m))) as K.
        { clear. induction xs as [|v xs IH]; intros m Dm; [exact Dm|]. cbn [fold_left]. apply IH.
          unfold hinsert. cbn [map fst]. constructor.
          - intros J. apply in_map_iff in J. destruct J as ([k a] & Q & J). apply filter_In in J.
            cbn in Q, J. subst k. destruct J as [_ J]. now rewrite seqb_refl in J.
          - clear IH. induction m as [|[k a] m IH]; [constructor|]. cbn [filter map fst] in *.
            inversion Dm as [|? ? D1 D2]; subst. destruct (negb (seqb k (fst v))); [|now apply IH].
            cbn [map fst]. constructor; [|now apply IH]. intros J. apply D1.
            apply in_map_iff in J. destruct J as (y & Q & J). apply filter_In in J.
            apply in_map_iff. exists y. split; [exact Q|apply J]. }
        apply K. constructor. }
      rewrite (hget_in _ _ _ Dc I) in Cg.
      destruct (map snd (filter (fun v : str * str => seqb (fst v) e') (concat (map snd lines))))
        as [|b0 bs'] eqn:Q; [discriminate Cg|]. injection Cg as ->. split; [reflexivity|].
      exists b0. apply filter_enum. rewrite Q. now left. }
    assert (In e' (map fst E)) as Ie.
    { apply (dc_enums _ _ _ _ _ D). apply in_map_iff. now exists (e', b0). }
    apply in_map_iff in Ie. destruct Ie as ([e vs] & Q & Ie). cbn in Q. subst e.
    destruct (dc_branches _ _ _ _ _ D e' vs Ie) as [Dv Bv].
    destruct (hmapM_ok clean_session (fun a b => clean_session a = Ok b)
                (fold_left (fun m b => hinsert m b (lit "&&" ++ type_name (carried e' b))) bs []))
      as (m' & Hm & Fm).
    { rewrite (inserted (fun b => b) (fun b => lit "&&" ++ type_name (carried e' b))).
      - intros k a J. rewrite app_nil_r, <- in_rev in J. apply in_map_iff in J.
        destruct J as (b & Q & J). injection Q as <- <-. subst bs. apply filter_enum in J.
        apply Bv in J. destruct (Hc e' vs Ie b J) as (c & _ & l & Cl & _). now exists l.
      - rewrite map_id. subst bs. now apply filter_enum_NoDup.
      - intros b _ []. }
    exists m'. split; [exact Hm|exact Fm]. }
  destruct (hmapM_ok (fun s => b <- clean_session s;; upto 1 b)
              (fun s b => (b0 <- clean_session s;; upto 1 b0) = Ok b) (branching_of lines)) as (bs & Hbs & Fbs).
  { intros k s I. apply (branching_in lines Dk) in I. destruct I as (line & v & I & J & -> & ->).
    destruct (Hl line I) as (c & Ic & P). destruct (clean_endpoint N _ c F P) as (l & Cl & ex & Le & ->).
    destruct ex as [|x [|y [|z ex]]]; try discriminate Le.
    exists (map short (fst c) ++ [short (snd c)] ++ [x]). rewrite Cl. cbn [bind]. split.
    - replace (map short (fst c) ++ [short (snd c)] ++ [x; y])
        with ((map short (fst c) ++ [short (snd c)] ++ [x]) ++ [y]) by now rewrite <- !app_assoc.
      apply (upto_app _ [y]).
    - cbn [bind]. replace (map short (fst c) ++ [short (snd c)] ++ [x; y])
        with ((map short (fst c) ++ [short (snd c)] ++ [x]) ++ [y]) by now rewrite <- !app_assoc.
      apply (upto_app _ [y]). }
  exists br, bs. split; [exact Hbr|]. split; [exact Hbs|]. split.
  - split.
    + intros e vs I. destruct (dc_branches _ _ _ _ _ D e vs I) as [Dv Bv].
      set (bl := map snd (filter (fun v : str * str => seqb (fst v) e) (concat (map snd lines)))).
      assert (NoDup bl) as Db by now apply filter_enum_NoDup.
      assert (bl <> []) as NE.
      { assert (In e (map fst E)) as Ie by (apply in_map_iff; now exists (e, vs)).
        apply (dc_enums _ _ _ _ _ D) in Ie. apply in_map_iff in Ie. destruct Ie as ([e' b] & Q & Ie).
        cbn in Q. subst e'. apply (filter_enum e) in Ie. intros Q. unfold bl in Q. rewrite Q in Ie.
        contradiction. }
      pose proof (hget_through R _ br e Fbr) as Hb.
      assert (hget (receivers_of carried lines) e =
              Some (fold_left (fun m b => hinsert m b (lit "&&" ++ type_name (carried e b))) bl [])) as Hr.
      { unfold receivers_of. pose proof (choices_of_get lines e) as Cg. fold bl in Cg.
        destruct bl as [|b0 bl'] eqn:Q; [congruence|]. rewrite <- Q in *. clear -Cg.
        induction (choices_of lines) as [|[k a] m IH]; [discriminate Cg|]. cbn [map fst snd hget] in *.
        destruct (seqb k e) eqn:S; [|now apply IH]. injection Cg as ->. apply seqb_true in S. now subst. }
      rewrite Hr in Hb. destruct Hb as (m & Hm & Fm).
      rewrite (inserted (fun b => b) (fun b => lit "&&" ++ type_name (carried e b))) in Fm
        by (rewrite ?map_id; try exact Db; intros b _ []).
      rewrite app_nil_r in Fm.
      assert (Permutation (rev bl) (map fst vs)) as Pb.
      { apply NoDup_Permutation; [now apply NoDup_rev|exact Dv|]. intros b. rewrite <- in_rev.
        unfold bl. rewrite filter_enum. symmetry. apply Bv. }
      apply Permutation_map_inv in Pb. destruct Pb as (vs' & Ev & Pv).
      exists m, vs'. split; [exact Hm|]. split; [exact Pv|].
      rewrite <- map_rev, Ev, map_map in Fm.
      assert (forall x, In x vs' -> In x vs) as Sub.
      { intros x Ix. apply (Permutation_in x (Permutation_sym Pv) Ix). }
      clear Ev Pv Hr Hm Db NE bl. unfold R in Fm. revert m Fm.
      induction vs' as [|[b c] vs' IH]; intros m Fm; inversion Fm as [|x y l1 l2 [Q1 Q2] Fm']; subst;
        [constructor|]. cbn [fst snd] in *. constructor.
      * split; [exact Q1|]. cbn [snd].
        destruct (dc_carried _ _ _ _ _ D e vs b c I (Sub _ (or_introl eq_refl))) as [P NN].
        destruct (clean_carried N _ c F P NN) as (l & Cl & Wl). pose proof (eq_trans (eq_sym Q2) Cl) as Q3. injection Q3 as Q3. rewrite Q3. exact Wl.
      * apply IH; [intros x Ix; apply Sub; now right|exact Fm'].
    + intros e Ne. pose proof (hget_through R _ br e Fbr) as Hb.
      destruct (hget (receivers_of carried lines) e) as [m|] eqn:Hr; [|exact Hb]. exfalso. apply Ne.
      apply (dc_enums _ _ _ _ _ D). apply hget_found in Hr. unfold receivers_of in Hr.
      apply in_map_iff in Hr. destruct Hr as ([e' bl] & Q & I). cbn in Q. injection Q as -> _.
      destruct (hget_mem (choices_of lines) e) as [l Q]; [apply in_map_iff; now exists (e, bl)|].
      rewrite choices_of_get in Q.
      destruct (map snd (filter (fun v : str * str => seqb (fst v) e) (concat (map snd lines))))
        as [|b bl'] eqn:Q'; [discriminate Q|].
      apply in_map_iff. exists (e, b). split; [reflexivity|]. apply filter_enum. rewrite Q'. now left.
    + intros c vs v I J. rewrite names_keys in J. apply in_map_iff in J. destruct J as (v' & <- & J).
      destruct (branching_in lines Dk) as [Db Hb].
      assert (exists line, In line lines /\ snd line = vs /\ endpoint N (fst line) c) as (line & Il & Ev & P).
      { pose proof (dc_lines _ _ _ _ _ D) as F2. clear -F2 I.
        induction F2 as [|l [c' vs'] lines G [Q P] F2 IH]; [contradiction|]. cbn in Q, P.
        destruct I as [Q'|I].
        - injection Q' as -> ->. exists l. split; [now left|]. now split.
        - destruct (IH I) as (l' & A & B). exists l'. split; [now right|exact B]. }
      subst vs.
      assert (In (branch_key v', type_name (fst line)) (branching_of lines)) as Ib.
      { apply Hb. now exists line, v'. }
      pose proof (hget_through (fun s b => (b0 <- clean_session s;; upto 1 b0) = Ok b) _ bs (branch_key v') Fbs) as Ht.
      rewrite (hget_in _ _ _ Db Ib) in Ht. destruct Ht as (l & Hl' & El).
      assert (exists b, (b0 <- clean_session (type_name (fst line));; upto 1 b0) = Ok b /\ written c 1 b)
        as (b & Eb & Wb).
      { destruct (clean_endpoint N _ c F P) as (l' & Cl & ex & Le & ->).
        destruct ex as [|x [|y [|z ex]]]; try discriminate Le.
        exists (map short (fst c) ++ [short (snd c)] ++ [x]). rewrite Cl. cbn [bind]. split.
        - replace (map short (fst c) ++ [short (snd c)] ++ [x; y])
            with ((map short (fst c) ++ [short (snd c)] ++ [x]) ++ [y]) by now rewrite <- !app_assoc.
          apply (upto_app _ [y]).
        - exists [x]. now split. }
      exists l. split; [exact Hl'|]. assert (l = b) as ->; [|exact Wb].
      rewrite Eb in El. now injection El.
    + intros k i. unfold group_of. rewrite groups_in.
      * cbn [Nat.add]. pose proof (dc_lines _ _ _ _ _ D) as F2. split.
        -- intros [[]|(n & line & v & Nn & J & -> & ->)].
           assert (exists c, nth_error G n = Some (c, snd line)) as [c Nc].
           { clear -F2 Nn. revert n Nn. induction F2 as [|l [c' vs'] lines G [Q P] F2 IH]; intros [|n] Nn;
               try discriminate Nn; cbn in *.
             - injection Nn as <-. exists c'. now rewrite Q.
             - now apply IH. }
           exists n, c, (snd line). split; [reflexivity|]. split; [exact Nc|]. rewrite names_keys. now apply in_map.
        -- intros (n & c & vs & -> & Nn & J). right. rewrite names_keys in J. apply in_map_iff in J.
           destruct J as (v & <- & J).
           assert (exists line, nth_error lines n = Some line /\ snd line = vs) as (line & Nl & <-).
           { clear -F2 Nn. revert n Nn. induction F2 as [|l [c' vs'] lines G [Q P] F2 IH]; intros [|n] Nn;
               try discriminate Nn; cbn in *.
             - injection Nn as -> ->. exists l. now split.
             - now apply IH. }
           exists n, line, v. now repeat split.
      * exact Dk.
      * intros v _ [].
  - split.
    + intros e vs b c I J. destruct (dc_carried _ _ _ _ _ D e vs b c I J) as [P _].
      exact (endpoint_tidy N _ c F P).
    + intros c vs I. pose proof (dc_lines _ _ _ _ _ D) as F2. clear -F F2 I.
      induction F2 as [|l [c' vs'] lines G [Q P] F2 IH]; [contradiction|].
      destruct I as [Q'|I]; [|now apply IH]. injection Q' as -> ->. exact (endpoint_tidy N _ c F P).
Qed.

(** ** All the roles *)

Definition loops_found (E : enum_table) (G : line_table) (roles : list str) (me : nat) (p : participant)
    (g : graph) (M : list (nat * label * nat)) : Prop :=
  (forall l, shows g l <->
     exists tr, performs E G roles me (sessions_of p) (stack_of p) tr /\
                l = map (edge_text (called p) roles) tr) /\
  (forall tr, walk M 0 tr <->
     performs E G roles me (sessions_of p) (stack_of p) tr /\ ~ In Finish tr).

Theorem loops_all : forall N sessions ps carried lines E G,
  names_fit N -> Permutation sessions ps ->
  StronglySorted before (map called ps) ->
  Forall (given_as N) ps ->
  well_listed E G -> declared N carried lines E G ->
  (forall me p, nth_error ps me = Some p ->
     S (length (sessions_of p)) = length ps /\
     guarded E G (map called ps) me [] None (sessions_of p, stack_of p)) ->
  exists out fuel0, length out = length ps /\
    (forall fuel with_file kmc, (fuel0 <= fuel)%nat ->
       checker_concat fuel with_file (map as_given sessions) carried lines kmc =
       Ok (combine (map called ps) (map fst out),
           if with_file
           then flat_map (fun e => machine_text (fst e) (snd (snd e)) ++ [[]])
                  (combine (map called ps) out)
           else [],
           if with_file then kmc_bound kmc else Some None)) /\
    (forall me p g M, nth_error ps me = Some p -> nth_error out me = Some (g, M) ->
       loops_found E G (map called ps) me p g M).
Proof.
  intros N sessions ps carried lines E G F P S Gv Wl Dc L. set (roles := map called ps) in *.
  destruct (before_sorted _ S) as [_ D].
  destruct (macro_given N carried lines E G F Wl Dc) as (br & bs & Hbr & Hbs & Hg & Ht).
  destruct (choose_list (fun me p (gm : graph * list (nat * label * nat)) fuel =>
      get_graph_session fuel (called p) (fields p) roles br bs (group_of lines) =
        Ok (fst gm, machine_text (called p) (snd gm)) /\
      loops_found E G roles me p (fst gm) (snd gm)) ps) as (out & N0 & Lo & Ho).
  { intros me p Q. rewrite Forall_forall in Gv. destruct (L me p Q) as [Ll Lg].
    destruct (loop_session E G br bs (group_of lines) (called p) roles me (sessions_of p, stack_of p))
      as (g & M & N0 & H1 & H2 & H3); try assumption.
    - unfold roles. now rewrite nth_error_map, Q.
    - unfold roles. now rewrite map_length.
    - exact (given_tidy N p F (Gv p (nth_error_In _ _ Q))).
    - exists (g, M), N0. intros fuel Hf. split; [exact (H1 fuel Hf)|]. split; [exact H2|exact H3]. }
  exists out, N0. split; [exact Lo|]. split.
  - intros fuel with_file kmc Hf. unfold checker_concat, checker, clean_sessions.
    rewrite (clean_all N F sessions [] [] 0 (length ps)).
    2:{ now rewrite P. }
    2:{ rewrite P. apply Forall_forall. intros p I. apply In_nth_error in I. destruct I as [me Q].
        destruct (L me p Q) as [Z _]. unfold fields. rewrite app_length, map_length. cbn [length]. lia. }
    cbn [bind app].
    assert (length (map called sessions) =? match sessions with [] => 0 | _ => length ps end = true)%nat as ->.
    { rewrite map_length, (Permutation_length P). apply Nat.eqb_eq.
      destruct sessions; [|reflexivity]. apply Permutation_nil in P. now subst. }
    cbn [negb bind]. rewrite app_nil_r.
    rewrite (roles_sorted (map called sessions) roles); [|now apply Permutation_map|exact S].
    rewrite Hbr. cbn [bind]. rewrite Hbs. cbn [bind].
    rewrite (all_graphs_ok fuel roles _ br bs (group_of lines) ps
               (map (fun e => (fst (snd e), machine_text (fst e) (snd (snd e)))) (combine roles out))).
    + cbn [bind]. fold roles.
      assert (forall rs (o : list (graph * list (nat * label * nat))),
        combine rs (map (fun e => (fst (snd e), machine_text (fst e) (snd (snd e)))) (combine rs o)) =
        map (fun e => (fst e, (fst (snd e), machine_text (fst e) (snd (snd e))))) (combine rs o)) as C1.
      { induction rs as [|r rs IH]; intros [|o os]; [reflexivity..|]. cbn [combine map fst snd].
        f_equal. apply IH. }
      assert (forall (rs : list str) (o : list (graph * list (nat * label * nat))),
        map (fun e => (fst e, fst (snd e))) (combine rs o) = combine rs (map fst o)) as C2.
      { induction rs as [|r rs IH]; intros [|o os]; [reflexivity..|]. cbn [combine map fst snd].
        f_equal. apply IH. }
      rewrite C1, map_map. cbn [fst snd]. rewrite C2.
      destruct with_file; [|reflexivity]. do 3 f_equal.
      rewrite !flat_map_concat_map, map_map. reflexivity.
    + apply Forall2_nth_error.
      { rewrite map_length, combine_length. unfold roles. rewrite map_length. lia. }
      intros me p gm E1 E2.
      assert (nth_error roles me = Some (called p)) as Er by (unfold roles; now rewrite nth_error_map, E1).
      destruct (nth_error out me) as [o|] eqn:Eo.
      2:{ apply nth_error_None in Eo.
          assert (me < length ps)%nat by (apply nth_error_Some; rewrite E1; discriminate). lia. }
      assert (nth_error (combine roles out) me = Some (called p, o)) as Ec.
      { clear -Er Eo. revert out me Er Eo. generalize roles. intros rs.
        induction rs as [|r rs IH]; intros [|o' os] [|me] Er Eo; try discriminate; cbn in *.
        - congruence.
        - now apply IH. }
      rewrite nth_error_map, Ec in E2. cbn in E2. injection E2 as <-. split.
      * apply hget_in.
        -- rewrite map_rev, map_map. cbn [fst]. apply (Permutation_NoDup (l := roles)); [|exact D].
           rewrite <- Permutation_rev. unfold roles. apply Permutation_map. now symmetry.
        -- rewrite <- in_rev. apply in_map_iff. exists p. split; [reflexivity|].
           apply (Permutation_in p (Permutation_sym P)). eapply nth_error_In, E1.
      * exact (proj1 (Ho me p o E1 Eo fuel Hf)).
  - intros me p g M E1 E2. exact (proj2 (Ho me p (g, M) E1 E2 N0 (Nat.le_refl _))).
Qed.
