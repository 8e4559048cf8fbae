(** The session machine on the concrete heap and on the specification store take the same steps. *)
From Coq Require Import List Arith Bool Lia Permutation.
From Verif Require Import Types Diag Wiring WiringProofs Session Mesh Links LinksProofs Refine.
Import ListNotations.

(** ** Renaming ends in programs *)

Section MapProg.
  Context {A B : Type}.
  Variable f : A -> B.
  Definition map_prog (p : @prog A) : @prog B :=
    match p with
    | PRun ss r hs => PRun ss r (map f hs)
    | PChoose b l pend own => PChoose b l (map (fun '(x, h, m) => (x, f h, map f m)) pend) (map f own)
    | PClose a r hs => PClose a r (map f hs)
    | PFin res => PFin res
    | PStuck hs => PStuck (map f hs)
    end.
  Definition map_thread (t : @thread A) : @thread B :=
    Thread (map_prog (t_prog t)) (map f (t_trash t)) (t_round t) (t_log t).

  Lemma map_held : forall p, held (map_prog p) = map f (held p).
  Proof.
    destruct p; cbn; try reflexivity. rewrite map_app. f_equal.
    induction pend as [|[[x h] m] pend IH]; [reflexivity|]. cbn. rewrite map_app, IH. reflexivity.
  Qed.
End MapProg.

Lemma map_prog_ext : forall A B (f g : A -> B) p, (forall x, In x (held p) -> f x = g x) ->
  map_prog f p = map_prog g p.
Proof.
  intros A B f g p H. destruct p; cbn in *; try (f_equal; apply map_ext_in; assumption); try reflexivity.
  f_equal.
  - apply map_ext_in. intros [[x h] m] Hin.
    assert (Hp : forall y, In y (h :: m) -> f y = g y).
    { intros y Hy. apply H, in_or_app. left. apply in_flat_map. exists (x, h, m). auto. }
    rewrite (Hp h) by (left; reflexivity). f_equal. apply map_ext_in. intros y Hy. apply Hp. right; exact Hy.
  - apply map_ext_in. intros y Hy. apply H, in_or_app. right; exact Hy.
Qed.

Definition all_of {H} (t : @thread H) : list H := held (t_prog t) ++ t_trash t.

Lemma map_thread_ext : forall A B (f g : A -> B) t, (forall x, In x (all_of t) -> f x = g x) ->
  map_thread f t = map_thread g t.
Proof.
  intros A B f g [p tr r lo] H. unfold map_thread, all_of in *. cbn in *. f_equal.
  - apply map_prog_ext. intros x Hx. apply H, in_or_app. left; exact Hx.
  - apply map_ext_in. intros x Hx. apply H, in_or_app. right; exact Hx.
Qed.

(** ** Lists of ends *)

Definition full (x : handle) : bool := snd x.

Lemma set_nth_id : forall A (l : list A) k x, nth_error l k = Some x -> set_nth k x l = l.
Proof.
  induction l as [|y l IH]; intros [|k] x H; try discriminate; cbn in *.
  - congruence.
  - rewrite IH; auto.
Qed.

Lemma map_set_nth : forall (B B' : handle -> ep) hs f x,
  nth_error hs f = Some x -> cnt x hs <= 1 ->
  (forall y, In y hs -> y <> x -> B' y = B y) ->
  set_nth f (B' x) (map B hs) = map B' hs.
Proof.
  intros B B' hs. induction hs as [|y hs IH]; intros [|f] x Hn Hc H; try discriminate; cbn [set_nth map].
  - cbn in Hn. injection Hn as ->. f_equal. apply map_ext_in. intros z Hz.
    symmetry. apply H; [right; exact Hz|]. intros ->. rewrite cnt_cons, cnt_self in Hc.
    apply cnt_in in Hz. lia.
  - cbn in Hn. rewrite cnt_cons in Hc. f_equal.
    + symmetry. apply H; [left; reflexivity|]. intros ->. rewrite cnt_self in Hc.
      apply nth_error_In, cnt_in in Hn. lia.
    + apply IH; [exact Hn|lia|]. intros z Hz. apply H. right; exact Hz.
Qed.

Lemma map_without : forall A B (g : A -> B) f hs, without f (map g hs) = map g (without f hs).
Proof. intros. unfold without. rewrite map_app, firstn_map, skipn_map. reflexivity. Qed.

Lemma cnt_without : forall f hs x y, nth_error hs f = Some x ->
  cnt y hs = cnt y [x] + cnt y (without f hs).
Proof.
  intros f hs x y H. unfold without. rewrite cnt_app.
  rewrite <- (firstn_skipn f hs) at 1. rewrite cnt_app.
  assert (Hs : skipn f hs = x :: skipn (f + 1) hs).
  { revert hs H. induction f as [|f IH]; intros [|z hs] H; try discriminate; cbn in *.
    - congruence.
    - apply IH, H. }
  rewrite Hs, cnt_cons. lia.
Qed.

Lemma in_without : forall A f (hs : list A) y, In y (without f hs) -> In y hs.
Proof.
  intros A f hs y H. unfold without in H. apply in_app_or in H. destruct H as [H|H].
  - rewrite <- (firstn_skipn f hs). apply in_or_app. left; exact H.
  - rewrite <- (firstn_skipn (f + 1) hs). apply in_or_app. right; exact H.
Qed.

(** Ends inside messages are full. *)
Definition fullq (L : links) : Prop := forall y, 0 < inside y L -> full y = true.

Lemma fullq_set : forall L l k, fullq L -> l < lnext L ->
  (forall y, 0 < cntq y (l_q k) -> full y = true) -> fullq (set_link L l k).
Proof.
  intros L l k F Hl Hk y Hy. pose proof (inside_set y L l k Hl) as H.
  destruct (cntq y (l_q k)) eqn:E; [apply F; lia|apply Hk; lia].
Qed.

Lemma fullq_same : forall L l k, fullq L -> l < lnext L ->
  (forall y, cntq y (l_q k) <= cntq y (l_q (lk L l))) -> fullq (set_link L l k).
Proof.
  intros L l k F Hl Hk. apply fullq_set; [exact F|exact Hl|].
  intros y Hy. apply F. pose proof (inside_le y L l Hl). specialize (Hk y). lia.
Qed.

Lemma cntq_tl : forall y q, cntq y (tl q) <= cntq y q.
Proof. intros y [|[[v c] t] q]; cbn [tl]; [lia|]. rewrite cntq_cons. lia. Qed.

Lemma fullq_drop : forall x L out L', fullq L -> live L x -> lk_drop x L = (out, L') -> fullq L'.
Proof.
  intros [[l s] f] L out L' F [Hl _] H. unfold lk_drop in H.
  destruct f; [destruct (is_fin _)|]; [| |];
    [|destruct (pending (lk L l) s) as [[[v c] t]|]|]; injection H as <- <-;
    (apply fullq_same; [exact F|exact Hl|intros y; cbn [l_q popped closed]; first [apply cntq_tl|apply le_n]]).
Qed.

(** ** Counting *)

Lemma owns_perm : forall L xs ys, (forall y, cnt y ys <= cnt y xs) -> owns L xs -> owns L ys.
Proof. intros L xs ys H O y. specialize (O y). specialize (H y). lia. Qed.

(** A step that consumes [used], makes [made] and leaves [xs]. *)
Lemma owns_bal : forall L L' used made xs, bal L L' used made -> owns L (used ++ xs) -> owns L' (made ++ xs).
Proof.
  intros L L' used made xs B O y. specialize (B y). specialize (O y).
  rewrite cnt_app in *. lia.
Qed.

Lemma owns_disjoint : forall L xs ys y, owns L (xs ++ ys) -> In y ys -> live L y /\ ~ In y xs.
Proof.
  intros L xs ys y O Hy. split.
  - eapply owns_live; [exact O|]. apply in_or_app. right; exact Hy.
  - intros Hx. specialize (O y). rewrite cnt_app in O. apply cnt_in in Hx, Hy.
    pose proof (avail_le1 y L). lia.
Qed.

Lemma owns_once : forall L xs x, owns L xs -> cnt x xs <= 1.
Proof. intros L xs x O. specialize (O x). pose proof (avail_le1 x L). lia. Qed.

Lemma bal_refl : forall L xs, bal L L xs xs.
Proof. intros L xs y. lia. Qed.

Lemma bal_equiv : forall L L' u m u' m', bal L L' u m ->
  (forall y, cnt y u' + cnt y m = cnt y u + cnt y m') -> bal L L' u' m'.
Proof. intros L L' u m u' m' B H y. specialize (B y). specialize (H y). lia. Qed.

Lemma bal_trans : forall L1 L2 L3 a b c, bal L1 L2 a b -> bal L2 L3 b c -> bal L1 L3 a c.
Proof. intros L1 L2 L3 a b c H1 H2 y. specialize (H1 y). specialize (H2 y). lia. Qed.

(** ** Allocation *)

Definition flat {H} (l : list (H * H)) : list H := flat_map (fun '(a, b) => [a; b]) l.

Lemma alloc_length : forall S H (O : ops S H) tys s l s', alloc O tys s = (l, s') -> length l = length tys.
Proof.
  induction tys as [|t tys IH]; intros s l s' E; cbn in E; [injection E as <- <-; reflexivity|].
  destruct (op_new O t s) as [[a b] s1]. destruct (alloc O tys s1) as [l1 s2] eqn:E1.
  injection E as <- <-. cbn. f_equal. eapply IH; eauto.
Qed.

Lemma new_fullq : forall t L a b L', lk_new t L = (a, b, L') -> fullq L -> fullq L'.
Proof.
  intros t L a b L' H F y Hy. unfold lk_new in H. inversion H; subst; clear H.
  apply F. unfold inside in *. cbn [lnext lk sum_to] in Hy. rewrite Nat.eqb_refl in Hy.
  cbn [new_link l_q] in Hy. rewrite cntq_nil in Hy.
  rewrite (sum_to_ext (lnext L) (fun l => cntq y (l_q (if l =? lnext L then new_link t else lk L l)))
             (fun l => cntq y (l_q (lk L l)))) in Hy; [lia|].
  intros l Hl. destruct (Nat.eqb_spec l (lnext L)); [lia|reflexivity].
Qed.

Lemma sim_alloc : forall tys e own h L xs, Rel e own h L -> wf_links L -> fullq L -> owns L xs ->
  forall ph h' pl L', alloc heap_ops tys h = (ph, h') -> alloc link_ops tys L = (pl, L') ->
  exists e' own', Rel e' own' h' L' /\ wf_links L' /\ fullq L' /\
    ph = map (fun '(a, b) => (beta e' a, beta e' b)) pl /\ bal L L' [] (flat pl) /\
    (forall y, In y (flat pl) -> full y = true) /\
    (forall z, live L z -> beta e' z = beta e z /\ live L' z).
Proof.
  induction tys as [|t tys IH]; intros e own h L xs R W F Ow ph h' pl L' Hh HL.
  - cbn in Hh, HL. injection Hh as <- <-. injection HL as <- <-.
    exists e, own. split; [exact R|]. split; [exact W|]. split; [exact F|]. split; [reflexivity|].
    split; [apply bal_refl|]. split; [intros y []|]. intros z Hz. auto.
  - cbn [alloc op_new heap_ops link_ops] in Hh, HL.
    destruct (heap_new t h) as [[a b] h1] eqn:E1. destruct (alloc heap_ops tys h1) as [ph1 h2] eqn:E2.
    destruct (lk_new t L) as [[x' y'] L1] eqn:E3.
    destruct (alloc link_ops tys L1) as [pl1 L2] eqn:E4.
    injection Hh as <- <-. injection HL as <- <-.
    destruct (sim_new e own h L t xs R W Ow a b h1 E1 x' y' L1 E3) as (e1 & own1 & R1 & Hx & Hy & Hag).
    destruct (new_ok t L x' y' L1 E3 W) as (W1 & Hn1 & B1).
    assert (Ow1 : owns L1 ([x'; y'] ++ xs)) by (eapply owns_bal; [exact B1|exact Ow]).
    destruct (IH e1 own1 h1 L1 ([x'; y'] ++ xs) R1 W1 (new_fullq _ _ _ _ _ E3 F) Ow1 ph1 h2 pl1 L2 E2 E4)
      as (e2 & own2 & R2 & W2 & F2 & Hp & B2 & Fl & Hag2).
    assert (Hlive : forall z, In z [x'; y'] -> live L1 z).
    { intros z Hz. eapply owns_live; [exact Ow1|]. apply in_or_app. left; exact Hz. }
    exists e2, own2. split; [exact R2|]. split; [exact W2|]. split; [exact F2|]. split; [|split; [|split]].
    + cbn [map]. rewrite Hp. f_equal.
      rewrite (proj1 (Hag2 x' (Hlive x' (or_introl eq_refl)))).
      rewrite (proj1 (Hag2 y' (Hlive y' (or_intror (or_introl eq_refl))))). congruence.
    + eapply bal_trans; [exact B1|]. eapply bal_equiv; [exact B2|].
      intros z. change (flat ((x', y') :: pl1)) with ([x'; y'] ++ flat pl1). rewrite cnt_nil, cnt_app. lia.
    + intros z Hz. change (flat ((x', y') :: pl1)) with ([x'; y'] ++ flat pl1) in Hz.
      apply in_app_or in Hz. destruct Hz as [Hz|Hz]; [|apply Fl, Hz].
      unfold lk_new in E3. injection E3 as <- <- _. destruct Hz as [<-|[<-|[]]]; reflexivity.
    + intros z Hz.
      assert (Hz1 : live L1 z).
      { destruct z as [[m s] f]. unfold lk_new in E3. injection E3 as _ _ <-. destruct Hz as [Hm Hz].
        cbn [live lnext lk]. split; [lia|]. destruct (Nat.eqb_spec m (lnext L)); [lia|exact Hz]. }
      destruct (Hag2 z Hz1) as [H1 H2]. split; [rewrite H1; apply Hag, Hz|exact H2].
Qed.

(** ** Wiring commutes with renaming *)

Lemma all_some_natural : forall A B (g : A -> B) l,
  all_some (map (option_map g) l) = option_map (map g) (all_some l).
Proof.
  induction l as [|[a|] l IH]; cbn; [reflexivity| |reflexivity].
  rewrite IH. destruct (all_some l); reflexivity.
Qed.

Definition on_pairs {A B} (g : A -> B) (l : list (A * A)) : list (B * B) := map (fun '(a, b) => (g a, g b)) l.

Lemma pick_natural : forall A B (g : A -> B) ps e, pick (on_pairs g ps) e = option_map g (pick ps e).
Proof.
  intros. unfold pick, on_pairs. rewrite nth_error_map. destruct (nth_error ps (fst e - 1)) as [[a b]|]; cbn;
    [destruct (snd e); reflexivity|reflexivity].
Qed.

Lemma pick_all_natural : forall A B (g : A -> B) ps es,
  pick_all (on_pairs g ps) es = option_map (map g) (pick_all ps es).
Proof.
  intros. unfold pick_all. rewrite <- all_some_natural, map_map. f_equal. apply map_ext.
  intros e. apply pick_natural.
Qed.

(** [make_choice] after the allocation. *)
Definition wire {H} (n p b l : nat) (hs : list H) (pairs : list (H * H)) : option (@prog H) :=
  match choose_sends n p, choose_own n p with
  | Some sends, Some own =>
      match all_some (map (fun '(i, es) =>
                             match nth_error hs (i - 1), pick_all pairs es with
                             | Some h, Some m => Some (other p i, h, m)
                             | _, _ => None
                             end) sends), pick_all pairs own with
      | Some pend, Some mine => Some (PChoose b l pend mine)
      | _, _ => None
      end
  | _, _ => None
  end.

Lemma make_choice_wire : forall S H (O : ops S H) n branch p b l hs s,
  make_choice O n branch p b l hs s =
    let '(pairs, s1) := alloc O (pair_types n (choose_vars n) (branch b l)) s in
    match wire n p b l hs pairs with Some pr => Some (pr, s1) | None => None end.
Proof.
  intros. unfold make_choice, wire. destruct (alloc O _ s) as [pairs s1].
  destruct (choose_sends n p), (choose_own n p); try reflexivity.
  destruct (all_some _); [|reflexivity]. destruct (pick_all pairs l1); reflexivity.
Qed.

Lemma wire_natural : forall A B (g : A -> B) n p b l hs pairs,
  wire n p b l (map g hs) (on_pairs g pairs) = option_map (map_prog g) (wire n p b l hs pairs).
Proof.
  intros A B g n p b l hs pairs. unfold wire.
  destruct (choose_sends n p) as [sends|]; [|reflexivity].
  destruct (choose_own n p) as [own|]; [|reflexivity].
  rewrite pick_all_natural.
  replace (map (fun '(i, es) => match nth_error (map g hs) (i - 1) with
                  | Some h => match pick_all (on_pairs g pairs) es with
                              | Some m => Some (other p i, h, m) | None => None end
                  | None => None end) sends)
    with (map (option_map (fun '(x, h, m) => (x, g h, map g m)))
            (map (fun '(i, es) => match nth_error hs (i - 1) with
                  | Some h => match pick_all pairs es with
                              | Some m => Some (other p i, h, m) | None => None end
                  | None => None end) sends)).
  - rewrite all_some_natural. destruct (all_some _) as [pend|]; [|reflexivity]. cbn [option_map].
    destruct (pick_all pairs own) as [mine|]; reflexivity.
  - rewrite map_map. apply map_ext. intros [i es]. rewrite nth_error_map, pick_all_natural.
    destruct (nth_error hs (i - 1)); [|reflexivity]. cbn [option_map].
    destruct (pick_all pairs es); reflexivity.
Qed.

(** The ends of a wired choice come from the old mesh and the new channels. *)
Lemma all_some_in : forall A (l : list (option A)) r x, all_some l = Some r -> In x r -> In (Some x) l.
Proof.
  induction l as [|[a|] l IH]; intros r x H Hin; cbn in H; [injection H as <-; contradiction| |discriminate].
  destruct (all_some l) as [r'|]; [|discriminate]. injection H as <-.
  destruct Hin as [->|Hin]; [left; reflexivity|right; eapply IH; eauto].
Qed.

Lemma pick_in : forall H (ps : list (H * H)) e x, pick ps e = Some x -> In x (flat ps).
Proof.
  intros H ps e x E. unfold pick in E. destruct (nth_error ps (fst e - 1)) as [[a b]|] eqn:En; [|discriminate].
  apply nth_error_In in En. unfold flat. apply in_flat_map. exists (a, b). split; [exact En|].
  destruct (snd e); injection E as <-; cbn; auto.
Qed.

Lemma pick_all_in : forall H (ps : list (H * H)) es xs x, pick_all ps es = Some xs -> In x xs -> In x (flat ps).
Proof.
  intros H ps es xs x E Hin. unfold pick_all in E. eapply all_some_in in E; [|exact Hin].
  apply in_map_iff in E. destruct E as (e & E & _). eapply pick_in; eauto.
Qed.

Lemma wire_in : forall H n p b l (hs : list H) pairs pr x, wire n p b l hs pairs = Some pr ->
  In x (held pr) -> In x hs \/ In x (flat pairs).
Proof.
  intros H n p b l hs pairs pr x E Hin. unfold wire in E.
  destruct (choose_sends n p) as [sends|]; [|discriminate].
  destruct (choose_own n p) as [own|]; [|discriminate].
  destruct (all_some _) as [pend|] eqn:Ep; [|discriminate].
  destruct (pick_all pairs own) as [mine|] eqn:Eo; [|discriminate].
  injection E as <-. cbn in Hin. apply in_app_or in Hin. destruct Hin as [Hin|Hin].
  - apply in_flat_map in Hin. destruct Hin as ([[q h] m] & Hp & Hx).
    eapply all_some_in in Ep; [|exact Hp]. apply in_map_iff in Ep. destruct Ep as ([i es] & E & _).
    destruct (nth_error hs (i - 1)) as [h'|] eqn:En; [|discriminate].
    destruct (pick_all pairs es) as [m'|] eqn:Em; [|discriminate]. injection E as _ <- <-.
    destruct Hx as [<-|Hx]; [left; eapply nth_error_In; eauto|right; eapply pick_all_in; eauto].
  - right. eapply pick_all_in; eauto.
Qed.

(** ** One step of a thread *)

Section Step.
  Variable n : nat.
  Variable branch : nat -> nat -> nat -> mty.
  Variable labels : nat -> nat.
  Variable strict : bool.

  Notation tstep_h := (tstep heap_ops n branch labels strict).
  Notation tstep_l := (tstep link_ops n branch labels strict).

  Definition step_rel (e : nat -> bool -> ep) (xs : list handle)
             (a : option (@thread ep * heap)) (b : option (@thread handle * links)) : Prop :=
    match a, b with
    | None, None => True
    | Some (th1, h1), Some (th2, L2) =>
        exists e' own', Rel e' own' h1 L2 /\ th1 = map_thread (beta e') th2 /\
          (forall y, In y xs -> beta e' y = beta e y)
    | _, _ => False
    end.

  Lemma same_rel : forall e own h L xs th, Rel e own h L ->
    step_rel e xs (Some (map_thread (beta e) th, h)) (Some (th, L)).
  Proof. intros. cbn. exists e, own. auto. Qed.

  Lemma stuck_map : forall (B : handle -> ep) th, stuck (map_thread B th) = map_thread B (@stuck handle th).
  Proof. intros. unfold stuck, map_thread. cbn. rewrite map_held. reflexivity. Qed.

  (** [agree] on the ends of the caller other than x. *)
  Lemma agree_rest : forall e e' L x ys y, agree L e e' x -> owns L (x :: ys) -> In y ys ->
    beta e' y = beta e y.
  Proof.
    intros e e' L x ys y A O Hy. apply A.
    - eapply owns_live; [exact O|right; exact Hy].
    - intros ->. pose proof (owns_once _ _ x O) as H. rewrite cnt_cons, cnt_self in H.
      apply cnt_in in Hy. lia.
  Qed.

  (** Taking one end out of a list of ends. *)
  Lemma owns_nth : forall L hs f x xs, owns L (hs ++ xs) -> nth_error hs f = Some x ->
    owns L (x :: without f hs ++ xs).
  Proof.
    intros L hs f x xs O Hn. eapply owns_perm; [|exact O]. intros y.
    rewrite (cnt_cons y x), !cnt_app, (cnt_without f hs x y Hn). lia.
  Qed.

  Lemma map_set_rest : forall e e' L hs f x xs, nth_error hs f = Some x -> owns L (hs ++ xs) ->
    agree L e e' x -> set_nth f (beta e' x) (map (beta e) hs) = map (beta e') hs.
  Proof.
    intros e e' L hs f x xs Hn O A. apply map_set_nth; [exact Hn| |].
    - pose proof (owns_once _ _ x O) as H. rewrite cnt_app in H. lia.
    - intros y Hy Hne. apply A; [|exact Hne]. eapply owns_live; [exact O|]. apply in_or_app. left; exact Hy.
  Qed.

  Lemma full_split : forall x, full x = true -> exists l s, x = (l, s, true).
  Proof. intros [[l s] f] H. cbn in H. subst. eauto. Qed.

  Lemma do_send_sim : forall e own h L xs th x ss r hs f t v k y,
    Rel e own h L -> wf_links L -> owns L (hs ++ xs) -> nth_error hs f = Some y -> full y = true ->
    step_rel e xs
      (do_send heap_ops strict (map_thread (beta e) th) x ss r (map (beta e) hs) f t v k (beta e y) h)
      (do_send link_ops strict th x ss r hs f t v k y L) \/ held (t_prog th) <> hs.
  Proof.
    intros e own h L xs th x ss r hs f t v k y R W O Hn Hf.
    destruct (list_eq_dec handle_eq_dec (held (t_prog th)) hs) as [Eh|Eh]; [left|right; exact Eh].
    destruct (full_split y Hf) as (l & s & ->).
    pose proof (owns_nth L hs f (l, s, true) xs O Hn) as O1.
    pose proof (sim_send e own h L l s (VData t v) [] k (without f hs ++ xs) R W O1) as HS.
    unfold do_send. cbn [op_send heap_ops link_ops beta]. cbn [map] in HS.
    assert (Hxs : forall y, In y xs -> In y (without f hs ++ xs)) by (intros; apply in_or_app; auto).
    pose proof (send_ok l s (VData t v) [] k L W (owns_live _ _ _ O1 (or_introl eq_refl))) as HK.
    destruct (lk_send (l, s, true) (VData t v) [] k L) as [here L'|here lost L'| |];
      destruct (heap_send (e l s) (VData t v) [] k h) as [here' h'|here' lost' h'| |]; try contradiction.
    - destruct HS as (e' & own' & R' & -> & A). destruct HK as [-> _]. cbn. exists e', own'.
      split; [exact R'|]. split.
      + unfold map_thread. cbn. rewrite (set_nth_id _ hs f _ Hn).
        change (e' l s) with (beta e' (l, s, true)).
        rewrite (map_set_rest e e' L hs f (l, s, true) xs Hn O A). reflexivity.
      + intros z Hz. eapply agree_rest; eauto.
    - destruct HS as (e' & own' & R' & -> & -> & A). destruct HK as [-> _].
      change (e' l s) with (beta e' (l, s, true)).
      rewrite (map_set_rest e e' L hs f (l, s, true) xs Hn O A), (set_nth_id _ hs f _ Hn).
      destruct strict; cbn; exists e', own'; (split; [exact R'|]); (split; [|intros z Hz; eapply agree_rest; eauto]).
      + unfold fin, map_thread. cbn. rewrite map_app. reflexivity.
      + unfold map_thread. cbn. reflexivity.
    - rewrite stuck_map. apply same_rel with own. exact R.
  Qed.

  Lemma do_recv_sim : forall e own h L xs th x ss r hs f t k y,
    Rel e own h L -> wf_links L -> owns L (hs ++ xs) -> nth_error hs f = Some y -> full y = true ->
    step_rel e xs
      (do_recv heap_ops (map_thread (beta e) th) x ss r (map (beta e) hs) f t k (beta e y) h)
      (do_recv link_ops th x ss r hs f t k y L).
  Proof.
    intros e own h L xs th x ss r hs f t k y R W O Hn Hf.
    destruct (full_split y Hf) as (l & s & ->).
    pose proof (owns_nth L hs f (l, s, true) xs O Hn) as O1.
    pose proof (sim_recv e own h L l s (without f hs ++ xs) R W O1) as HS.
    unfold do_recv. cbn [op_recv heap_ops link_ops beta].
    pose proof (recv_ok l s L W (owns_live _ _ _ O1 (or_introl eq_refl))) as HK.
    destruct (lk_recv (l, s, true) L) as [v c k1 L'|L'| |];
      destruct (heap_recv (e l s) h) as [v' c' k1' h'|h'| |]; try contradiction.
    - destruct HS as (e' & R' & -> & -> & -> & A). destruct HK as [-> _].
      destruct v as [t' x'|b l' j]; [|rewrite stuck_map; apply same_rel with own; exact R].
      destruct c as [|c0 c]; cbn [map]; [|rewrite stuck_map; apply same_rel with own; exact R].
      destruct (t' =? t); [|rewrite stuck_map; apply same_rel with own; exact R].
      change (e' l s) with (beta e' (l, s, true)).
      rewrite (map_set_rest e e' L hs f (l, s, true) xs Hn O A), (set_nth_id _ hs f _ Hn).
      cbn. exists e', own. split; [exact R'|]. split; [reflexivity|].
      intros z Hz. eapply agree_rest; [exact A|exact O1|]. apply in_or_app; auto.
    - cbn. exists e, own. split; [exact HS|]. split; [|reflexivity].
      unfold fin, map_thread. cbn. rewrite map_without. reflexivity.
    - exact I.
    - rewrite stuck_map. apply same_rel with own. exact R.
  Qed.

  Lemma do_offer_sim : forall e own h L xs th p x hs f b y,
    Rel e own h L -> wf_links L -> owns L (hs ++ xs) -> nth_error hs f = Some y -> full y = true ->
    step_rel e xs
      (do_offer heap_ops branch labels p (map_thread (beta e) th) x (map (beta e) hs) f b (beta e y) h)
      (do_offer link_ops branch labels p th x hs f b y L).
  Proof.
    intros e own h L xs th p x hs f b y R W O Hn Hf.
    destruct (full_split y Hf) as (l & s & ->).
    pose proof (owns_nth L hs f (l, s, true) xs O Hn) as O1.
    pose proof (sim_recv e own h L l s (without f hs ++ xs) R W O1) as HS.
    unfold do_offer. cbn [op_recv heap_ops link_ops beta].
    pose proof (recv_ok l s L W (owns_live _ _ _ O1 (or_introl eq_refl))) as HK.
    destruct (lk_recv (l, s, true) L) as [v c k1 L'|L'| |];
      destruct (heap_recv (e l s) h) as [v' c' k1' h'|h'| |]; try contradiction.
    - destruct HS as (e' & R' & -> & -> & -> & A). destruct HK as [-> _].
      destruct v as [t' x'|b' l' j]; [rewrite stuck_map; apply same_rel with own; exact R|].
      destruct ((b' =? b) && (j =? p) && (l' <? labels b));
        [|rewrite stuck_map; apply same_rel with own; exact R].
      change (e' l s) with (beta e' (l, s, true)).
      rewrite (map_set_rest e e' L hs f (l, s, true) xs Hn O A), (set_nth_id _ hs f _ Hn).
      cbn. exists e', own. split; [exact R'|]. split; [reflexivity|].
      intros z Hz. eapply agree_rest; [exact A|exact O1|]. apply in_or_app; auto.
    - cbn. exists e, own. split; [exact HS|]. split; [|reflexivity].
      unfold fin, map_thread. cbn. rewrite map_without. reflexivity.
    - exact I.
    - rewrite stuck_map. apply same_rel with own. exact R.
  Qed.

  Lemma do_choose_send_sim : forall e own h L xs th b l x y m pend own0,
    Rel e own h L -> wf_links L -> full y = true ->
    owns L (held (PChoose b l ((x, y, m) :: pend) own0) ++ xs) ->
    step_rel e xs
      (do_choose_send heap_ops strict (map_thread (beta e) th) b l x (beta e y) (map (beta e) m)
         (map (fun '(x, h, m) => (x, beta e h, map (beta e) m)) pend) (map (beta e) own0) h)
      (do_choose_send link_ops strict th b l x y m pend own0 L).
  Proof.
    intros e own h L xs th b l x y m pend own0 R W Hf O.
    destruct (full_split y Hf) as (l0 & s & ->).
    set (rest := held (PChoose b l pend own0)).
    assert (O1 : owns L ((l0, s, true) :: m ++ (rest ++ xs))).
    { eapply owns_perm; [|exact O]. intros z. subst rest. cbn [held flat_map app].
      rewrite <- !app_assoc. apply le_n. }
    pose proof (sim_send e own h L l0 s (VLabel b l x) m End (rest ++ xs) R W O1) as HS.
    pose proof (send_ok l0 s (VLabel b l x) m End L W (owns_live _ _ _ O1 (or_introl eq_refl))) as HK.
    unfold do_choose_send. cbn [op_send heap_ops link_ops beta].
    change (PChoose b l (map (fun '(x, h, m) => (x, beta e h, map (beta e) m)) pend) (map (beta e) own0))
      with (map_prog (beta e) (PChoose b l pend own0)).
    rewrite map_held. fold rest.
    assert (Hmap : forall e', agree L e e' (l0, s, true) ->
              map_prog (beta e) (PChoose b l pend own0) = map_prog (beta e') (PChoose b l pend own0)).
    { intros e' A. apply map_prog_ext. intros z Hz. symmetry. eapply agree_rest; [exact A|exact O1|].
      apply in_or_app. right. apply in_or_app. left. exact Hz. }
    assert (Hrest : forall e', agree L e e' (l0, s, true) -> map (beta e) rest = map (beta e') rest).
    { intros e' A. apply map_ext_in. intros z Hz. symmetry. eapply agree_rest; [exact A|exact O1|].
      apply in_or_app. right. apply in_or_app. left. exact Hz. }
    assert (Hxs : forall e' z, agree L e e' (l0, s, true) -> In z xs -> beta e' z = beta e z).
    { intros e' z A Hz. eapply agree_rest; [exact A|exact O1|].
      apply in_or_app. right. apply in_or_app. right. exact Hz. }
    destruct (lk_send (l0, s, true) (VLabel b l x) m End L) as [here L'|here lost L'| |];
      destruct (heap_send (e l0 s) (VLabel b l x) (map (beta e) m) End h) as [here' h'|here' lost' h'| |];
      try contradiction.
    - destruct HS as (e' & own' & R' & -> & A). destruct HK as [-> _]. cbn. exists e', own'.
      split; [exact R'|]. split; [|intros z Hz; apply Hxs; assumption].
      unfold map_thread. cbn [t_prog t_trash t_round t_log map]. rewrite <- (Hmap e' A). reflexivity.
    - destruct HS as (e' & own' & R' & -> & -> & A). destruct HK as [-> _].
      destruct strict; cbn; exists e', own'; (split; [exact R'|]);
        (split; [|intros z Hz; apply Hxs; assumption]).
      + unfold fin, map_thread. cbn [t_prog t_trash t_round t_log map_prog].
        rewrite (map_app (beta e') lost). cbn [map]. specialize (Hrest e' A). unfold rest in Hrest.
        cbn [held] in Hrest. rewrite Hrest. reflexivity.
      + unfold map_thread. cbn [t_prog t_trash t_round t_log]. rewrite <- (Hmap e' A), map_app. reflexivity.
    - rewrite stuck_map. apply same_rel with own. exact R.
  Qed.

  Lemma do_close_sim : forall e own h L xs th a r hs,
    Rel e own h L -> wf_links L -> owns L (hs ++ xs) -> (forall y, In y hs -> full y = true) ->
    step_rel e xs
      (do_close heap_ops (map_thread (beta e) th) a r (map (beta e) hs) h)
      (do_close link_ops th a r hs L).
  Proof.
    intros e own h L xs th a r hs R W O Hf. unfold do_close. rewrite !nth_error_map.
    destruct (nth_error hs a) as [y|] eqn:Ea; cbn [option_map].
    - destruct (full_split y (Hf y (nth_error_In _ _ Ea))) as (l & s & ->).
      pose proof (owns_nth L hs a (l, s, true) xs O Ea) as O1.
      pose proof (sim_tell e own h L l s Stop (without a hs ++ xs) R W O1) as HS.
      cbn [op_tell heap_ops link_ops beta].
      destruct (lk_tell (l, s, true) Stop L), (heap_tell (e l s) Stop h); try contradiction.
      + cbn. exists e, own. auto.
      + apply (same_rel e own h L xs (fin th RErr hs) R).
      + exact I.
      + rewrite stuck_map. apply same_rel with own. exact R.
    - destruct (nth_error hs r) as [y|] eqn:Er; cbn [option_map].
      + destruct (full_split y (Hf y (nth_error_In _ _ Er))) as (l & s & ->).
        pose proof (owns_nth L hs r (l, s, true) xs O Er) as O1.
        pose proof (sim_hear e own h L l s (without r hs ++ xs) R W O1) as HS.
        cbn [op_hear heap_ops link_ops beta].
        destruct (lk_hear (l, s, true) L) as [g L'| | |], (heap_hear (e l s) h) as [g' h'| | |]; try contradiction.
        * destruct HS as [-> R']. destruct g; cbn; exists e, own; auto.
        * apply (same_rel e own h L xs (fin th RErr hs) R).
        * exact I.
        * rewrite stuck_map. apply same_rel with own. exact R.
      + apply (same_rel e own h L xs (fin th ROk hs) R).
  Qed.

  Lemma tstep_sim : forall e own h L xs th p i,
    Rel e own h L -> wf_links L -> fullq L -> (forall y, In y (held (t_prog th)) -> full y = true) ->
    owns L (all_of th ++ xs) ->
    step_rel e xs (tstep_h p i (map_thread (beta e) th) h) (tstep_l p i th L).
  Proof.
    intros e own h L xs th p i R W F Hf O. unfold tstep.
    replace (t_trash (map_thread (beta e) th)) with (map (beta e) (t_trash th)) by reflexivity.
    replace (t_prog (map_thread (beta e) th)) with (map_prog (beta e) (t_prog th)) by reflexivity.
    destruct (t_trash th) as [|x rest] eqn:Et; cbn [map].
    2: { destruct i; try exact I. cbn [op_drop heap_ops link_ops].
      assert (O1 : owns L (x :: (held (t_prog th) ++ rest) ++ xs)).
      { eapply owns_perm; [|exact O]. intros y. unfold all_of. rewrite Et.
        rewrite (cnt_cons y x), !cnt_app, (cnt_cons y x rest). lia. }
      destruct (lk_drop x L) as [out L'] eqn:EL. destruct (heap_drop (beta e x) h) as [out' h'] eqn:EH.
      destruct (sim_drop e own h L x _ R W O1 out L' out' h' EL EH) as (e' & R' & -> & A).
      exists e', own. split; [exact R'|]. split.
      - unfold map_thread. cbn. rewrite map_app. f_equal.
        + apply map_prog_ext. intros y Hy. symmetry. eapply agree_rest; [exact A|exact O1|].
          apply in_or_app. left. apply in_or_app. left; exact Hy.
        + f_equal. apply map_ext_in. intros y Hy. symmetry. eapply agree_rest; [exact A|exact O1|].
          apply in_or_app. left. apply in_or_app. right; exact Hy.
      - intros y Hy. eapply agree_rest; [exact A|exact O1|]. apply in_or_app. right; exact Hy. }
    assert (Oh : owns L (held (t_prog th) ++ xs)).
    { eapply owns_perm; [|exact O]. intros y. unfold all_of. rewrite Et, app_nil_r. lia. }
    destruct (t_prog th) as [ss r hs|b l pend own0|a r hs|res|hs] eqn:Ep; cbn [map_prog].
    - (* PRun *)
      cbn [held] in *. destruct i.
      + destruct r as [| |x r'| | |]; try exact I.
        * destruct (forallb is_end ss); [|exact I].
          cbn. exists e, own. split; [exact R|]. split; [reflexivity|auto].
        * destruct (callable n p x); [|exact I]. rewrite nth_error_map.
          destruct (nth_error ss (comm_field p x - 1)) as [[|q k|q k]|]; try exact I;
            destruct (nth_error hs (comm_field p x - 1)) as [y|] eqn:Ey; cbn [option_map]; try exact I.
          -- destruct q as [t|b j].
             ++ apply do_recv_sim with own; auto. apply Hf. eapply nth_error_In; eauto.
             ++ destruct k; try exact I. destruct (j =? p); [|exact I].
                apply do_offer_sim with own; auto. apply Hf. eapply nth_error_In; eauto.
          -- destruct q; [exact I|]. destruct k; exact I.
      + destruct r as [| |x0 r'| | |]; try exact I. destruct (callable n p x0); [|exact I].
        rewrite nth_error_map. destruct (nth_error ss (comm_field p x0 - 1)) as [[|q k|q k]|]; try exact I;
          destruct (nth_error hs (comm_field p x0 - 1)) as [y|] eqn:Ey; cbn [option_map]; try exact I.
        * destruct q as [t|b j]; [|exact I].
          destruct (do_send_sim e own h L xs th x0 ss r' hs (comm_field p x0 - 1) t x k y R W Oh Ey
                     (Hf y (nth_error_In _ _ Ey))) as [HS|HS]; [exact HS|].
          exfalso. apply HS. rewrite Ep. reflexivity.
        * destruct q; exact I.
      + destruct r; try exact I.
        destruct (choice_of p ss) as [b|]; [|exact I]. destruct (l <? labels b); [|exact I].
        rewrite !make_choice_wire.
        destruct (alloc heap_ops _ h) as [ph h'] eqn:EH. destruct (alloc link_ops _ L) as [pl L'] eqn:EL.
        destruct (sim_alloc _ e own h L (hs ++ xs) R W F Oh ph h' pl L' EH EL)
          as (e' & own' & R' & _ & _ & Hp & _ & _ & A).
        fold (on_pairs (beta e') pl) in Hp. rewrite Hp.
        assert (Hhs : forall y, In y (hs ++ xs) -> beta e' y = beta e y).
        { intros y Hy. apply A. eapply owns_live; [exact Oh|exact Hy]. }
        replace (map (beta e) hs) with (map (beta e') hs).
        2: { apply map_ext_in. intros y Hy. apply Hhs, in_or_app. left; exact Hy. }
        rewrite wire_natural.
        destruct (wire n p b l hs pl) as [pr|]; cbn [option_map].
        * exists e', own'. split; [exact R'|]. split; [reflexivity|].
          intros y Hy. apply Hhs, in_or_app. right; exact Hy.
        * rewrite stuck_map. apply same_rel with own. exact R.
      + apply (same_rel e own h L xs (fin th RCrash hs) R).
    - (* PChoose *)
      destruct pend as [|[[x y] m] pend]; destruct i; cbn [map]; try exact I.
      + cbn. exists e, own. split; [exact R|]. split; [reflexivity|auto].
      + cbn. exists e, own. split; [exact R|]. split; [reflexivity|auto].
      + apply do_choose_send_sim with own; auto. apply Hf. cbn. left; reflexivity.
      + cbn. exists e, own. split; [exact R|]. split; [|auto].
        unfold fin, map_thread. cbn. f_equal. f_equal. rewrite !map_app. f_equal. f_equal.
        clear. induction pend as [|[[x h] m] pend IH]; [reflexivity|]. cbn. rewrite map_app, IH. reflexivity.
    - destruct i; try exact I.
      + apply do_close_sim with own; auto.
      + apply (same_rel e own h L xs (fin th RCrash hs) R).
    - destruct i; exact I.
    - destruct i; exact I.
  Qed.
End Step.
