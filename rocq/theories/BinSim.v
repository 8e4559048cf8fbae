(** Every execution with binary choices is one with enum choices that drops some ends earlier. Proofs. *)
From Coq Require Import List Arith Bool Lia.
From Verif Require Import Types Diag Wiring WiringProofs Session Mesh MeshSpec Links LinksProofs Refine Sim MeshWire
  BinMesh BinSpec BinHeap BinWire.
Import ListNotations.

Notation bthr := (@bthread ep).
Notation ethr := (@thread ep).

(** ** Threads *)
Definition estk (pr : @prog ep) : @prog ep :=
  match pr with PRun ss r hs => PRun ss (enum_stack r) hs | _ => pr end.
Definition conv (s : nat -> nat) (pr : @prog ep) : @prog ep := estk (map_prog (ren s) pr).

Lemma held_conv : forall s pr, held (conv s pr) = map (ren s) (held pr).
Proof. intros s pr. rewrite <- map_held. destruct pr; reflexivity. Qed.
Lemma conv_agree : forall N s s' pr, agree N s s' -> Forall (low N) (held pr) -> conv s' pr = conv s pr.
Proof.
  intros N s s' pr A L. unfold conv. f_equal. apply map_prog_ext. intros x Hx. eapply ren_agree; [exact A|].
  rewrite Forall_forall in L. apply L, Hx.
Qed.

(** An end of an old MeshedChannels that the second machine has dropped already, or what is left of it. *)
Definition gone (D : lates) (e : ep) : Prop :=
  match e with ETx _ => False | ERx r => In r (rxs D) | EEnd t r => In (t, r) D end.
Definition weight (e : ep) : nat := match e with ETx _ => 0 | ERx _ => 1 | EEnd _ _ => 2 end.
Fixpoint weights (l : list ep) : nat := match l with [] => 0 | e :: l' => weight e + weights l' end.
Lemma weights_app : forall a b, weights (a ++ b) = weights a + weights b.
Proof. induction a as [|x a IH]; intros b; cbn; [reflexivity|]. rewrite IH. lia. Qed.

Definition choosing (pr : @prog ep) : Prop := match pr with PChoose _ _ _ _ => True | _ => False end.

(** [d], [dn]: ends dropped by the second machine only; [w]: dropped by both; [u]: to be dropped next by the second. *)
Record trel (s : nat -> nat) (P D : lates) (N : nat) (k : nat) (bt : bthr) (et : ethr) : Prop := Trel {
  tr_parts : exists d w dn u,
    t_trash (b_th bt) = d ++ w /\ b_late bt = dn ++ u /\
    et = Thread (conv s (t_prog (b_th bt))) (map (ren s) (w ++ u)) (t_round (b_th bt)) (t_log (b_th bt)) /\
    (d = [] \/ (w = [] /\ dn = [])) /\ (w = [] -> u = []) /\ Forall (gone D) d /\ Forall (gone D) dn /\
    (u = [] \/ exists t r, u = [EEnd t r] /\ In (t, r) P /\ t < N /\ r < N) /\ Forall (safe P N) w /\
    weights d + weights dn = k;
  tr_held : Forall (good P N) (held (t_prog (b_th bt)));
  tr_late : choosing (t_prog (b_th bt)) \/ b_late bt = []
}.

Lemma gone_more : forall D D' e, incl D D' -> gone D e -> gone D' e.
Proof.
  intros D D' e I H. destruct e; cbn in *; [exact H| |apply I, H]. apply in_rxs in H. destruct H as [t H]. apply in_rxs. eauto.
Qed.

Lemma trel_mono : forall s s' P P' D D' N N' k bt et, trel s P D N k bt et -> agree N s s' -> newer N P P' -> incl D D' -> N <= N' ->
  trel s' P' D' N' k bt et.
Proof.
  intros s s' P P' D D' N N' k bt et [(d & w & dn & u & H1 & H2 & H3 & H4 & H5 & H6 & H7 & H8 & H9 & Hk) Hh Hl] A W I L.
  constructor; [|eapply Forall_impl; [|exact Hh]; intros e He; eapply good_mono; eauto|exact Hl].
  exists d, w, dn, u. split; [exact H1|]. split; [exact H2|]. split.
  { rewrite H3. f_equal.
    - symmetry. eapply conv_agree; [exact A|]. eapply Forall_impl; [|exact Hh]. intros e He. apply He.
    - symmetry. eapply map_ren_agree; [exact A|]. apply Forall_app. split.
      + eapply Forall_impl; [|exact H9]. intros e He. apply He.
      + destruct H8 as [-> |(t & r & -> & _ & Ht & Hr)]; [constructor|]. constructor; [|constructor]. intros c [<-|[<-|[]]]; assumption. }
  split; [exact H4|]. split; [exact H5|]. split; [|split; [|split; [|split; [|exact Hk]]]].
  - eapply Forall_impl; [|exact H6]. intros e. apply gone_more, I.
  - eapply Forall_impl; [|exact H7]. intros e. apply gone_more, I.
  - destruct H8 as [-> |(t & r & -> & Hp & Ht & Hr)]; [auto|right]. exists t, r. split; [reflexivity|].
    split; [apply W, Hp|lia].
  - eapply Forall_impl; [|exact H9]. intros e He. eapply safe_mono; eauto.
Qed.

(** A thread with nothing to drop. *)
Lemma trel_plain : forall s P D N pr tr r lo, Forall (good P N) (held pr) -> Forall (safe P N) tr ->
  trel s P D N 0 (BThread (Thread pr tr r lo) []) (Thread (conv s pr) (map (ren s) tr) r lo).
Proof.
  intros s P D N pr tr r lo Hh Ht. constructor; [|exact Hh|right; reflexivity].
  exists [], tr, [], []. cbn. rewrite app_nil_r. split; [reflexivity|]. split; [reflexivity|]. split; [reflexivity|].
  split; [auto|]. split; [auto|]. split; [constructor|]. split; [constructor|]. split; [auto|]. split; [exact Ht|reflexivity].
Qed.

(** A way to make the channels of a choice that does, up to the renaming, what the second machine does. *)
Definition makes (n : nat) (branch : nat -> nat -> nat -> mty) (labels : nat -> nat)
    (make : nat -> nat -> nat -> list ep -> heap -> option (@prog ep * heap)) : Prop :=
  (forall p s P D h g b l hs, hrel s P D h g -> 1 <= p <= n -> l < labels b -> Forall (good P (hnext h)) hs ->
     match make p b l hs h with
     | Some (pr, h') => exists s' g', make_choice heap_ops n (enum_branch branch) p b l (map (ren s) hs) g = Some (conv s' pr, g') /\
         hrel s' P D h' g' /\ agree (hnext h) s s' /\ hnext h <= hnext h' /\ Forall (good P (hnext h')) (held pr) /\ choosing pr
     | None => make_choice heap_ops n (enum_branch branch) p b l (map (ren s) hs) g = None
     end) /\
  forall p b l hs h pr h', make p b l hs h = Some (pr, h') -> exists pend own, pr = PChoose b l pend own.

Section Sim.
  Variable n : nat.
  Variable branch : nat -> nat -> nat -> mty.
  Variable labels : nat -> nat.
  Variable make : nat -> nat -> nat -> list ep -> heap -> option (@prog ep * heap).
  Variable any_rest : bool.
  Hypothesis make_ok : makes n branch labels make.

  Notation bst := (btstep heap_ops n branch labels false make any_rest).
  Notation est := (tstep heap_ops n (enum_branch branch) labels false).

  (** Several steps of one thread of the second machine. *)
  Fixpoint ego (p : nat) (is : list inp) (th : ethr) (g : heap) : option (ethr * heap) :=
    match is with
    | [] => Some (th, g)
    | i :: is' => match est p i th g with Some (th', g') => ego p is' th' g' | None => None end
    end.

  (** What one step of a thread does, on both sides. *)
  Definition follows1 (p : nat) (i : inp) (s : nat -> nat) (P D : lates) (h g : heap) (k : nat) (et : ethr) (bt' : bthr) (h' : heap) : Prop :=
    exists s' P' D' g' et' is k', ego p is et g = Some (et', g') /\ (forall j, In j is -> j = i \/ j = ITau) /\
      hrel s' P' D' h' g' /\ trel s' P' D' (hnext h') k' bt' et' /\
      agree (hnext h) s s' /\ newer (hnext h) P P' /\ incl D D' /\ hnext h <= hnext h' /\ 1 + k' <= length is + k.

  (** One step on each side, same protected ends. *)
  Lemma follows_one : forall p i s P D h g k et bt' h' g' et', est p i et g = Some (et', g') -> hrel s P D h' g' ->
    trel s P D (hnext h') 0 bt' et' -> hnext h <= hnext h' -> follows1 p i s P D h g k et bt' h'.
  Proof.
    intros p i s P D h g k et bt' h' g' et' E R T L. exists s, P, D, g', et', [i], 0. cbn [ego]. rewrite E.
    split; [reflexivity|]. split; [intros j [<-|[]]; auto|]. split; [exact R|]. split; [exact T|].
    split; [apply agree_refl|]. split; [apply newer_refl|]. split; [apply incl_refl|]. split; [exact L|]. cbn. lia.
  Qed.

  Lemma ego_app : forall p a b th g, ego p (a ++ b) th g = match ego p a th g with Some (th', g') => ego p b th' g' | None => None end.
  Proof. induction a as [|i a IH]; intros b th g; cbn; [reflexivity|]. destruct (est p i th g) as [[th' g']|]; [apply IH|reflexivity]. Qed.

  (** The second machine drops one end of the old MeshedChannels. *)
  Lemma ahead : forall p s P D h g t r pr ro lo, hrel s P D h g -> In (t, r) P ->
    exists g', ego p [ITau; ITau] (Thread pr [ren s (EEnd t r)] ro lo) g = Some (Thread pr [] ro lo, g') /\ hrel s P ((t, r) :: D) h g'.
  Proof.
    intros p s P D h g t r pr ro lo R Hp. destruct (env_ahead s P D h g t r R Hp) as (g1 & g2 & E1 & E2 & R2).
    exists g2. split; [|exact R2]. cbn [ego]. unfold tstep at 1. cbn [t_trash op_drop heap_ops]. rewrite E1. cbn [app t_prog t_round t_log].
    unfold tstep. cbn [t_trash op_drop heap_ops]. rewrite E2. reflexivity.
  Qed.

  Lemma set_nth_map : forall A B (f : A -> B) k x l, map f (set_nth k x l) = set_nth k (f x) (map f l).
  Proof. induction k as [|k IH]; intros x [|y l]; cbn; try reflexivity. f_equal. apply IH. Qed.
  Lemma Forall_set_nth : forall A (Q : A -> Prop) k x l, Q x -> Forall Q l -> Forall Q (set_nth k x l).
  Proof.
    intros A Q k x l Hx H. revert k. induction H as [|y l Hy Hl IH]; intros [|k]; cbn; constructor; auto.
  Qed.
  Lemma Forall_without : forall A (Q : A -> Prop) k l, Forall Q l -> Forall Q (without k l).
  Proof. intros A Q k l H. rewrite Forall_forall in *. intros x Hx. apply H. eapply in_without; eauto. Qed.
  Lemma goods_safe : forall P N l, Forall (good P N) l -> Forall (safe P N) l.
  Proof. intros P N l H. eapply Forall_impl; [|exact H]. apply good_safe. Qed.

  (** *** Drops *)
  Lemma sim_drop : forall p i s P D h g k bt et bt' h', hrel s P D h g -> trel s P D (hnext h) k bt et ->
    t_trash (b_th bt) <> [] -> bst p i bt h = Some (bt', h') -> follows1 p i s P D h g k et bt' h'.
  Proof.
    intros p i s P D h g k bt et bt' h' R T Hne E. unfold btstep in E.
    destruct T as [(d & w & dn & u & H1 & H2 & H3 & H4 & H5 & H6 & H7 & H8 & H9 & Hk) Hh Hl].
    destruct bt as [[pr tr ro lo] late]. cbn [b_th b_late t_trash t_prog t_round t_log] in *. subst tr.
    destruct d as [|x d].
    - cbn [app] in *. destruct w as [|x w]; [congruence|]. unfold tstep in E. cbn [t_trash t_prog t_round t_log] in E.
      destruct i; try discriminate. cbn [op_drop heap_ops] in E. destruct (heap_drop x h) as [out h1] eqn:Ed. cbn [option_map] in E.
      injection E as <- <-. inversion_clear H9 as [|? ? Hx Hw].
      destruct (env_drop s P D h g x out h1 R Hx Ed) as (g1 & Eg & R1 & Hn & Hout).
      assert (Est : est p ITau et g = Some (Thread (conv s pr) (map (ren s) ((out ++ w) ++ u)) ro lo, g1)).
      { rewrite H3. unfold tstep. cbn [t_trash map app op_drop heap_ops t_prog t_round t_log]. rewrite Eg. rewrite <- map_app, <- app_assoc. reflexivity. }
      assert (Hs : Forall (safe P (hnext h1)) (out ++ w)) by (rewrite Hn; apply Forall_app; auto).
      destruct (out ++ w) as [|y w'] eqn:Ew.
      + destruct H8 as [-> |(t & r & -> & Hp & Ht & Hr)].
        * exists s, P, D, g1, (Thread (conv s pr) [] ro lo), [ITau], k. cbn [ego]. rewrite Est. split; [reflexivity|].
          split; [intros j [<-|[]]; auto|]. split; [exact R1|]. split; [|split; [apply agree_refl|split; [apply newer_refl|split;
            [apply incl_refl|split; [lia|cbn; lia]]]]].
          constructor; cbn; [|rewrite Hn; exact Hh|exact Hl]. exists [], [], dn, []. cbn. rewrite H2.
          repeat (split; [solve [auto|constructor]|]). exact Hk.
        * destruct (ahead p s P D h1 g1 t r (conv s pr) ro lo R1 Hp) as (g2 & E2 & R2).
          exists s, P, ((t, r) :: D), g2, (Thread (conv s pr) [] ro lo), [ITau; ITau; ITau], (k + 2).
          change [ITau; ITau; ITau] with ([ITau] ++ [ITau; ITau]). rewrite ego_app. cbn [ego]. rewrite Est. cbn [app map].
          split; [exact E2|]. split; [intros j [<-|[<-|[<-|[]]]]; auto|]. split; [exact R2|].
          split; [|split; [apply agree_refl|split; [apply newer_refl|split; [intros z Hz; right; exact Hz|split; [lia|cbn; lia]]]]].
          constructor; cbn; [|rewrite Hn; exact Hh|exact Hl]. exists [], [], (dn ++ [EEnd t r]), []. cbn. rewrite H2, app_nil_r.
          split; [reflexivity|]. split; [reflexivity|]. split; [reflexivity|]. split; [auto|]. split; [auto|]. split; [constructor|].
          split; [|split; [auto|split; [constructor|]]].
          -- apply Forall_app. split; [|constructor; [left; reflexivity|constructor]].
             eapply Forall_impl; [|exact H7]. intros e. apply gone_more. intros z Hz. right; exact Hz.
          -- rewrite weights_app. cbn in *. lia.
      + exists s, P, D, g1, (Thread (conv s pr) (map (ren s) ((y :: w') ++ u)) ro lo), [ITau], k. cbn [ego]. rewrite Est.
        split; [reflexivity|]. split; [intros j [<-|[]]; auto|]. split; [exact R1|].
        split; [|split; [apply agree_refl|split; [apply newer_refl|split; [apply incl_refl|split; [lia|cbn; lia]]]]].
        constructor; cbn; [|rewrite Hn; exact Hh|exact Hl]. exists [], (y :: w'), dn, u. cbn [app].
        split; [reflexivity|]. split; [exact H2|]. split; [reflexivity|]. split; [auto|]. split; [discriminate|].
        split; [constructor|]. split; [exact H7|]. split; [|split; [exact Hs|exact Hk]]. rewrite Hn. exact H8.
    - destruct H4 as [H4|[-> ->]]; [discriminate|]. rewrite (H5 eq_refl) in *. clear H5. cbn [app] in *. rewrite app_nil_r in *.
      unfold tstep in E. cbn [t_trash t_prog t_round t_log] in E. destruct i; try discriminate. cbn [op_drop heap_ops] in E.
      inversion_clear H6 as [|? ? Hx Hd].
      assert (Q : exists out h1, heap_drop x h = (out, h1) /\ hrel s P D h1 g /\ hnext h1 = hnext h /\ Forall (gone D) out /\ 1 + weights out = weight x).
      { destruct x as [c|c|t r]; cbn in Hx; [contradiction| |].
        - destruct (env_behind_rx s P D h g c R Hx) as (h1 & Q1 & Q2 & Q3). exists [], h1.
          split; [exact Q1|]. split; [exact Q2|]. split; [exact Q3|]. split; [constructor|reflexivity].
        - destruct (env_behind_end s P D h g t r R Hx) as (h1 & Q1 & Q2 & Q3). exists [ERx r], h1.
          split; [exact Q1|]. split; [exact Q2|]. split; [exact Q3|]. split; [|reflexivity]. constructor; [|constructor].
          cbn. apply in_rxs. eauto. }
      destruct Q as (out & h1 & Q1 & Q2 & Q3 & Q4 & Q5). rewrite Q1 in E. cbn [option_map] in E. injection E as <- <-.
      exists s, P, D, g, et, [], (weights out + weights d). split; [reflexivity|]. split; [intros j []|]. split; [exact Q2|].
      split; [|split; [apply agree_refl|split; [apply newer_refl|split; [apply incl_refl|split; [lia|cbn in *; lia]]]]].
      constructor; cbn; [|rewrite Q3; exact Hh|exact Hl]. exists (out ++ d), [], [], []. rewrite app_nil_r. cbn.
      split; [reflexivity|]. split; [rewrite H2; reflexivity|]. split; [exact H3|]. split; [auto|]. split; [auto|].
      split; [apply Forall_app; auto|]. split; [constructor|]. split; [auto|]. split; [constructor|].
      rewrite weights_app. lia.
  Qed.

  (** A thread that is not dropping anything. *)
  Lemma at_rest : forall s P D N k pr ro lo late et, trel s P D N k (BThread (Thread pr [] ro lo) late) et ->
    et = Thread (conv s pr) [] ro lo /\ Forall (gone D) late /\ weights late = k /\ Forall (good P N) (held pr) /\ (choosing pr \/ late = []).
  Proof.
    intros s P D N k pr ro lo late et [(d & w & dn & u & H1 & H2 & H3 & H4 & H5 & H6 & H7 & H8 & H9 & Hk) Hh Hl].
    cbn [b_th b_late t_trash t_prog t_round t_log] in *. symmetry in H1. apply app_eq_nil in H1. destruct H1 as [-> ->].
    rewrite (H5 eq_refl) in *. rewrite app_nil_r in *. subst late. cbn in *. split; [exact H3|]. split; [exact H7|]. split; [exact Hk|]. auto.
  Qed.

  Lemma stuck_trel : forall s P D N pr ro lo, Forall (good P N) (held pr) ->
    trel s P D N 0 (BThread (stuck (Thread pr [] ro lo)) []) (stuck (Thread (conv s pr) [] ro lo)).
  Proof.
    intros s P D N pr ro lo H. unfold stuck. cbn [t_prog t_round t_log]. rewrite held_conv.
    apply (trel_plain s P D N (PStuck (held pr)) [] ro lo); [exact H|constructor].
  Qed.
  Lemma fin_trel : forall s P D N pr ro lo r xs, Forall (safe P N) xs ->
    trel s P D N 0 (BThread (fin (Thread pr [] ro lo) r xs) []) (fin (Thread (conv s pr) [] ro lo) r (map (ren s) xs)).
  Proof. intros. unfold fin. cbn [t_round t_log]. apply (trel_plain s P D N (PFin r) xs ro lo); [constructor|assumption]. Qed.

  (** *** send, recv, offer, close *)
  Lemma sim_send : forall s P D h g pr ro lo x ss r hs f t v k e th' h', hrel s P D h g -> Forall (good P (hnext h)) (held pr) ->
    Forall (good P (hnext h)) hs -> nth_error hs f = Some e -> held pr = hs ->
    do_send heap_ops false (Thread pr [] ro lo) x ss r hs f t v k e h = Some (th', h') ->
    exists g', do_send heap_ops false (Thread (conv s pr) [] ro lo) x ss (enum_stack r) (map (ren s) hs) f t v k (ren s e) g
        = Some (Thread (conv s (t_prog th')) (map (ren s) (t_trash th')) (t_round th') (t_log th'), g') /\
      hrel s P D h' g' /\ trel s P D (hnext h') 0 (BThread th' []) (Thread (conv s (t_prog th')) (map (ren s) (t_trash th')) (t_round th') (t_log th')) /\
      hnext h <= hnext h'.
  Proof.
    intros s P D h g pr ro lo x ss r hs f t v k e th' h' R Hh Hs He Hp E. unfold do_send in *. cbn [op_send heap_ops t_log t_round] in *.
    assert (Ge : good P (hnext h) e). { rewrite Forall_forall in Hs. apply Hs. eapply nth_error_In; eauto. }
    pose proof (env_send s P D h g e (VData t v) [] k R Ge (Forall_nil _)) as Q. cbn [map] in Q.
    destruct (heap_send e (VData t v) [] k h) as [here h1|here lost h1| |]; try discriminate.
    - destruct Q as (g1 & y & Q1 & Q2 & Q3 & Q4 & Q5 & _). injection E as <- <-. rewrite Q1. exists g1.
      cbn [t_prog t_trash t_round t_log conv map_prog estk map]. rewrite set_nth_map. split; [reflexivity|].
      assert (G : forall z, z = here \/ z = y -> good P (hnext h1) z).
      { intros z Hz. apply (fresh_good P h z (hnext h1) (en_content _ _ _ _ _ R)). intros c Hc. apply Q4. destruct Hz as [-> | ->]; auto. }
      split; [|split; [|lia]].
      + constructor; [exact Q2| |apply R]. apply Q5; [apply newer_refl|auto|]. cbn. apply G. auto.
      + rewrite <- set_nth_map. apply (trel_plain s P D (hnext h1) (PRun (set_nth f k ss) r (set_nth f here hs)) [] ro _); [|constructor].
        cbn [held]. apply Forall_set_nth; [apply G; auto|]. eapply Forall_impl; [|exact Hs]. intros z Hz.
        eapply good_mono; [exact Hz|apply newer_refl|lia].
    - destruct Q as (g1 & y & Q1 & Q2 & Q3 & Q4 & -> & Q5 & _). injection E as <- <-. rewrite Q1. exists g1.
      cbn [t_prog t_trash t_round t_log conv map_prog estk map]. rewrite set_nth_map. split; [reflexivity|].
      assert (G : forall z, z = here \/ z = y -> good P (hnext h1) z).
      { intros z Hz. apply (fresh_good P h z (hnext h1) (en_content _ _ _ _ _ R)). intros c Hc. apply Q4. destruct Hz as [-> | ->]; auto. }
      split; [|split; [|lia]].
      + constructor; [exact Q2| |apply R]. apply Q5; [apply newer_refl|auto].
      + rewrite <- set_nth_map. apply (trel_plain s P D (hnext h1) (PRun (set_nth f k ss) r (set_nth f here hs)) ([] ++ [y]) ro _).
        * cbn [held]. apply Forall_set_nth; [apply G; auto|]. eapply Forall_impl; [|exact Hs]. intros z Hz.
          eapply good_mono; [exact Hz|apply newer_refl|lia].
        * constructor; [|constructor]. apply good_safe, G. auto.
    - injection E as <- <-. rewrite Q. exists g. cbn [t_prog t_trash t_round t_log stuck conv map_prog estk map].
      split; [unfold stuck; cbn [t_prog t_round t_log]; rewrite held_conv; reflexivity|]. split; [exact R|]. split; [|lia].
      unfold stuck. cbn [t_prog t_round t_log]. rewrite Hp. apply (trel_plain s P D (hnext h) (PStuck hs) [] ro lo); [exact Hs|constructor].
  Qed.

  Lemma sim_recv : forall s P D h g pr ro lo x ss r hs f t k e th' h', hrel s P D h g ->
    Forall (good P (hnext h)) hs -> nth_error hs f = Some e -> held pr = hs ->
    do_recv heap_ops (Thread pr [] ro lo) x ss r hs f t k e h = Some (th', h') ->
    exists g', do_recv heap_ops (Thread (conv s pr) [] ro lo) x ss (enum_stack r) (map (ren s) hs) f t k (ren s e) g
        = Some (Thread (conv s (t_prog th')) (map (ren s) (t_trash th')) (t_round th') (t_log th'), g') /\
      hrel s P D h' g' /\ trel s P D (hnext h') 0 (BThread th' []) (Thread (conv s (t_prog th')) (map (ren s) (t_trash th')) (t_round th') (t_log th')) /\
      hnext h <= hnext h'.
  Proof.
    intros s P D h g pr ro lo x ss r hs f t k e th' h' R Hs He Hp E. unfold do_recv in *. cbn [op_recv heap_ops t_log t_round] in *.
    assert (Ge : good P (hnext h) e). { rewrite Forall_forall in Hs. apply Hs. eapply nth_error_In; eauto. }
    assert (St : exists g', Some (stuck (Thread (conv s pr) [] ro lo), g) = Some (Thread (conv s (t_prog (stuck (Thread pr [] ro lo)))) [] ro lo, g') /\
      hrel s P D h g' /\ trel s P D (hnext h) 0 (BThread (stuck (Thread pr [] ro lo)) []) (Thread (conv s (t_prog (stuck (Thread pr [] ro lo)))) [] ro lo) /\
      hnext h <= hnext h).
    { exists g. unfold stuck. cbn [t_prog t_round t_log]. rewrite held_conv. split; [reflexivity|]. split; [exact R|]. split; [|lia].
      apply (trel_plain s P D (hnext h) (PStuck (held pr)) [] ro lo); [rewrite Hp; exact Hs|constructor]. }
    pose proof (env_recv s P D h g e R Ge) as Q.
    destruct (heap_recv e h) as [w ca h0 h1|h1| |]; try discriminate.
    - destruct Q as (g1 & Q1 & Q2 & Q3 & Q4 & Q5). rewrite Q1. destruct w as [t' v|b l j].
      + destruct ca as [|c0 ca]; cbn [map].
        * destruct (t' =? t); injection E as <- <-; [|exact St]. exists g1. cbn [t_prog t_trash t_round t_log conv map_prog estk map].
          rewrite set_nth_map. split; [reflexivity|]. split; [exact Q2|]. split; [|lia]. rewrite <- set_nth_map.
          apply (trel_plain s P D (hnext h1) (PRun (set_nth f k ss) r (set_nth f h0 hs)) [] ro _); [|constructor]. rewrite Q3.
          cbn [held]. apply Forall_set_nth; [exact Q5|exact Hs].
        * injection E as <- <-. exact St.
      + injection E as <- <-. exact St.
    - destruct Q as (g1 & Q1 & Q2 & Q3). rewrite Q1. injection E as <- <-. exists g1.
      unfold fin. cbn [t_prog t_trash t_round t_log conv map_prog estk map]. rewrite map_without. split; [reflexivity|]. split; [exact Q2|].
      split; [|lia]. apply (trel_plain s P D (hnext h1) (PFin RErr) (without f hs) ro lo); [constructor|].
      apply Forall_without, goods_safe. rewrite Q3. exact Hs.
    - rewrite Q. injection E as <- <-. exact St.
  Qed.

  Lemma sim_offer : forall p s P D h g pr ro lo x hs f b e th' h', hrel s P D h g ->
    Forall (good P (hnext h)) hs -> nth_error hs f = Some e -> held pr = hs ->
    do_offer heap_ops branch labels p (Thread pr [] ro lo) x hs f b e h = Some (th', h') ->
    exists g', do_offer heap_ops (enum_branch branch) labels p (Thread (conv s pr) [] ro lo) x (map (ren s) hs) f b (ren s e) g
        = Some (Thread (conv s (t_prog th')) (map (ren s) (t_trash th')) (t_round th') (t_log th'), g') /\
      hrel s P D h' g' /\ trel s P D (hnext h') 0 (BThread th' []) (Thread (conv s (t_prog th')) (map (ren s) (t_trash th')) (t_round th') (t_log th')) /\
      hnext h <= hnext h'.
  Proof.
    intros p s P D h g pr ro lo x hs f b e th' h' R Hs He Hp E. unfold do_offer in *. cbn [op_recv heap_ops t_log t_round] in *.
    assert (Ge : good P (hnext h) e). { rewrite Forall_forall in Hs. apply Hs. eapply nth_error_In; eauto. }
    assert (St : exists g', Some (stuck (Thread (conv s pr) [] ro lo), g) = Some (Thread (conv s (t_prog (stuck (Thread pr [] ro lo)))) [] ro lo, g') /\
      hrel s P D h g' /\ trel s P D (hnext h) 0 (BThread (stuck (Thread pr [] ro lo)) []) (Thread (conv s (t_prog (stuck (Thread pr [] ro lo)))) [] ro lo) /\
      hnext h <= hnext h).
    { exists g. unfold stuck. cbn [t_prog t_round t_log]. rewrite held_conv. split; [reflexivity|]. split; [exact R|]. split; [|lia].
      apply (trel_plain s P D (hnext h) (PStuck (held pr)) [] ro lo); [rewrite Hp; exact Hs|constructor]. }
    pose proof (env_recv s P D h g e R Ge) as Q.
    destruct (heap_recv e h) as [w ca h0 h1|h1| |]; try discriminate.
    - destruct Q as (g1 & Q1 & Q2 & Q3 & Q4 & Q5). rewrite Q1. destruct w as [t' v|b' l j].
      + injection E as <- <-. exact St.
      + destruct ((b' =? b) && (j =? p) && (l <? labels b)); injection E as <- <-; [|exact St].
        exists g1. cbn [t_prog t_trash t_round t_log conv map_prog estk]. rewrite set_nth_map. split; [reflexivity|]. split; [exact Q2|].
        split; [|lia]. rewrite <- set_nth_map. cbn in Q5.
        apply (trel_plain s P D (hnext h1) (PRun (fst (branch b l p)) (snd (branch b l p)) ca) (set_nth f h0 hs)); rewrite Q3.
        * cbn [held]. exact Q4.
        * apply Forall_set_nth; [exact Q5|apply goods_safe, Hs].
    - destruct Q as (g1 & Q1 & Q2 & Q3). rewrite Q1. injection E as <- <-. exists g1.
      unfold fin. cbn [t_prog t_trash t_round t_log conv map_prog estk map]. rewrite map_without. split; [reflexivity|]. split; [exact Q2|].
      split; [|lia]. apply (trel_plain s P D (hnext h1) (PFin RErr) (without f hs) ro lo); [constructor|].
      apply Forall_without, goods_safe. rewrite Q3. exact Hs.
    - rewrite Q. injection E as <- <-. exact St.
  Qed.

  Lemma sim_close : forall s P D h g a r hs ro lo th' h', hrel s P D h g -> Forall (good P (hnext h)) hs ->
    do_close heap_ops (Thread (PClose a r hs) [] ro lo) a r hs h = Some (th', h') ->
    exists g', do_close heap_ops (Thread (PClose a r (map (ren s) hs)) [] ro lo) a r (map (ren s) hs) g
        = Some (Thread (conv s (t_prog th')) (map (ren s) (t_trash th')) (t_round th') (t_log th'), g') /\
      hrel s P D h' g' /\ trel s P D (hnext h') 0 (BThread th' []) (Thread (conv s (t_prog th')) (map (ren s) (t_trash th')) (t_round th') (t_log th')) /\
      hnext h <= hnext h'.
  Proof.
    intros s P D h g a r hs ro lo th' h' R Hs E. unfold do_close in *. cbn [op_tell op_hear heap_ops t_log t_round] in *.
    rewrite !nth_error_map.
    assert (Go : forall k e, nth_error hs k = Some e -> good P (hnext h) e).
    { intros k e He. rewrite Forall_forall in Hs. apply Hs. eapply nth_error_In; eauto. }
    assert (Fin : forall res h1 g1, hrel s P D h1 g1 -> hnext h1 = hnext h ->
      exists g', Some (fin (Thread (PClose a r (map (ren s) hs)) [] ro lo) res (map (ren s) hs), g1)
        = Some (Thread (conv s (t_prog (fin (Thread (PClose a r hs) [] ro lo) res hs))) (map (ren s) hs) ro lo, g') /\ hrel s P D h1 g' /\
        trel s P D (hnext h1) 0 (BThread (fin (Thread (PClose a r hs) [] ro lo) res hs) []) (Thread (conv s (t_prog (fin (Thread (PClose a r hs) [] ro lo) res hs))) (map (ren s) hs) ro lo) /\
        hnext h <= hnext h1).
    { intros res h1 g1 R1 Hn. exists g1. unfold fin. cbn. split; [reflexivity|]. split; [exact R1|]. split; [|lia].
      apply (trel_plain s P D (hnext h1) (PFin res) hs ro lo); [constructor|]. apply goods_safe. rewrite Hn. exact Hs. }
    assert (St : exists g', Some (stuck (Thread (PClose a r (map (ren s) hs)) [] ro lo), g) = Some (Thread (conv s (t_prog (stuck (Thread (PClose a r hs) [] ro lo)))) [] ro lo, g') /\
      hrel s P D h g' /\ trel s P D (hnext h) 0 (BThread (stuck (Thread (PClose a r hs) [] ro lo)) []) (Thread (conv s (t_prog (stuck (Thread (PClose a r hs) [] ro lo)))) [] ro lo) /\
      hnext h <= hnext h).
    { exists g. unfold stuck. cbn. split; [reflexivity|]. split; [exact R|]. split; [|lia].
      apply (trel_plain s P D (hnext h) (PStuck hs) [] ro lo); [exact Hs|constructor]. }
    destruct (nth_error hs a) as [e|] eqn:Ea; cbn [option_map].
    - pose proof (env_tell s P D h g e Stop R (Go a e Ea)) as Q. destruct (heap_tell e Stop h) as [h1| | |]; try discriminate; rewrite ?Q; injection E as <- <-.
      + destruct Q as (g1 & -> & Q2 & Q3). exists g1. cbn. split; [reflexivity|]. split; [exact Q2|]. split; [|lia].
        apply (trel_plain s P D (hnext h1) (PClose (a + 1) r hs) [] ro lo); [rewrite Q3; exact Hs|constructor].
      + apply Fin; [exact R|reflexivity].
      + exact St.
    - destruct (nth_error hs r) as [e|] eqn:Er; cbn [option_map].
      + pose proof (env_hear s P D h g e R (Go r e Er)) as Q. destruct (heap_hear e h) as [sg h1| | |]; try discriminate; rewrite ?Q.
        * destruct Q as (g1 & -> & Q2 & Q3). destruct sg; injection E as <- <-.
          -- exists g1. cbn. split; [reflexivity|]. split; [exact Q2|]. split; [|lia].
             apply (trel_plain s P D (hnext h1) (PClose a (r + 1) hs) [] ro lo); [rewrite Q3; exact Hs|constructor].
          -- apply Fin; assumption.
        * injection E as <- <-. apply Fin; [exact R|reflexivity].
        * injection E as <- <-. exact St.
      + injection E as <- <-. apply Fin; [exact R|reflexivity].
  Qed.

  (** The two ends made by a send whose continuation is [End]. *)
  Lemma new_end : forall h x y h0, heap_new End h = (x, y, h0) -> exists c1 c2, x = EEnd c1 c2 /\ y = EEnd c2 c1 /\ c1 <> c2.
  Proof. intros h x y h0 E. cbn in E. injection E as <- <- <-. eexists _, _. split; [reflexivity|]. split; [reflexivity|]. lia. Qed.

  Lemma sim_send_choice : forall p s P D h g k b l x e m pend own ro lo late bt' h',
    hrel s P D h g -> 1 <= p <= n ->
    Forall (good P (hnext h)) (held (PChoose b l ((x, e, m) :: pend) own)) -> Forall (gone D) late -> weights late = k ->
    bst p ITau (BThread (Thread (PChoose b l ((x, e, m) :: pend) own) [] ro lo) late) h = Some (bt', h') ->
    follows1 p ITau s P D h g k (Thread (conv s (PChoose b l ((x, e, m) :: pend) own)) [] ro lo) bt' h'.
  Proof.
    intros p s P D h g k b l x e m pend own ro lo late bt' h' R Hp Hh Hlate Hk E.
    unfold btstep in E. cbn [b_th b_late t_trash t_prog t_round t_log op_send heap_ops] in E.
    assert (Hh' : Forall (good P (hnext h)) (held (PChoose b l pend own))).
    { apply Forall_forall. intros z Hz. rewrite Forall_forall in Hh. apply Hh. cbn in *. right.
      apply in_app_iff in Hz. apply in_app_iff. destruct Hz as [Hz|Hz]; [left; apply in_app_iff|]; auto. }
    assert (Ge : good P (hnext h) e) by (inversion Hh; assumption).
    assert (Gm : Forall (good P (hnext h)) m).
    { apply Forall_forall. intros z Hz. rewrite Forall_forall in Hh. apply Hh. cbn. right.
      apply in_app_iff. left. apply in_app_iff. auto. }
    pose proof (env_send s P D h g e (VLabel b l x) m End R Ge Gm) as Q.
    set (E0 := est p ITau (Thread (conv s (PChoose b l ((x, e, m) :: pend) own)) [] ro lo) g).
    assert (Ee : E0 = do_choose_send heap_ops false (Thread (conv s (PChoose b l ((x, e, m) :: pend) own)) [] ro lo) b l x (ren s e) (map (ren s) m)
                  (map (fun '(x, h, m) => (x, ren s h, map (ren s) m)) pend) (map (ren s) own) g) by reflexivity.
    unfold do_choose_send in Ee. cbn [op_send heap_ops t_log t_round] in Ee.
    destruct (heap_send e (VLabel b l x) m End h) as [here h1|here lost h1| |]; try discriminate.
    - destruct Q as (g1 & y & Q1 & Q2 & Q3 & Q4 & Q5 & h0 & Q6). rewrite Q1 in Ee. injection E as <- <-.
      destruct (new_end h here y h0 Q6) as (c1 & c2 & -> & -> & Hc).
      assert (Hc1 : hnext h <= c1 < hnext h1) by (apply Q4; cbn; auto). assert (Hc2 : hnext h <= c2 < hnext h1) by (apply Q4; cbn; auto).
      set (P' := (c1, c2) :: P).
      assert (W : newer (hnext h) P P').
      { split; [intros z Hz; right; exact Hz|]. intros t r [Hz|Hz]; [injection Hz as <- <-; right; lia|auto]. }
      assert (C' : content P' h1).
      { apply Q5; [exact W| |].
        - intros t r [Hz|Hz]; [injection Hz as <- <-; right; lia|auto].
        - cbn. split; [intros c [<-|[<-|[]]]; lia|]. intros [Hz|Hz]; [cbn in Hz; congruence|].
          apply (ct_rx _ _ _ (en_content _ _ _ _ _ R)) in Hz. lia. }
      assert (R' : hrel s P' D h1 g1).
      { constructor; [exact Q2|exact C'|]. intros z Hz. right. apply R, Hz. }
      destruct (ahead p s P' D h1 g1 c1 c2 (conv s (PChoose b l pend own)) ro (lo ++ [EvSend ro x (VLabel b l x)]) R' (or_introl eq_refl))
        as (g2 & E2 & R2).
      exists s, P', ((c1, c2) :: D), g2, (Thread (conv s (PChoose b l pend own)) [] ro (lo ++ [EvSend ro x (VLabel b l x)])), [ITau; ITau; ITau], (k + 2).
      change [ITau; ITau; ITau] with ([ITau] ++ [ITau; ITau]). rewrite ego_app. cbn [ego]. fold E0. rewrite Ee.
      split; [exact E2|]. split; [intros j [<-|[<-|[<-|[]]]]; auto|]. split; [exact R2|].
      split; [|split; [apply agree_refl|split; [exact W|split; [intros z Hz; right; exact Hz|split; [lia|cbn; lia]]]]].
      constructor; cbn [b_th b_late t_prog t_trash t_round t_log].
      + exists [], [], (late ++ [EEnd c1 c2]), []. rewrite !app_nil_r. cbn [app map].
        split; [reflexivity|]. split; [reflexivity|]. split; [reflexivity|]. split; [auto|]. split; [auto|]. split; [constructor|].
        split; [|split; [auto|split; [constructor|]]].
        * apply Forall_app. split; [|constructor; [left; reflexivity|constructor]].
          eapply Forall_impl; [|exact Hlate]. intros z. apply gone_more. intros q Hq. right; exact Hq.
        * rewrite weights_app. cbn. lia.
      + eapply Forall_impl; [|exact Hh']. intros z Hz. eapply good_mono; [exact Hz|exact W|lia].
      + left. exact I.
    - destruct Q as (g1 & y & Q1 & Q2 & Q3 & Q4 & -> & Q5 & h0 & Q6). rewrite Q1 in Ee. injection E as <- <-.
      destruct (new_end h here y h0 Q6) as (c1 & c2 & -> & -> & Hc).
      assert (Hc1 : hnext h <= c1 < hnext h1) by (apply Q4; cbn; auto). assert (Hc2 : hnext h <= c2 < hnext h1) by (apply Q4; cbn; auto).
      set (P' := (c1, c2) :: P).
      assert (W : newer (hnext h) P P').
      { split; [intros z Hz; right; exact Hz|]. intros t r [Hz|Hz]; [injection Hz as <- <-; right; lia|auto]. }
      assert (C' : content P' h1).
      { apply Q5; [exact W|]. intros t r [Hz|Hz]; [injection Hz as <- <-; right; lia|auto]. }
      assert (R' : hrel s P' D h1 g1).
      { constructor; [exact Q2|exact C'|]. intros z Hz. right. apply R, Hz. }
      exists s, P', D, g1, (Thread (conv s (PChoose b l pend own)) (map (ren s) ((m ++ [EEnd c2 c1]) ++ [EEnd c1 c2])) ro (lo ++ [EvSend ro x (VLabel b l x)])), [ITau], k.
      cbn [ego]. fold E0. rewrite Ee. split.
      { rewrite (map_app (ren s) (m ++ [EEnd c2 c1])). reflexivity. }
      split; [intros j [<-|[]]; auto|]. split; [exact R'|].
      split; [|split; [apply agree_refl|split; [exact W|split; [apply incl_refl|split; [lia|cbn; lia]]]]].
      constructor; cbn [b_th b_late t_prog t_trash t_round t_log].
      + exists [], (m ++ [EEnd c2 c1]), late, [EEnd c1 c2]. cbn [app].
        split; [reflexivity|]. split; [reflexivity|]. split; [reflexivity|]. split; [auto|]. split; [intros Hz; destruct m; discriminate|]. split; [constructor|].
        split; [exact Hlate|]. split; [right; exists c1, c2; split; [reflexivity|]; split; [left; reflexivity|lia]|]. split; [|exact Hk].
        apply Forall_app. split.
        * eapply Forall_impl; [|exact Gm]. intros z Hz. apply good_safe. eapply good_mono; [exact Hz|exact W|lia].
        * constructor; [|constructor]. split; [intros c [<-|[<-|[]]]; lia|]. intros [Hz|Hz]; [cbn in Hz; congruence|].
          apply (ct_rx _ _ _ (en_content _ _ _ _ _ R)) in Hz. lia.
      + eapply Forall_impl; [|exact Hh']. intros z Hz. eapply good_mono; [exact Hz|exact W|lia].
      + left. exact I.
    - rewrite Q in Ee. injection E as <- <-. eapply follows_one; [fold E0; rewrite Ee; reflexivity|exact R|apply stuck_trel; exact Hh|lia].
  Qed.

  (** *** Any step of a thread *)
  Lemma sim_thread : forall p i s P D h g k bt et bt' h', 1 <= p <= n -> hrel s P D h g -> trel s P D (hnext h) k bt et ->
    bst p i bt h = Some (bt', h') -> follows1 p i s P D h g k et bt' h'.
  Proof.
    intros p i s P D h g k bt et bt' h' Hp R T E.
    destruct (t_trash (b_th bt)) as [|x0 rest] eqn:Et; [|eapply sim_drop; eauto; congruence].
    destruct bt as [[pr tr ro lo] late]. cbn [b_th b_late t_trash t_prog t_round t_log] in *. subst tr.
    destruct (at_rest _ _ _ _ _ _ _ _ _ _ T) as (-> & Hlate & Hk & Hh & Hl). clear T.
    assert (Go : forall th' h1 g1, est p i (Thread (conv s pr) [] ro lo) g
                 = Some (Thread (conv s (t_prog th')) (map (ren s) (t_trash th')) (t_round th') (t_log th'), g1) ->
              hrel s P D h1 g1 -> trel s P D (hnext h1) 0 (BThread th' []) (Thread (conv s (t_prog th')) (map (ren s) (t_trash th')) (t_round th') (t_log th')) ->
              hnext h <= hnext h1 -> follows1 p i s P D h g k (Thread (conv s pr) [] ro lo) (BThread th' []) h1).
    { intros th' h1 g1 Q1 Q2 Q3 Q4. eapply follows_one; eauto. }
    unfold btstep in E. cbn [b_th b_late t_trash t_prog t_round t_log] in E.
    destruct pr as [ss r hs|b l pend own|a c hs|res|hs].
    - (* PRun *)
      assert (late = []) as -> by (destruct Hl as [[]|Hl]; exact Hl). cbn [held] in Hh.
      assert (Cr : i = ICrash -> Some (bt', h') = option_map (fun '(th', s') => (BThread th' [], s'))
                 (tstep heap_ops n branch labels false p i (Thread (PRun ss r hs) [] ro lo) h) ->
              follows1 p i s P D h g k (Thread (conv s (PRun ss r hs)) [] ro lo) bt' h').
      { intros -> Q. cbn in Q. injection Q as -> ->. apply (Go (fin (Thread (PRun ss r hs) [] ro lo) RCrash hs) h g); [reflexivity|exact R| |lia].
        apply (trel_plain s P D (hnext h) (PFin RCrash) hs ro lo); [constructor|apply goods_safe, Hh]. }
      destruct r as [| |x r'|x r'|x r1 r2|x r1 r2]; cbn [conv map_prog estk enum_stack] in *.
      + (* close *)
        destruct i as [|v|l|]; [|cbn in E; discriminate|cbn in E; discriminate|apply Cr; [reflexivity|symmetry; exact E]].
        cbn in E. destruct (forallb is_end ss) eqn:Ee; [|discriminate]. cbn in E. injection E as <- <-.
        apply (Go (Thread (PClose 0 0 hs) [] ro (lo ++ [EvClose])) h g); [cbn; rewrite Ee; reflexivity|exact R| |lia].
        apply (trel_plain s P D (hnext h) (PClose 0 0 hs) [] ro _); [exact Hh|constructor].
      + destruct i; try discriminate. apply Cr; [reflexivity|symmetry; exact E].
      + (* send, recv *)
        destruct i as [|v|l|]; [| |exfalso|apply Cr; [reflexivity|symmetry; exact E]].
        * destruct (nth_error ss (comm_field p x - 1)) as [[|[t|? ?] t0|[t|? ?] t0]|] eqn:Es; try discriminate.
          -- exfalso. cbn in E. rewrite Es in E. destruct (callable n p x); cbn in E; try discriminate.
          -- cbn in E. rewrite Es in E. destruct (callable n p x) eqn:Ec; [|discriminate].
             destruct (nth_error hs (comm_field p x - 1)) as [e|] eqn:Eh; [|discriminate].
             match type of E with option_map _ ?D = _ => destruct D as [[th' h1]|] eqn:Ed; [|discriminate] end.
             cbn in E. injection E as <- <-.
             destruct (sim_recv s P D h g (PRun ss (SRole x r') hs) ro lo x ss r' hs _ t t0 e th' h1 R Hh Eh eq_refl Ed) as (g1 & Q1 & Q2 & Q3 & Q4).
             apply (Go th' h1 g1); auto. cbn. rewrite Ec, Es, nth_error_map, Eh. exact Q1.
        * destruct (nth_error ss (comm_field p x - 1)) as [[|[t|? ?] t0|[t|? ?] t0]|] eqn:Es; try discriminate.
          -- cbn in E. rewrite Es in E. destruct (callable n p x) eqn:Ec; [|discriminate].
             destruct (nth_error hs (comm_field p x - 1)) as [e|] eqn:Eh; [|discriminate].
             match type of E with option_map _ ?D = _ => destruct D as [[th' h1]|] eqn:Ed; [|discriminate] end.
             cbn in E. injection E as <- <-.
             destruct (sim_send s P D h g (PRun ss (SRole x r') hs) ro lo x ss r' hs _ t v t0 e th' h1 R Hh Hh Eh eq_refl Ed) as (g1 & Q1 & Q2 & Q3 & Q4).
             apply (Go th' h1 g1); auto. cbn. rewrite Ec, Es, nth_error_map, Eh. exact Q1.
          -- exfalso. cbn in E. rewrite Es in E. destruct (callable n p x); cbn in E; try discriminate.
        * destruct (nth_error ss (comm_field p x - 1)) as [[|[t|? ?] t0|[t|? ?] t0]|]; try discriminate.
      + destruct i; try discriminate. apply Cr; [reflexivity|symmetry; exact E].
      + (* choose *)
        destruct i as [|v|l|]; try discriminate; [|apply Cr; [reflexivity|symmetry; exact E]].
        destruct (choice_of p ss) as [b|] eqn:Ec; [|discriminate].
        destruct (may_choose branch labels p x b r1 r2 && (l <? 2)) eqn:Em; [|discriminate].
        apply andb_prop in Em. destruct Em as [Em El]. unfold may_choose in Em. apply andb_prop in Em. destruct Em as [Em _].
        apply andb_prop in Em. destruct Em as [Em _]. apply andb_prop in Em. destruct Em as [_ Eb]. apply Nat.eqb_eq in Eb. apply Nat.ltb_lt in El.
        assert (Hlb : l < labels b) by lia. assert (Eb' : (l <? labels b) = true) by (apply Nat.ltb_lt; exact Hlb).
        pose proof (proj1 make_ok p s P D h g b l hs R Hp Hlb Hh) as Ek. destruct (make p b l hs h) as [[pr h1]|]; injection E as <- <-.
        * destruct Ek as (s' & g' & K1 & K2 & K3 & K4 & K5 & K6).
          exists s', P, D, g', (Thread (conv s' pr) [] ro lo), [ILabel l], 0. cbn [ego]. unfold tstep. cbn [t_trash t_prog t_round t_log].
          rewrite Ec, Eb', K1. split; [reflexivity|]. split; [intros j [<-|[]]; auto|]. split; [exact K2|].
          split; [apply (trel_plain s' P D (hnext h1) pr [] ro lo); [exact K5|constructor]|].
          split; [exact K3|]. split; [apply newer_refl|]. split; [apply incl_refl|]. split; [exact K4|cbn; lia].
        * eapply follows_one; [|exact R| |lia].
          -- unfold tstep. cbn [t_trash t_prog t_round t_log]. rewrite Ec, Eb'.
             rewrite Ek. reflexivity.
          -- apply (stuck_trel s P D (hnext h) (PRun ss (SToAll x r1 r2) hs) ro lo). exact Hh.
      + (* offer *)
        destruct i as [|v|l|]; [|destruct r1; try discriminate; destruct r2; discriminate|destruct r1; try discriminate; destruct r2; discriminate
          |apply Cr; [reflexivity|destruct r1; try (symmetry; exact E); destruct r2; symmetry; exact E]].
        destruct r1; try discriminate. destruct r2; try discriminate.
        destruct (callable n p x && (any_rest || rest_end (comm_field p x - 1) ss)) eqn:Ec; [|discriminate]. apply andb_prop in Ec. destruct Ec as [Ec _].
        destruct (nth_error ss (comm_field p x - 1)) as [[|? ?|[?|b j] [|? ?|? ?]]|] eqn:Es; try discriminate.
        destruct (nth_error hs (comm_field p x - 1)) as [e|] eqn:Eh; [|discriminate].
        destruct (j =? p) eqn:Ej; [|discriminate].
        match type of E with option_map _ ?D = _ => destruct D as [[th' h1]|] eqn:Ed; [|discriminate] end.
        cbn in E. injection E as <- <-.
        destruct (sim_offer p s P D h g (PRun ss (SAllTo x SEnd SEnd) hs) ro lo x hs _ b e th' h1 R Hh Eh eq_refl Ed) as (g1 & Q1 & Q2 & Q3 & Q4).
        apply (Go th' h1 g1); auto. cbn. rewrite Ec, Es, nth_error_map, Eh. cbn. rewrite Ej. exact Q1.
    - (* PChoose *)
      destruct i as [|v|l0|]; try (destruct pend; discriminate). destruct pend as [|[[x e] m] pend].
      + injection E as <- <-. exists s, P, D, g, (Thread (conv s (PRun (fst (branch b l p)) (snd (branch b l p)) own)) [] (S ro) lo), [ITau], k.
        split; [reflexivity|]. split; [intros j [<-|[]]; auto|]. split; [exact R|].
        split; [|split; [apply agree_refl|split; [apply newer_refl|split; [apply incl_refl|split; [lia|cbn; lia]]]]].
        constructor; cbn [b_th b_late t_prog t_trash t_round t_log].
        * exists late, [], [], []. rewrite !app_nil_r. split; [reflexivity|]. split; [reflexivity|]. split; [reflexivity|].
          split; [auto|]. split; [auto|]. split; [exact Hlate|]. split; [constructor|]. split; [auto|]. split; [constructor|]. cbn. lia.
        * cbn [held]. cbn in Hh. exact Hh.
        * right. reflexivity.
      + eapply sim_send_choice; eauto.
    - (* PClose *)
      assert (late = []) as -> by (destruct Hl as [[]|Hl]; exact Hl). cbn [held] in Hh.
      destruct i as [|v|l|]; try discriminate; cbn in E.
      + match type of E with option_map _ ?D = _ => destruct D as [[th' h1]|] eqn:Ed; [|discriminate] end.
        cbn in E. injection E as <- <-.
        destruct (sim_close s P D h g a c hs ro lo th' h1 R Hh Ed) as (g1 & Q1 & Q2 & Q3 & Q4).
        apply (Go th' h1 g1); auto.
      + injection E as <- <-. apply (Go (fin (Thread (PClose a c hs) [] ro lo) RCrash hs) h g); [reflexivity|exact R| |lia].
        apply (trel_plain s P D (hnext h) (PFin RCrash) hs ro lo); [constructor|apply goods_safe, Hh].
    - discriminate.
    - discriminate.
  Qed.
End Sim.

(** ** The generated code *)
Section Generated.
  Variable n : nat.
  Variable branch : nat -> nat -> nat -> mty.
  Variable labels : nat -> nat.
  Hypothesis branch_dual : forall b l, l < labels b -> dual_mesh n (branch b l).

  Lemma sim_choose : forall p s P D h g b l hs pr h', hrel s P D h g -> 1 <= p <= n -> l < labels b -> Forall (good P (hnext h)) hs ->
    bmake_choice heap_ops n branch p b l hs h = Some (pr, h') ->
    exists s' g', make_choice heap_ops n (enum_branch branch) p b l (map (ren s) hs) g = Some (conv s' pr, g') /\
      hrel s' P D h' g' /\ agree (hnext h) s s' /\ hnext h <= hnext h' /\ Forall (good P (hnext h')) (held pr) /\ choosing pr.
  Proof.
    intros p s P D h g b l hs pr h' R Hp Hl Hs E. rewrite bmake_choice_wire in E by exact Hp. rewrite make_choice_wire.
    destruct (alloc heap_ops (pair_types n (bchoose_vars n p) (branch b l)) h) as [pl h1] eqn:Ea.
    destruct (alloc_turn _ (first_is n p) s P D h g pl h1 R Ea) as (s' & pe & g' & K1 & K2 & K3 & K4 & K5 & K6).
    assert (Et : pair_types n (choose_vars n) (enum_branch branch b l) = cos (first_is n p) (pair_types n (bchoose_vars n p) (branch b l))).
    { rewrite <- bchoice_types by (apply branch_dual, Hl). reflexivity. }
    rewrite Et, K1, K2. destruct (wire n p b l hs (turns (first_is n p) pl)) as [pr0|] eqn:Ew; [|discriminate]. injection E as <- <-.
    exists s', g'.
    assert (Em : map (ren s) hs = map (ren s') hs).
    { symmetry. eapply map_ren_agree; [exact K4|]. eapply Forall_impl; [|exact Hs]. intros e He. apply He. }
    rewrite Em, wire_natural, Ew. cbn [option_map].
    assert (Hc : choosing pr0).
    { unfold wire in Ew. destruct (choose_sends n p); [|discriminate]. destruct (choose_own n p); [|discriminate].
      destruct (all_some _); [|discriminate]. destruct (pick_all _ _); [|discriminate]. injection Ew as <-. exact I. }
    split; [destruct pr0; cbn in *; try contradiction; reflexivity|]. split; [exact K3|]. split; [exact K4|]. split; [exact K5|].
    split; [|exact Hc]. apply Forall_forall. intros e He. destruct (wire_in _ _ _ _ _ _ _ _ _ Ew He) as [H|H].
    - rewrite Forall_forall in Hs. eapply good_mono; [apply Hs, H|apply newer_refl|exact K5].
    - apply turns_flat in H. apply (fresh_good P h e (hnext h1) (en_content _ _ _ _ _ R)). apply K6, H.
  Qed.
  Lemma sim_choose_none : forall p s P D h g b l hs, hrel s P D h g -> 1 <= p <= n -> l < labels b -> Forall (good P (hnext h)) hs ->
    bmake_choice heap_ops n branch p b l hs h = None ->
    make_choice heap_ops n (enum_branch branch) p b l (map (ren s) hs) g = None.
  Proof.
    intros p s P D h g b l hs R Hp Hl Hs E. rewrite bmake_choice_wire in E by exact Hp. rewrite make_choice_wire.
    destruct (alloc heap_ops (pair_types n (bchoose_vars n p) (branch b l)) h) as [pl h1] eqn:Ea.
    destruct (alloc_turn _ (first_is n p) s P D h g pl h1 R Ea) as (s' & pe & g' & K1 & K2 & K3 & K4 & K5 & K6).
    assert (Et : pair_types n (choose_vars n) (enum_branch branch b l) = cos (first_is n p) (pair_types n (bchoose_vars n p) (branch b l))).
    { rewrite <- bchoice_types by (apply branch_dual, Hl). reflexivity. }
    rewrite Et, K1, K2. destruct (wire n p b l hs (turns (first_is n p) pl)) as [pr0|] eqn:Ew; [discriminate|].
    assert (Em : map (ren s) hs = map (ren s') hs).
    { symmetry. eapply map_ren_agree; [exact K4|]. eapply Forall_impl; [|exact Hs]. intros e He. apply He. }
    rewrite Em, wire_natural, Ew. reflexivity.
  Qed.
  Lemma bmake_prog : forall p b l hs h pr h', bmake_choice heap_ops n branch p b l hs h = Some (pr, h') ->
    exists pend own, pr = PChoose b l pend own.
  Proof.
    intros p b l hs h pr h' E. unfold bmake_choice in E. destruct (alloc heap_ops _ h) as [pl h1].
    destruct (bchoose_sender n p); [|discriminate]. destruct (all_some _); [|discriminate]. destruct (all_some _); [|discriminate].
    destruct (pick_all pl _); [|discriminate]. injection E as <- _. eauto.
  Qed.
  Lemma generated_makes : makes n branch labels (bmake_choice heap_ops n branch).
  Proof.
    split; [|exact bmake_prog]. intros p s P D h g b l hs R Hp Hl Hs.
    destruct (bmake_choice heap_ops n branch p b l hs h) as [[pr h']|] eqn:E; [eapply sim_choose; eauto|eapply sim_choose_none; eauto].
  Qed.
End Generated.
