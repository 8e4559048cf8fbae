(** * Facts about the search for a regular expression *)

From Coq Require Import Ascii String Bool Arith Lia List.
From Verif Require Import Checker CheckerText Nuscr NuscrMaps Regex.
Import ListNotations.

(** ** Which strings an expression matches *)

Inductive den : re -> str -> Prop :=
| den_eps : den Eps []
| den_chr p c : p c = true -> den (Chr p) [c]
| den_seq a b u v : den a u -> den b v -> den (Seq a b) (u ++ v)
| den_alt_l a b u : den a u -> den (Alt a b) u
| den_alt_r a b u : den b u -> den (Alt a b) u
| den_star_nil a : den (Star a) []
| den_star_cons a u v : u <> [] -> den a u -> den (Star a) v -> den (Star a) (u ++ v)
| den_cap n a u : den a u -> den (Cap n a) u.

Lemma ways_den r : forall e s e' s', In (e', s') (ways r e s) -> exists u, s = u ++ s' /\ den r u.
Proof.
  induction r as [|p|a IHa b IHb|a IHa b IHb|a IHa|n a IHa]; intros e s e' s'; cbn [ways].
  - intros [[= <- <-]|[]]. exists []. split; [reflexivity|constructor].
  - destruct s as [|c s]; [easy|]. destruct (p c) eqn:E; [|easy]. intros [[= <- <-]|[]].
    exists [c]. split; [reflexivity|now constructor].
  - intros H. apply in_flat_map in H as ([e1 s1] & H1 & H2). cbn [fst snd] in H2.
    apply IHa in H1 as (u & -> & Hu). apply IHb in H2 as (v & -> & Hv).
    exists (u ++ v). rewrite app_assoc. split; [reflexivity|now constructor].
  - intros H. apply in_app_iff in H as [H|H]; [apply IHa in H|apply IHb in H]; destruct H as (u & -> & Hu);
      exists u; (split; [reflexivity|]); [now apply den_alt_l|now apply den_alt_r].
  - generalize (length s) as fuel. intros fuel. revert e s.
    induction fuel as [|fuel IH]; intros e s; cbn [rounds].
    + intros [[= <- <-]|[]]. exists []. split; [reflexivity|constructor].
    + intros H. apply in_app_iff in H as [H|[[= <- <-]|[]]]; [|exists []; split; [reflexivity|constructor]].
      apply in_flat_map in H as ([e1 s1] & H1 & H2). cbn [fst snd] in H2.
      destruct (length s1 <? length s)%nat eqn:L; [|easy]. apply Nat.ltb_lt in L.
      apply IHa in H1 as (u & -> & Hu). apply IH in H2 as (v & -> & Hv).
      exists (u ++ v). rewrite app_assoc. split; [reflexivity|]. apply den_star_cons; try assumption.
      intros ->. cbn in L. lia.
  - intros H. apply in_map_iff in H as ([e1 s1] & [= <- <-] & H). cbn [snd].
    apply IHa in H as (u & -> & Hu). exists u. split; [reflexivity|now constructor].
Qed.

Lemma den_ways r u : den r u -> forall e s, exists e', In (e', s) (ways r e (u ++ s)).
Proof.
  induction 1 as [|p c E|a b u v Hu IHu Hv IHv|a b u Hu IHu|a b u Hu IHu|a|a u v Hne Hu IHu Hv IHv|n a u Hu IHu];
    intros e s; cbn [ways].
  - exists e. now left.
  - cbn [app]. rewrite E. exists e. now left.
  - rewrite <- app_assoc. destruct (IHu e (v ++ s)) as (e1 & H1). destruct (IHv e1 s) as (e2 & H2).
    exists e2. apply in_flat_map. exists (e1, v ++ s). now split.
  - destruct (IHu e s) as (e1 & H). exists e1. apply in_app_iff. now left.
  - destruct (IHu e s) as (e1 & H). exists e1. apply in_app_iff. now right.
  - exists e. destruct (length ([] ++ s)); cbn; [now left|]. apply in_app_iff. right. now left.
  - rewrite <- app_assoc. destruct (IHu e (v ++ s)) as (e1 & H1). destruct (IHv e1 s) as (e2 & H2).
    exists e2. assert (forall fuel fuel' e s x, (length s <= fuel)%nat -> (length s <= fuel')%nat ->
      In x (rounds (ways a) fuel e s) -> In x (rounds (ways a) fuel' e s)) as K.
    { induction fuel as [|fuel IH]; intros fuel' e0 s0 x L L'; cbn [rounds].
      - intros [<-|[]]. destruct fuel'; cbn; [now left|]. apply in_app_iff. right. now left.
      - intros H. apply in_app_iff in H as [H|[<-|[]]];
          [|destruct fuel'; cbn; [now left|]; apply in_app_iff; right; now left].
        apply in_flat_map in H as (y & Hy & H). destruct (length (snd y) <? length s0)%nat eqn:Ly; [|easy].
        apply Nat.ltb_lt in Ly. destruct fuel' as [|fuel']; [lia|]. cbn [rounds]. apply in_app_iff. left.
        apply in_flat_map. exists y. split; [exact Hy|]. apply Nat.ltb_lt in Ly as Ly'. rewrite Ly'.
        apply IH; [lia|lia|exact H]. }
    destruct u as [|c u]; [easy|]. cbn [app length rounds] in *. apply in_app_iff. left.
    apply in_flat_map. exists (e1, v ++ s). split; [exact H1|]. cbn [fst snd].
    assert (length (v ++ s) < S (length (u ++ v ++ s)))%nat as L by (rewrite (app_length u); lia).
    apply Nat.ltb_lt in L as L'. rewrite L'. refine (K _ _ _ _ _ _ _ H2); [reflexivity|lia].
  - destruct (IHu e s) as (e1 & H). eexists. apply in_map_iff. exists (e1, s). now split.
Qed.

Lemma search_none r s : (forall a u b, s = a ++ u ++ b -> ~ den r u) -> search r s = None.
Proof.
  induction s as [|c s IH]; intros H; cbn [search].
  - destruct (ways r [] []) as [|[e s'] l] eqn:E; [reflexivity|]. exfalso.
    destruct (ways_den r [] [] e s') as (u & E1 & Hu); [rewrite E; now left|]. exact (H [] u s' E1 Hu).
  - destruct (ways r [] (c :: s)) as [|[e s'] l] eqn:E.
    + apply IH. intros a u b E1. apply (H (c :: a) u b). now rewrite E1.
    + exfalso. destruct (ways_den r [] (c :: s) e s') as (u & E1 & Hu); [rewrite E; now left|]. exact (H [] u s' E1 Hu).
Qed.

Lemma search_skip r u s : (forall v a, u = a ++ v -> v <> [] -> ways r [] (v ++ s) = []) ->
  search r (u ++ s) = search r s.
Proof.
  induction u as [|c u IH]; intros H; [reflexivity|]. cbn [app search].
  rewrite <- IH; [|intros v a E Hv; apply (H v (c :: a)); [now rewrite E|exact Hv]].
  pose proof (H (c :: u) [] eq_refl ltac:(discriminate)) as E. cbn [app] in E. rewrite E. reflexivity.
Qed.

Lemma search_here r s x l : ways r [] s = x :: l -> search r s = Some x.
Proof. intros E. destruct s; cbn [search]; now rewrite E. Qed.

(** ** What an expression may start with *)

Fixpoint nullable (r : re) : bool :=
  match r with
  | Eps | Star _ => true
  | Chr _ => false
  | Seq a b => nullable a && nullable b
  | Alt a b => nullable a || nullable b
  | Cap _ a => nullable a
  end.
Fixpoint starts (r : re) (c : ascii) : bool :=
  match r with
  | Eps => false
  | Chr p => p c
  | Seq a b => starts a c || nullable a && starts b c
  | Alt a b => starts a c || starts b c
  | Star a => starts a c
  | Cap _ a => starts a c
  end.

Lemma den_starts r u : den r u ->
  (u = [] /\ nullable r = true) \/ (exists c t, u = c :: t /\ starts r c = true).
Proof.
  induction 1 as [|p c E|a b u v Hu IHu Hv IHv|a b u Hu IHu|a b u Hu IHu|a|a u v Hne Hu IHu Hv IHv|n a u Hu IHu];
    cbn [nullable starts].
  - now left.
  - right. exists c, []. now split.
  - destruct IHu as [[-> Nu]|(c & t & -> & Sc)].
    + destruct IHv as [[-> Nv]|(c & t & -> & Sc)].
      * left. now rewrite Nu, Nv.
      * right. exists c, t. split; [reflexivity|]. rewrite Nu, Sc. apply orb_true_r.
    + right. exists c, (t ++ v). split; [reflexivity|]. now rewrite Sc.
  - destruct IHu as [[-> Nu]|(c & t & -> & Sc)]; [left; now rewrite Nu|right].
    exists c, t. split; [reflexivity|]. now rewrite Sc.
  - destruct IHu as [[-> Nu]|(c & t & -> & Sc)]; [left|right].
    + rewrite Nu. now rewrite orb_true_r.
    + exists c, t. split; [reflexivity|]. rewrite Sc. apply orb_true_r.
  - now left.
  - destruct IHu as [[-> Nu]|(c & t & -> & Sc)]; [easy|right]. exists c, (t ++ v). now split.
  - exact IHu.
Qed.

Lemma ways_nil r e s : (forall u s', s = u ++ s' -> ~ den r u) -> ways r e s = [].
Proof.
  intros H. destruct (ways r e s) as [|[e' s'] l] eqn:E; [reflexivity|]. exfalso.
  destruct (ways_den r e s e' s') as (u & E1 & Hu); [rewrite E; now left|]. exact (H u s' E1 Hu).
Qed.

(** [k] cannot go on with a character of [p]. *)
Definition refuses (p : ascii -> bool) (k : re) : Prop :=
  forall c e s, p c = true -> ways k e (c :: s) = [].
Definition refuses_b (p : ascii -> bool) (k : re) : bool :=
  negb (nullable k) && forallb (fun n => let c := ascii_of_nat n in negb (p c && starts k c)) (seq 0 256).

Lemma no_start k c e s : nullable k = false -> starts k c = false -> ways k e (c :: s) = [].
Proof.
  intros Nk Sk. apply ways_nil. intros u s' E Hu. apply den_starts in Hu as [[-> Nu]|(c' & t & -> & Sc)].
  - congruence.
  - cbn in E. injection E as <- _. congruence.
Qed.

Lemma refuses_ok p k : refuses_b p k = true -> refuses p k.
Proof.
  unfold refuses_b. rewrite andb_true_iff, negb_true_iff, forallb_forall. intros [Nk H] c e s Hc.
  apply no_start; [exact Nk|].
  assert (In (nat_of_ascii c) (seq 0 256)) as Hin by (apply in_seq; pose proof (nat_ascii_bounded c); lia).
  specialize (H _ Hin). cbv beta zeta in H. rewrite ascii_nat_embedding, Hc in H. cbn [andb] in H.
  now apply negb_true_iff.
Qed.

Lemma no_end k e : nullable k = false -> ways k e [] = [].
Proof.
  intros Nk. apply ways_nil. intros u s' E Hu. apply den_starts in Hu as [[-> Nu]|(c' & t & -> & Sc)].
  - congruence.
  - discriminate.
Qed.

(** ** Steps *)

Definition stops (p : ascii -> bool) (s : str) : Prop := match s with c :: _ => p c = false | [] => True end.

(** The ends of a text, the shortest first. *)
Fixpoint ends (w : str) : list str := match w with [] => [[]] | _ :: w' => ends w' ++ [w] end.
Lemma ends_first w : exists l, ends w = [] :: l.
Proof. induction w as [|c w [l E]]; cbn; [now exists []|]. rewrite E. now exists (l ++ [c :: w]). Qed.
Lemma in_ends v w : In v (ends w) -> exists u, w = u ++ v.
Proof.
  induction w as [|c w IH]; cbn; [intros [<-|[]]; now exists []|].
  intros H. apply in_app_iff in H as [H|[<-|[]]]; [|now exists []].
  apply IH in H as [u ->]. now exists (c :: u).
Qed.

Lemma rounds_chr p w : Forall (fun c => p c = true) w -> forall fuel e s, stops p s ->
  (length (w ++ s) <= fuel)%nat ->
  rounds (ways (Chr p)) fuel e (w ++ s) = map (fun v => (e, v ++ s)) (ends w).
Proof.
  induction 1 as [|c w Hc Hw IH]; intros fuel e s Hs L; cbn [ends].
  - destruct fuel as [|fuel]; [reflexivity|]. cbn [rounds app]. destruct s as [|c s]; cbn [ways]; [reflexivity|].
    cbn in Hs. now rewrite Hs.
  - cbn [app length] in L. destruct fuel as [|fuel]; [lia|]. cbn [rounds app ways]. rewrite Hc.
    cbn [flat_map fst snd length app]. rewrite (proj2 (Nat.ltb_lt _ _)) by lia.
    rewrite app_nil_r, IH, map_app by (assumption || lia). reflexivity.
Qed.

Lemma ways_star p w e s : Forall (fun c => p c = true) w -> stops p s ->
  ways (Star (Chr p)) e (w ++ s) = map (fun v => (e, v ++ s)) (ends w).
Proof. intros Hw Hs. apply (rounds_chr p w Hw _ e s Hs). reflexivity. Qed.

Lemma ways_plus p w e s : w <> [] -> Forall (fun c => p c = true) w -> stops p s ->
  exists l, ways (Plus (Chr p)) e (w ++ s) = (e, s) :: map (fun v => (e, v ++ s)) l /\
    (forall v, In v l -> exists u, w = u ++ v /\ v <> []).
Proof.
  intros Hne Hw Hs. destruct Hw as [|c w Hc Hw]; [easy|]. unfold Plus.
  change (ways (Seq (Chr p) (Star (Chr p))) e ((c :: w) ++ s)) with
    (flat_map (fun x => ways (Star (Chr p)) (fst x) (snd x)) (if p c then [(e, w ++ s)] else [])).
  rewrite Hc. cbn [flat_map]. rewrite app_nil_r. cbn [fst snd]. rewrite (ways_star p w e s Hw Hs).
  clear Hne. assert (exists l, ends w = [] :: l /\ forall v, In v l -> exists u, w = u ++ v /\ v <> []) as (l & E & H).
  { clear Hc Hw Hs. induction w as [|d w IH]; cbn [ends]; [exists []; split; [reflexivity|easy]|].
    destruct IH as (l & E & H). rewrite E. exists (l ++ [d :: w]). split; [reflexivity|]. intros v Hv.
    apply in_app_iff in Hv as [Hv|[<-|[]]]; [destruct (H v Hv) as (u & -> & Hn); exists (d :: u); now split|].
    exists []. split; [reflexivity|discriminate]. }
  rewrite E. exists l. split; [reflexivity|]. intros v Hv. destruct (H v Hv) as (u & -> & Hn). exists (c :: u).
  now split.
Qed.

Lemma step_lit w k e s : ways (Lit w k) e (w ++ s) = ways k e s.
Proof.
  induction w as [|c w IH]; [reflexivity|]. cbn [Lit ways app]. rewrite Ascii.eqb_refl. cbn [flat_map fst snd].
  now rewrite app_nil_r.
Qed.

Lemma refused p k e s w : refuses p k -> Forall (fun c => p c = true) w -> w <> [] -> ways k e (w ++ s) = [].
Proof. intros R H Hne. destruct H as [|c w Hc Hw]; [easy|]. apply R, Hc. Qed.

Lemma flat_map_nil {A B} (f : A -> list B) l : (forall x, In x l -> f x = []) -> flat_map f l = [].
Proof. induction l as [|x l IH]; intros H; [reflexivity|]. cbn. rewrite H by now left. apply IH. firstorder. Qed.

Lemma forall_end {A} (P : A -> Prop) w u v : Forall P w -> w = u ++ v -> Forall P v.
Proof. intros H ->. now apply Forall_app in H. Qed.

Lemma step_star p k w e s : refuses_b p k = true -> Forall (fun c => p c = true) w -> stops p s ->
  ways (Seq (Star (Chr p)) k) e (w ++ s) = ways k e s.
Proof.
  intros R Hw Hs. apply refuses_ok in R.
  change (flat_map (fun x => ways k (fst x) (snd x)) (ways (Star (Chr p)) e (w ++ s)) = ways k e s).
  rewrite (ways_star p w e s Hw Hs).
  assert (forall w' : list str, (forall v, In v w' -> v = [] \/ exists c v', v = c :: v' /\ p c = true) ->
    forall l, flat_map (fun x => ways k (fst x) (snd x)) (map (fun v => (e, v ++ s)) ([] :: w')) = l ->
    (forall v, In v w' -> v <> []) -> l = ways k e s) as K.
  { intros w' H l <- Hn. cbn [map flat_map fst snd app]. rewrite flat_map_nil; [apply app_nil_r|].
    intros x Hx. apply in_map_iff in Hx as (v & <- & Hv). cbn [fst snd].
    destruct (H v Hv) as [->|(c & v' & -> & Hc)]; [now apply Hn in Hv|]. now apply R. }
  assert (exists l, ends w = [] :: l /\ forall v, In v l -> v <> [] /\ exists u, w = u ++ v) as (l & E & Hl).
  { clear. induction w as [|d w IH]; cbn [ends]; [exists []; split; [reflexivity|easy]|].
    destruct IH as (l & E & H). rewrite E. exists (l ++ [d :: w]). split; [reflexivity|]. intros v Hv.
    apply in_app_iff in Hv as [Hv|[<-|[]]]; [destruct (H v Hv) as (Hn & u & ->); split; [exact Hn|now exists (d :: u)]|].
    split; [discriminate|]. now exists []. }
  rewrite E. apply (K l); [|reflexivity|apply Hl]. intros v Hv. destruct (Hl v Hv) as (Hn & u & Ew).
  right. destruct v as [|c v]; [easy|]. exists c, v. split; [reflexivity|].
  pose proof (forall_end _ _ _ _ Hw Ew) as F. now inversion F.
Qed.

Lemma step_plus p k w e s : refuses_b p k = true -> w <> [] -> Forall (fun c => p c = true) w -> stops p s ->
  ways (Seq (Plus (Chr p)) k) e (w ++ s) = ways k e s.
Proof.
  intros R Hne Hw Hs. apply refuses_ok in R.
  change (flat_map (fun x => ways k (fst x) (snd x)) (ways (Plus (Chr p)) e (w ++ s)) = ways k e s).
  destruct (ways_plus p w e s Hne Hw Hs) as (l & -> & H). cbn [flat_map fst snd].
  rewrite flat_map_nil; [apply app_nil_r|]. intros x Hx. apply in_map_iff in Hx as (v & <- & Hv).
  destruct (H v Hv) as (u & E & Hn). cbn [fst snd]. apply (refused p); try assumption.
  exact (forall_end _ _ _ _ Hw E).
Qed.

Lemma firstn_read (w s : str) : firstn (length (w ++ s) - length s) (w ++ s) = w.
Proof.
  rewrite app_length. replace (length w + length s - length s)%nat with (length w) by lia.
  rewrite firstn_app, Nat.sub_diag, firstn_all. apply app_nil_r.
Qed.

Lemma step_cap p n k w e s : refuses_b p k = true -> w <> [] -> Forall (fun c => p c = true) w -> stops p s ->
  ways (Seq (Cap n (Plus (Chr p))) k) e (w ++ s) = ways k (hset n w e) s.
Proof.
  intros R Hne Hw Hs. apply refuses_ok in R.
  change (flat_map (fun x => ways k (fst x) (snd x))
    (map (fun x => (hset n (firstn (length (w ++ s) - length (snd x)) (w ++ s)) (fst x), snd x))
       (ways (Plus (Chr p)) e (w ++ s))) = ways k (hset n w e) s).
  destruct (ways_plus p w e s Hne Hw Hs) as (l & -> & H). cbn [map flat_map fst snd].
  rewrite firstn_read. rewrite flat_map_nil; [apply app_nil_r|]. intros x Hx.
  apply in_map_iff in Hx as (y & <- & Hy). apply in_map_iff in Hy as (v & <- & Hv).
  destruct (H v Hv) as (u & E & Hn). cbn [fst snd]. apply (refused p); try assumption.
  exact (forall_end _ _ _ _ Hw E).
Qed.

(** The end of an expression: the longest word comes first. *)
Lemma last_cap p n w e s : w <> [] -> Forall (fun c => p c = true) w -> stops p s ->
  exists l, ways (Cap n (Plus (Chr p))) e (w ++ s) = (hset n w e, s) :: l.
Proof.
  intros Hne Hw Hs.
  change (ways (Cap n (Plus (Chr p))) e (w ++ s)) with
    (map (fun x => (hset n (firstn (length (w ++ s) - length (snd x)) (w ++ s)) (fst x), snd x))
       (ways (Plus (Chr p)) e (w ++ s))).
  destruct (ways_plus p w e s Hne Hw Hs) as (l & -> & H). cbn [map fst snd]. rewrite firstn_read. eauto.
Qed.

(** The first way of a sequence. *)
Lemma first_seq a b e s e1 s1 l x l' :
  ways a e s = (e1, s1) :: l -> ways b e1 s1 = x :: l' -> exists l'', ways (Seq a b) e s = x :: l''.
Proof. intros E1 E2. cbn [ways]. rewrite E1. cbn [flat_map fst snd]. rewrite E2. cbn. eauto. Qed.

Lemma fail_lit w k e s : strip w s = None -> ways (Lit w k) e s = [].
Proof.
  revert s. induction w as [|c w IH]; intros [|d s]; cbn [strip Lit ways]; try easy.
  destruct (Ascii.eqb c d); [|easy]. intros H. cbn [flat_map fst snd]. now rewrite IH.
Qed.

(** ** Groups that are not touched *)

Fixpoint caps (r : re) (n : str) : bool :=
  match r with
  | Eps | Chr _ => false
  | Seq a b | Alt a b => caps a n || caps b n
  | Star a => caps a n
  | Cap m a => seqb m n || caps a n
  end.

Lemma hget_hset_other {A} (k k' : str) (a : A) m : k <> k' -> hget (hset k a m) k' = hget m k'.
Proof.
  intros H. induction m as [|[k1 a1] m IH]; cbn [hset hget].
  - apply seqb_false in H. now rewrite H.
  - destruct (seqb k1 k) eqn:E; cbn [hget].
    + apply seqb_true in E. subst k1. apply seqb_false in H. now rewrite H.
    + destruct (seqb k1 k'); [reflexivity|exact IH].
Qed.
Lemma hget_hset {A} (k : str) (a : A) m : hget (hset k a m) k = Some a.
Proof.
  induction m as [|[k1 a1] m IH]; cbn [hset hget].
  - now rewrite seqb_refl.
  - destruct (seqb k1 k) eqn:E; cbn [hget]; rewrite E; [reflexivity|exact IH].
Qed.

Lemma ways_keep r n : caps r n = false -> forall e s e' s', In (e', s') (ways r e s) -> hget e' n = hget e n.
Proof.
  induction r as [|p|a IHa b IHb|a IHa b IHb|a IHa|m a IHa]; cbn [caps]; intros C e s e' s'; cbn [ways];
    rewrite ?orb_false_iff in C.
  - now intros [[= <- <-]|[]].
  - destruct s as [|c s]; [easy|]. destruct (p c); [|easy]. now intros [[= <- <-]|[]].
  - intros H. apply in_flat_map in H as ([e1 s1] & H1 & H2). cbn [fst snd] in H2.
    rewrite (IHb (proj2 C) _ _ _ _ H2). apply (IHa (proj1 C) _ _ _ _ H1).
  - intros H. apply in_app_iff in H as [H|H]; [apply (IHa (proj1 C) _ _ _ _ H)|apply (IHb (proj2 C) _ _ _ _ H)].
  - generalize (length s) as fuel. intros fuel. revert e s.
    induction fuel as [|fuel IH]; intros e s; cbn [rounds]; [now intros [[= <- <-]|[]]|].
    intros H. apply in_app_iff in H as [H|[[= <- <-]|[]]]; [|easy].
    apply in_flat_map in H as ([e1 s1] & H1 & H2). cbn [fst snd] in H2.
    destruct (length s1 <? length s)%nat; [|easy]. rewrite (IH _ _ H2). apply (IHa C _ _ _ _ H1).
  - intros H. apply in_map_iff in H as ([e1 s1] & [= <- <-] & H). destruct C as [C1 C2].
    rewrite hget_hset_other; [exact (IHa C2 _ _ _ _ H)|]. now apply seqb_false in C1.
Qed.

(** ** What every match contains *)

Definition wide (P : str -> Prop) : Prop := forall a u b, P u -> P (a ++ u ++ b).
Definition every (P : str -> Prop) (r : re) : Prop := forall u, den r u -> P u.

Lemma every_none P r s : wide P -> every P r -> ~ P s -> search r s = None.
Proof. intros W E N. apply search_none. intros a u b -> Hu. apply N, W, E, Hu. Qed.
Lemma every_l P a b : wide P -> every P a -> every P (Seq a b).
Proof. intros W E u H. inversion H; subst. apply (W []). now apply E. Qed.
Lemma every_r P a b : wide P -> every P b -> every P (Seq a b).
Proof.
  intros W E u H. inversion H; subst. rewrite <- (app_nil_r v), app_assoc, <- app_assoc. apply (W u0 v []). now apply E.
Qed.
Lemma every_lit P w k : wide P -> every P k -> every P (Lit w k).
Proof. intros W E. induction w as [|c w IH]; [exact E|]. cbn [Lit]. now apply every_r. Qed.

Definition has (c : ascii) (s : str) : Prop := In c s.
Lemma wide_has c : wide (has c).
Proof. intros a u b H. unfold has in *. rewrite !in_app_iff. auto. Qed.

(** A character of [p] just before one of [q]. *)
Definition pair (p q : ascii -> bool) (s : str) : Prop :=
  exists a c d b, s = a ++ c :: d :: b /\ p c = true /\ q d = true.
Lemma wide_pair p q : wide (pair p q).
Proof.
  intros a u b (a' & c & d & b' & -> & Hc & Hd). exists (a ++ a'), c, d, (b' ++ b).
  rewrite <- !app_assoc. now split.
Qed.

Lemma den_plus p u : den (Plus (Chr p)) u -> u <> [] /\ Forall (fun c => p c = true) u.
Proof.
  intros H. inversion H as [| |? ? u1 u2 H1 H2| | | | |]; subst. inversion H1; subst.
  split; [discriminate|]. constructor; [assumption|].
  clear H H1. remember (Star (Chr p)) as r eqn:E. revert E.
  induction H2 as [| | | | | |? ? ? ? Hu ? ? IH|]; intros [=]; subst; [constructor|].
  inversion Hu; subst. constructor; [assumption|now apply IH].
Qed.

(** The last character of each match is one of [p]. *)
Definition last_in (p : ascii -> bool) (a : re) : Prop :=
  forall u, den a u -> exists v c, u = v ++ [c] /\ p c = true.
Lemma last_plus p : last_in p (Plus (Chr p)).
Proof.
  intros u H. apply den_plus in H as [Hne Hp]. destruct (exists_last Hne) as (v & c & ->). exists v, c.
  split; [reflexivity|]. apply Forall_app in Hp as [_ Hp]. now inversion Hp.
Qed.
Lemma last_cap_plus n p : last_in p (Cap n (Plus (Chr p))).
Proof. intros u H. inversion H; subst. now apply last_plus. Qed.

(** The first character of each match is one of [q]. *)
Definition first_b (q : ascii -> bool) (b : re) : bool :=
  negb (nullable b) && forallb (fun n => let c := ascii_of_nat n in implb (starts b c) (q c)) (seq 0 256).
Lemma first_ok q b u : first_b q b = true -> den b u -> exists d t, u = d :: t /\ q d = true.
Proof.
  unfold first_b. rewrite andb_true_iff, negb_true_iff, forallb_forall. intros [Nb H] Hu.
  apply den_starts in Hu as [[-> Nu]|(c & t & -> & Sc)]; [congruence|]. exists c, t. split; [reflexivity|].
  assert (In (nat_of_ascii c) (seq 0 256)) as Hin by (apply in_seq; pose proof (nat_ascii_bounded c); lia).
  specialize (H _ Hin). cbv beta zeta in H. rewrite ascii_nat_embedding, Sc in H. exact H.
Qed.

Lemma every_pair p q a b : last_in p a -> first_b q b = true -> every (pair p q) (Seq a b).
Proof.
  intros Ha Hb u H. inversion H as [| |? ? u1 u2 H1 H2| | | | |]; subst.
  apply Ha in H1 as (v & c & -> & Hc). apply (first_ok q) in H2 as (d & t & -> & Hd); [|exact Hb].
  exists v, c, d, t. rewrite <- app_assoc. now split.
Qed.

Lemma every_chr c : every (has c) (Chr (Ascii.eqb c)).
Proof. intros u H. inversion H as [|p d E| | | | | |]; subst. apply Ascii.eqb_eq in E. subst. now left. Qed.
