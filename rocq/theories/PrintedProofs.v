(** What the printed form of a type determines. *)
From Coq Require Import Arith Bool String Ascii Lia.
From Verif Require Import Types TypesProofs.
From Coq Require Import List.
From Verif Require Import PrintedTypes.
Import ListNotations.
Open Scope list_scope.

(** ** Specification *)

(** A type without its payloads, clocks and windows. *)
Fixpoint shape {P} (t : ty P) : ty unit :=
  match t with
  | TEnd => TEnd
  | TSend _ s | TSendT _ _ s => TSend tt (shape s)
  | TRecv _ s | TRecvT _ _ s => TRecv tt (shape s)
  | TMesh ss r n => TMesh (map shape ss) r n
  end.
(** The roles of a stack and of a type. *)
Fixpoint stack_roles (r : stack) : list nat :=
  match r with
  | SEnd | SBroadcast => []
  | SRole x r | SRoleDual x r => x :: stack_roles r
  | SToAll x r1 r2 | SAllTo x r1 r2 => x :: stack_roles r1 ++ stack_roles r2
  end.
Fixpoint ty_roles {P} (t : ty P) : list nat :=
  match t with
  | TEnd => []
  | TSend _ s | TSendT _ _ s | TRecv _ s | TRecvT _ _ s => ty_roles s
  | TMesh ss r n => flat_map ty_roles ss ++ stack_roles r ++ [n]
  end.
(** Rust accepts the names: they have no bracket and no line feed, and no two structs have one name. *)
Fixpoint has (c : ascii) (s : string) : bool :=
  match s with EmptyString => false | String d s' => if Ascii.eqb c d then true else has c s' end.
Definition plain (s : string) : bool := negb (has "<" s) && negb (has (ascii_of_nat 10) s).
Definition good_names (nm : nat -> string) (roles : list nat) : Prop :=
  (forall x, In x roles -> plain (nm x) = true) /\
  (forall k k' x x', In x roles -> In x' roles -> struct_name nm k x = struct_name nm k' x' -> k = k' /\ x = x') /\
  (forall x x', In x roles -> In x' roles -> nm x = nm x' -> x = x').

(** ** Strings *)

Open Scope string_scope.
Lemma app_assoc_s : forall a b c : string, (a ++ b) ++ c = a ++ b ++ c.
Proof. induction a as [|x a IH]; intros; cbn; [reflexivity|]. rewrite IH. reflexivity. Qed.
Lemma app_nil_s : forall a : string, a ++ "" = a.
Proof. induction a as [|x a IH]; cbn; [reflexivity|]. rewrite IH. reflexivity. Qed.
Lemma app_inj_l : forall a b c : string, a ++ b = a ++ c -> b = c.
Proof. induction a as [|x a IH]; intros b c H; [exact H|]. cbn in H. injection H as H. apply IH. exact H. Qed.
Lemma has_app : forall c a b, has c (a ++ b) = has c a || has c b.
Proof. intros c. induction a as [|x a IH]; intros b; [reflexivity|]. cbn. destruct (Ascii.eqb c x); [reflexivity|]. apply IH. Qed.
(** Two texts that are equal have the same part before the first [c]. *)
Lemma cut : forall c a a' x x', has c a = false -> has c a' = false -> a ++ String c x = a' ++ String c x' -> a = a' /\ x = x'.
Proof.
  intros c. induction a as [|d a IH]; intros [|d' a'] x x' H H' E; cbn in E.
  - injection E as ->. split; reflexivity.
  - injection E as -> E. cbn in H'. rewrite Ascii.eqb_refl in H'. discriminate H'.
  - injection E as -> E. cbn in H. rewrite Ascii.eqb_refl in H. discriminate H.
  - injection E as -> E. cbn in H, H'. destruct (Ascii.eqb c d'); [discriminate|]. destruct (IH a' x x' H H' E) as [-> ->]. split; reflexivity.
Qed.
(** The number of line feeds. *)
Fixpoint nls (s : string) : nat :=
  match s with EmptyString => 0 | String d s' => (if Ascii.eqb (ascii_of_nat 10) d then 1 else 0) + nls s' end%nat.
Lemma nls_app : forall a b, nls (a ++ b) = (nls a + nls b)%nat.
Proof. induction a as [|x a IH]; intros b; [reflexivity|]. cbn [nls append]. rewrite IH. lia. Qed.
Lemma nls_none : forall a, has (ascii_of_nat 10) a = false -> nls a = 0%nat.
Proof. induction a as [|x a IH]; intros H; [reflexivity|]. cbn [nls has] in *. destruct (Ascii.eqb (ascii_of_nat 10) x); [discriminate H|]. rewrite IH by exact H. reflexivity. Qed.
Lemma nls_nl : nls nl = 1%nat. Proof. reflexivity. Qed.
Lemma app_nonempty : forall a b : string, a <> "" -> a ++ b <> "".
Proof. intros [|x a] b H; [contradiction|]. discriminate. Qed.

(** ** The variable [result] *)

Definition more (hs : list string) : string := List.fold_right (fun h acc => nl ++ h ++ acc) "" hs.
Lemma lines_acc : forall hs acc, acc <> "" -> fold_left add_line hs acc = acc ++ more hs.
Proof.
  induction hs as [|h hs IH]; intros acc H; cbn [fold_left more fold_right]; [symmetry; apply app_nil_s|].
  unfold add_line at 2. destruct (String.eqb_spec acc ""); [contradiction|]. rewrite IH by (apply app_nonempty; exact H).
  rewrite !app_assoc_s. reflexivity.
Qed.
Lemma lines_cons : forall h hs, h <> "" -> lines (h :: hs) = h ++ more hs.
Proof. intros h hs H. unfold lines. cbn [fold_left]. change (add_line "" h) with h. apply lines_acc. exact H. Qed.

Section Names.
  Variable nm : nat -> string.

  Definition rfull (r : stack) : string := rhead nm r ++ "<" ++ rtail nm r ++ ">".
  Definition full {P} (t : ty P) : string := head nm t ++ "<" ++ tail nm t ++ ">".

  Lemma rhead_Ro : forall r, exists s, rhead nm r = String "R" (String "o" s).
  Proof. intros [| |x r|x r|x r1 r2|x r1 r2]; cbn; eexists; reflexivity. Qed.
  Lemma rtail_one : forall x r, rtail nm (SRole x r) = rfull r. Proof. reflexivity. Qed.
  Lemma rtail_two : forall x r1 r2, rtail nm (SToAll x r1 r2) = rfull r1 ++ " + " ++ rfull r2.
  Proof. intros. unfold rfull. cbn [rtail]. rewrite !app_assoc_s. reflexivity. Qed.
  Lemma plain_has : forall s, plain s = true -> has "<" s = false /\ has (ascii_of_nat 10) s = false.
  Proof. intros s H. unfold plain in H. apply andb_true_iff in H as [H1 H2]. apply negb_true_iff in H1, H2. split; assumption. Qed.
  Lemma plain_app : forall a b, plain a = true -> plain b = true -> plain (a ++ b) = true.
  Proof.
    intros a b Ha Hb. apply plain_has in Ha as [A1 A2], Hb as [B1 B2]. unfold plain. rewrite !has_app, A1, A2, B1, B2. reflexivity.
  Qed.
  Lemma rhead_plain : forall r, (forall x, In x (stack_roles r) -> plain (nm x) = true) -> plain (rhead nm r) = true.
  Proof.
    intros [| |x r|x r|x r1 r2|x r1 r2] H; try reflexivity; unfold rhead, struct_name;
      repeat (apply plain_app; [reflexivity|] || (apply plain_app; [apply H; left; reflexivity|]) || reflexivity); apply H; left; reflexivity.
  Qed.

  (** *** Stacks *)

  Lemma rfull_cut : forall r r' x x', (forall y, In y (stack_roles r) -> plain (nm y) = true) -> (forall y, In y (stack_roles r') -> plain (nm y) = true) ->
    rfull r ++ x = rfull r' ++ x' -> rhead nm r = rhead nm r' /\ rtail nm r ++ ">" ++ x = rtail nm r' ++ ">" ++ x'.
  Proof.
    intros r r' x x' H H' E. unfold rfull in E. rewrite !app_assoc_s in E. apply cut in E; [exact E| |]; apply plain_has, rhead_plain; assumption.
  Qed.

  Variable roles : list nat.
  Hypothesis G : good_names nm roles.
  Lemma plain_in : forall x, In x roles -> plain (nm x) = true. Proof. exact (proj1 G). Qed.
  Lemma rplain : forall r, incl (stack_roles r) roles -> forall y, In y (stack_roles r) -> plain (nm y) = true.
  Proof. intros r I y Hy. apply plain_in, I, Hy. Qed.

  Definition rkind (r : stack) : option (kind * nat) :=
    match r with
    | SEnd | SBroadcast => None
    | SRole x _ => Some (KRole, x) | SRoleDual x _ => Some (KDual, x)
    | SToAll x _ _ => Some (KToAll, x) | SAllTo x _ _ => Some (KAllTo, x)
    end.
  Lemma rhead_kind : forall r r', incl (stack_roles r) roles -> incl (stack_roles r') roles -> rhead nm r = rhead nm r' ->
    rkind r <> None -> rkind r' <> None -> rkind r = rkind r'.
  Proof.
    intros r r' I I' E N N'. destruct G as [_ [S _]].
    assert (X : forall r, rkind r <> None -> incl (stack_roles r) roles -> exists k x, rkind r = Some (k, x) /\ rhead nm r = struct_name nm k x /\ In x roles).
    { intros s Hs Is. destruct s as [| |x s|x s|x s1 s2|x s1 s2]; try (contradiction Hs; reflexivity);
        (do 2 eexists; split; [reflexivity|]; split; [reflexivity|apply Is; left; reflexivity]). }
    destruct (X r N I) as (k & x & E1 & E2 & I1), (X r' N' I') as (k' & x' & E1' & E2' & I1').
    rewrite E2, E2' in E. destruct (S _ _ _ _ I1 I1' E) as [-> ->]. congruence.
  Qed.
  Lemma rfull_Ro : forall r x, exists s, rfull r ++ x = String "R" (String "o" s).
  Proof. intros r x. unfold rfull. destruct (rhead_Ro r) as [s ->]. eexists. cbn [append]. reflexivity. Qed.

  Lemma incl_one : forall (x : nat) l m, incl (x :: l) m -> incl l m.
  Proof. intros x l m H y Hy. apply H. right. exact Hy. Qed.
  Lemma incl_l : forall (x : nat) l1 l2 m, incl (x :: l1 ++ l2) m -> incl l1 m /\ incl l2 m.
  Proof. intros x l1 l2 m H. split; intros y Hy; apply H; right; apply in_or_app; [left|right]; exact Hy. Qed.

  (** No printed stack is the beginning of another. *)
  Lemma rfull_exact : forall r r' x x', incl (stack_roles r) roles -> incl (stack_roles r') roles ->
    rfull r ++ x = rfull r' ++ x' -> r = r' /\ x = x'.
  Proof.
    assert (One : forall r y, exists s, rfull r ++ y = String "R" s) by (intros r y; destruct (rfull_Ro r y) as [s ->]; eexists; reflexivity).
    induction r as [| |a r IH|a r IH|a r1 IH1 r2 IH2|a r1 IH1 r2 IH2]; intros r' x x' I I' E;
      pose proof (rfull_cut _ _ _ _ (rplain _ I) (rplain _ I') E) as [EH ET]; clear E;
      destruct r' as [| |a' r'|a' r'|a' r1' r2'|a' r1' r2'];
      repeat match goal with
      | E : context [rtail nm (SToAll ?a ?r1 ?r2)] |- _ => rewrite (rtail_two a r1 r2) in E
      | E : context [rtail nm (SAllTo ?a ?r1 ?r2)] |- _ => change (rtail nm (SAllTo a r1 r2)) with (rtail nm (SToAll a r1 r2)) in E
      | E : context [rtail nm (SRole ?a ?r)] |- _ => change (rtail nm (SRole a r)) with (rfull r) in E
      | E : context [rtail nm (SRoleDual ?a ?r)] |- _ => change (rtail nm (SRoleDual a r)) with (rfull r) in E
      | E : context [rtail nm SEnd] |- _ => change (rtail nm SEnd) with "" in E
      | E : context [rtail nm SBroadcast] |- _ => change (rtail nm SBroadcast) with "" in E
      end; rewrite ?app_assoc_s in ET;
      try (discriminate EH);
      try (injection ET as ET; split; [reflexivity|exact ET]);
      try (match type of ET with
           | "" ++ _ = rfull ?r ++ ?y => destruct (One r y) as [s Es]; rewrite Es in ET; discriminate ET
           | rfull ?r ++ ?y = "" ++ _ => destruct (One r y) as [s Es]; rewrite Es in ET; discriminate ET
           end);
      (assert (K := rhead_kind _ _ I I' EH ltac:(discriminate) ltac:(discriminate)); cbn [rkind] in K; try discriminate K; injection K as K; subst a').
    - apply IH in ET as [-> ET]; [injection ET as ET; split; [reflexivity|exact ET]|apply (incl_one a), I|apply (incl_one a), I'].
    - apply IH in ET as [-> ET]; [injection ET as ET; split; [reflexivity|exact ET]|apply (incl_one a), I|apply (incl_one a), I'].
    - apply incl_l in I as [I1 I2], I' as [I1' I2']. apply IH1 in ET as [-> ET]; [|assumption..]. apply app_inj_l in ET. rewrite ?app_assoc_s in ET.
      apply IH2 in ET as [-> ET]; [|assumption..]. injection ET as ET. split; [reflexivity|exact ET].
    - apply incl_l in I as [I1 I2], I' as [I1' I2']. apply IH1 in ET as [-> ET]; [|assumption..]. apply app_inj_l in ET. rewrite ?app_assoc_s in ET.
      apply IH2 in ET as [-> ET]; [|assumption..]. injection ET as ET. split; [reflexivity|exact ET].
  Qed.

  (** *** Sessions *)

  Section Two.
    Context {P Q : Type}.

    Lemma head_nonempty : forall {A} (t : ty A), head nm t <> "".
    Proof.
      intros A t. destruct t as [| | | | |ss r n]; try discriminate. cbn [head]. intros H. apply (f_equal nls) in H.
      rewrite !nls_app, nls_nl in H. cbn [nls] in H. lia.
    Qed.
    Lemma full_nonempty : forall {A} (t : ty A), full t <> "".
    Proof. intros A t. unfold full. apply app_nonempty, head_nonempty. Qed.
    Lemma lines_full : forall {A} (s : ty A) ss, lines (map (fun s => full s) (s :: ss)) = full s ++ more (map (fun s => full s) ss).
    Proof. intros A s ss. cbn [map]. apply lines_cons, full_nonempty. Qed.

    Lemma more_has : forall c hs, has c nl = false -> (forall h, In h hs -> has c h = false) -> has c (more hs) = false.
    Proof.
      intros c hs Hn. induction hs as [|h hs IH]; intros H; [reflexivity|]. cbn [more fold_right]. rewrite !has_app, Hn, (H h) by (left; reflexivity).
      apply IH. intros h' Hh. apply H. right. exact Hh.
    Qed.
    Lemma head_open : forall {A} (t : ty A), incl (ty_roles t) roles -> has "<" (head nm t) = false.
    Proof.
      intros A t. induction t as [|p s IH|p s IH|p w s IH|p w s IH|ss r n IH] using ty_ind'; intros I; try reflexivity.
      cbn [head]. cbn [ty_roles] in I. rewrite !has_app.
      assert (HR : has "<" (rhead nm r) = false).
      { apply plain_has, rhead_plain. intros x Hx. apply plain_in, I, in_or_app. right. apply in_or_app. left. exact Hx. }
      assert (HN : has "<" (nhead nm n) = false).
      { unfold nhead. rewrite has_app. apply plain_has, plain_in, I, in_or_app. right. apply in_or_app. right. left. reflexivity. }
      rewrite HR, HN. change (has "<" nl) with false. rewrite !orb_false_r.
      assert (F : forall h, In h (map (head nm) ss) -> has "<" h = false).
      { intros h Hh. apply in_map_iff in Hh as (s & <- & Hs). rewrite Forall_forall in IH. apply IH; [exact Hs|].
        intros x Hx. apply I, in_or_app. left. apply in_flat_map. exists s. split; assumption. }
      destruct ss as [|s ss]; [reflexivity|]. cbn [map] in *. rewrite lines_cons by apply head_nonempty. rewrite has_app, (F _ (or_introl eq_refl)).
      apply more_has; [reflexivity|]. intros h Hh. apply F. right. exact Hh.
    Qed.
    (** A printed session does not begin like a stack. *)
    Lemma head_not_Ro : forall {A} (t : ty A) x s, head nm t ++ x <> String "R" (String "o" s).
    Proof.
      intros A t. induction t as [|p t IH|p t IH|p w t IH|p w t IH|ss r n IH] using ty_ind'; intros x s; try discriminate.
      cbn [head]. destruct ss as [|t ss]; [discriminate|]. cbn [map]. rewrite lines_cons by apply head_nonempty. rewrite !app_assoc_s.
      inversion IH as [|? ? H _]. apply H.
    Qed.
    (** The head has no line feed, or two. *)
    Lemma head_nls : forall {A} (t : ty A), match t with TMesh _ _ _ => 2 <= nls (head nm t) | _ => nls (head nm t) = 0 end%nat.
    Proof. intros A [| | | | |ss r n]; try reflexivity. cbn [head]. rewrite !nls_app, nls_nl. lia. Qed.

    Definition rest (r : stack) (n : nat) (x : string) : string := nl ++ rfull r ++ nl ++ nhead nm n ++ "<>" ++ x.
    Definition texts {A} (ss : list (ty A)) : string := more (map (fun s => full s) ss).
    Lemma rest_exact : forall r n r' n' x x', incl (stack_roles r ++ [n]) roles -> incl (stack_roles r' ++ [n']) roles ->
      rest r n x = rest r' n' x' -> r = r' /\ n = n' /\ x = x'.
    Proof.
      intros r n r' n' x x' I I' E. unfold rest in E. apply app_inj_l in E.
      apply rfull_exact in E as [-> E]; [|intros y Hy; apply I, in_or_app; left; exact Hy|intros y Hy; apply I', in_or_app; left; exact Hy].
      apply app_inj_l in E. unfold nhead in E. rewrite !app_assoc_s in E. apply app_inj_l in E. split; [reflexivity|].
      assert (In n roles) by (apply I, in_or_app; right; left; reflexivity). assert (In n' roles) by (apply I', in_or_app; right; left; reflexivity).
      apply cut in E as [E1 E2]; [|apply plain_has, plain_in; assumption..]. cbn in E2. injection E2 as E2. split; [apply (proj2 (proj2 G)); assumption|exact E2].
    Qed.
    Lemma full_rest : forall {A} (s : ty A) y r n x, nl ++ full s ++ y <> rest r n x.
    Proof.
      intros A s y r n x E. unfold rest in E. apply app_inj_l in E. destruct (rfull_Ro r (nl ++ nhead nm n ++ "<>" ++ x)) as [s' Es]. rewrite Es in E.
      unfold full in E. rewrite !app_assoc_s in E. exact (head_not_Ro _ _ _ E).
    Qed.
    Lemma items_exact : forall (ss : list (ty P)) (ss' : list (ty Q)) r n r' n' x x',
      Forall (fun t => forall (u : ty Q) x x', incl (ty_roles t) roles -> incl (ty_roles u) roles -> full t ++ x = full u ++ x' -> shape t = shape u /\ x = x') ss ->
      incl (flat_map ty_roles ss ++ stack_roles r ++ [n]) roles -> incl (flat_map ty_roles ss' ++ stack_roles r' ++ [n']) roles ->
      texts ss ++ rest r n x = texts ss' ++ rest r' n' x' -> map shape ss = map shape ss' /\ r = r' /\ n = n' /\ x = x'.
    Proof.
      unfold texts. induction ss as [|s ss IH]; intros [|s' ss'] r n r' n' x x' F I I' E; cbn [map more fold_right] in E.
      - apply rest_exact in E as (-> & -> & ->); [repeat split|exact I|exact I'].
      - exfalso. rewrite ?app_assoc_s in E. symmetry in E. exact (full_rest _ _ _ _ _ E).
      - exfalso. rewrite ?app_assoc_s in E. exact (full_rest _ _ _ _ _ E).
      - rewrite ?app_assoc_s in E. apply app_inj_l in E. inversion F as [|? ? Fs Fss]; subst. cbn [flat_map] in I, I'.
        apply Fs in E as [E1 E2]; [| |].
        + apply IH in E2 as (E2 & -> & -> & ->); [|exact Fss| |].
          * cbn [map]. rewrite E1, E2. repeat split.
          * intros y Hy. apply I. rewrite <- List.app_assoc. apply in_or_app. right. exact Hy.
          * intros y Hy. apply I'. rewrite <- List.app_assoc. apply in_or_app. right. exact Hy.
        + intros y Hy. apply I. rewrite <- List.app_assoc. apply in_or_app. left. exact Hy.
        + intros y Hy. apply I'. rewrite <- List.app_assoc. apply in_or_app. left. exact Hy.
    Qed.
    Lemma tail_mesh : forall {A} (ss : list (ty A)) r n x,
      tail nm (TMesh ss r n) ++ ">" ++ x = lines (map (fun s => full s) ss) ++ rest r n (">" ++ x).
    Proof. intros A ss r n x. cbn [tail]. unfold rest, rfull, full, ntail. rewrite !app_assoc_s. reflexivity. Qed.
    Lemma lines_texts : forall {A} (s : ty A) ss, nl ++ lines (map (fun s => full s) (s :: ss)) = texts (s :: ss).
    Proof. intros A s ss. rewrite lines_full. reflexivity. Qed.
    (** A printed session at the beginning of a list is not the rest of an empty one. *)
    Lemma full_not_rest : forall {A} (s : ty A) y r n x, incl (ty_roles s) roles -> incl (stack_roles r) roles -> full s ++ y <> rest r n x.
    Proof.
      intros A s y r n x I Ir E. unfold full, rest, rfull in E. rewrite !app_assoc_s in E.
      change (nl ++ rhead nm r ++ "<" ++ rtail nm r ++ ">" ++ nl ++ nhead nm n ++ "<>" ++ x)
        with ((nl ++ rhead nm r) ++ String "<" (rtail nm r ++ ">" ++ nl ++ nhead nm n ++ "<>" ++ x)) in E.
      assert (PR := rhead_plain r (rplain _ Ir)). apply plain_has in PR as [PR1 PR2].
      apply cut in E as [E _]; [|apply head_open; exact I|rewrite has_app, PR1; reflexivity].
      apply (f_equal nls) in E. rewrite nls_app, nls_nl, (nls_none _ PR2) in E. pose proof (head_nls s) as N. destruct s; lia.
    Qed.

    (** No printed session is the beginning of another with another shape. *)
    Lemma full_exact : forall (t : ty P) (u : ty Q) x x', incl (ty_roles t) roles -> incl (ty_roles u) roles ->
      full t ++ x = full u ++ x' -> shape t = shape u /\ x = x'.
    Proof.
      induction t as [|p t IH|p t IH|p w t IH|p w t IH|ss r n IH] using ty_ind'; intros u x x' I I' E;
        pose proof E as E0; unfold full in E; rewrite !app_assoc_s in E; apply cut in E as [EH ET]; try (apply head_open; assumption);
        pose proof (head_nls u) as N; destruct u as [|p' u|p' u|p' w' u|p' w' u|ss' r' n']; try discriminate EH;
        try (rewrite <- EH in N; cbn in N; lia);
        try (injection ET as ET; split; [reflexivity|exact ET]);
        try (change (full t ++ ">" ++ x = full u ++ ">" ++ x') in ET; apply IH in ET as [E1 ET]; [|exact I|exact I'];
             injection ET as ET; split; [cbn [shape]; rewrite E1; reflexivity|exact ET]);
        try (exfalso; pose proof (head_nls (TMesh ss r n)) as N1; cbv beta iota in N1; rewrite EH in N1; cbn in N1; lia).
      rewrite !tail_mesh in ET. cbn [ty_roles] in I, I'.
      destruct ss as [|s ss], ss' as [|s' ss'].
      - apply (items_exact [] []) in ET as (_ & -> & -> & ET); [|constructor|exact I|exact I']. injection ET as ET. split; [reflexivity|exact ET].
      - exfalso. rewrite lines_full, app_assoc_s in ET. symmetry in ET. apply full_not_rest in ET; [exact ET| |].
        + intros y Hy. apply I'. cbn [flat_map]. apply in_or_app. left. apply in_or_app. left. exact Hy.
        + intros y Hy. apply I, in_or_app. right. apply in_or_app. left. exact Hy.
      - exfalso. rewrite lines_full, app_assoc_s in ET. apply full_not_rest in ET; [exact ET| |].
        + intros y Hy. apply I. cbn [flat_map]. apply in_or_app. left. apply in_or_app. left. exact Hy.
        + intros y Hy. apply I', in_or_app. right. apply in_or_app. left. exact Hy.
      - apply (f_equal (fun s => nl ++ s)) in ET. rewrite <- !app_assoc_s, !lines_texts in ET.
        apply items_exact in ET as (E1 & -> & -> & ET); [|exact IH|exact I|exact I']. injection ET as ET. split; [|exact ET].
        cbn [shape]. rewrite E1. reflexivity.
    Qed.
  End Two.
End Names.

(** ** The other direction *)

Section Shape.
  Variable nm : nat -> string.
  Lemma head_shape : forall {P} (t : ty P), head nm (shape t) = head nm t.
  Proof.
    intros P t. induction t as [|p t IH|p t IH|p w t IH|p w t IH|ss r n IH] using ty_ind'; try reflexivity.
    cbn [shape head]. rewrite map_map. f_equal. f_equal. apply map_ext_in. rewrite Forall_forall in IH. exact IH.
  Qed.
  Lemma tail_shape : forall {P} (t : ty P), tail nm (shape t) = tail nm t.
  Proof.
    intros P t. induction t as [|p t IH|p t IH|p w t IH|p w t IH|ss r n IH] using ty_ind'; try reflexivity;
      try (cbn [shape tail]; rewrite head_shape, IH; reflexivity).
    cbn [shape tail]. rewrite map_map. f_equal. f_equal. apply map_ext_in. rewrite Forall_forall in IH. intros s Hs.
    rewrite head_shape, (IH s Hs). reflexivity.
  Qed.
End Shape.
Lemma shape_dual : forall {P} (t : ty P), shape (dual t) = dual (shape t).
Proof.
  intros P t. induction t as [|p t IH|p t IH|p w t IH|p w t IH|ss r n IH] using ty_ind'; try reflexivity;
    try (cbn [shape dual]; rewrite IH; reflexivity).
  cbn [shape dual]. rewrite !map_map. f_equal. apply map_ext_in. rewrite Forall_forall in IH. exact IH.
Qed.
