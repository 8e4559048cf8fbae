(** * [clean_session] removes exactly the paths: proofs for C31 *)

From Coq Require Import Ascii String ZArith Lia Bool List.
From Verif Require Import Checker CheckerSpec CheckerText.
Import ListNotations.

(** ** Functions that stop at separators *)

Section Hom.
  Variable F : str -> str.
  Hypothesis F_nil : F [] = [].
  Hypothesis F_sep : forall a c b, is_sep c = true -> F (a ++ c :: b) = F a ++ c :: F b.

  Lemma hom_comma : forall sp a b, F (a ++ comma sp ++ b) = F a ++ comma sp ++ F b.
  Proof.
    intros [|] a b; cbn [comma lit list_ascii_of_string app].
    - rewrite F_sep by reflexivity. f_equal. f_equal.
      change (" "%char :: b) with ([] ++ " "%char :: b).
      rewrite F_sep by reflexivity. now rewrite F_nil.
    - now rewrite F_sep by reflexivity.
  Qed.

  Lemma hom_join : forall sp l, F (join (comma sp) l) = join (comma sp) (map F l).
  Proof.
    intros sp l. induction l as [|a l IH]; [exact F_nil|].
    destruct l as [|b l]; [reflexivity|].
    cbn [map] in *. rewrite !join_cons, hom_comma. now rewrite IH.
  Qed.

  Lemma hom_show : forall f sp t,
    F (show_with f sp t) = show_with (fun p n => F (f p n)) sp t.
  Proof.
    intros f sp t. induction t as [path name args IH] using ty_ind'.
    rewrite !show_args. destruct args as [|a args]; [now rewrite !app_nil_r|].
    cbn [lit list_ascii_of_string app].
    rewrite F_sep by reflexivity. f_equal. f_equal.
    rewrite F_sep, F_nil by reflexivity. f_equal.
    rewrite hom_join, map_map. f_equal. apply map_ext_in. intros x X.
    rewrite Forall_forall in IH. now apply IH.
  Qed.
End Hom.

Section HomList.
  Variable A : Type.
  Variable K : str -> list A.
  Hypothesis K_nil : K [] = [].
  Hypothesis K_sep : forall a c b, is_sep c = true -> K (a ++ c :: b) = K a ++ K b.

  Lemma homl_join : forall sp l, K (join (comma sp) l) = flat_map K l.
  Proof.
    intros sp l. induction l as [|a l IH]; [exact K_nil|].
    destruct l as [|b l]; [cbn [join flat_map]; now rewrite app_nil_r|].
    rewrite join_cons. cbn [flat_map] in *. rewrite <- IH.
    destruct sp; cbn [comma lit list_ascii_of_string app]; rewrite K_sep by reflexivity.
    - f_equal. set (r := join _ _). change (" "%char :: r) with ([] ++ " "%char :: r).
      rewrite K_sep by reflexivity. now rewrite K_nil.
    - reflexivity.
  Qed.

  Lemma homl_show : forall f sp t,
    K (show_with f sp t) = flat_map (fun h => K (f (fst h) (snd h))) (heads t).
  Proof.
    intros f sp t. induction t as [path name args IH] using ty_ind'.
    rewrite show_args. cbn [heads flat_map fst snd]. destruct args as [|a args].
    - cbn [flat_map]. now rewrite !app_nil_r.
    - cbn [lit list_ascii_of_string app].
      rewrite K_sep by reflexivity. f_equal.
      rewrite K_sep, K_nil, app_nil_r by reflexivity.
      rewrite homl_join. generalize (a :: args), IH. clear.
      intros l IH. induction IH as [|x l Hx _ IHl]; [reflexivity|].
      cbn [map flat_map]. rewrite flat_map_app, Hx. f_equal. exact IHl.
  Qed.
End HomList.

Lemma show_ext : forall f g sp t,
  (forall h, In h (heads t) -> f (fst h) (snd h) = g (fst h) (snd h)) ->
  show_with f sp t = show_with g sp t.
Proof.
  intros f g sp t. induction t as [path name args IH] using ty_ind'. intros E.
  rewrite !show_args. pose proof (E (path, name) (or_introl eq_refl)) as E0. cbn [fst snd] in E0. rewrite E0. f_equal.
  destruct args as [|a args]; [reflexivity|]. do 3 f_equal.
  apply map_ext_in. intros x X. rewrite Forall_forall in IH. apply IH; [exact X|].
  intros h Hh. apply E. cbn [heads]. right. apply in_flat_map. now exists x.
Qed.

(** ** [strip] and [replace] *)

Lemma strip_spec : forall p s r, strip p s = Some r <-> s = p ++ r.
Proof.
  induction p as [|a p IH]; intros s r; cbn [strip app].
  - split; congruence.
  - destruct s as [|b s]; [split; discriminate|].
    destruct (Ascii.eqb a b) eqn:E.
    + apply Ascii.eqb_eq in E. subst. rewrite IH. split; [now intros ->|now intros [=]].
    + apply Ascii.eqb_neq in E. split; [discriminate|intros [=]; congruence].
Qed.

Definition no_sep (p : str) : Prop := Forall (fun c => is_sep c = false) p.

Lemma strip_sep : forall p a c b, no_sep p -> is_sep c = true ->
  strip p (a ++ c :: b) = option_map (fun r => r ++ c :: b) (strip p a).
Proof.
  induction p as [|x p IH]; intros a c b N C; [reflexivity|].
  inversion N as [|? ? N1 N2]; subst. destruct a as [|y a]; cbn [app strip option_map].
  - destruct (Ascii.eqb x c) eqn:E; [|reflexivity].
    apply Ascii.eqb_eq in E. congruence.
  - destruct (Ascii.eqb x y); [now apply IH|reflexivity].
Qed.

Lemma strip_length : forall p s r, p <> [] -> strip p s = Some r -> (length r < length s)%nat.
Proof.
  intros p s r N E. apply strip_spec in E. subst. rewrite app_length.
  destruct p; [congruence|cbn; lia].
Qed.

Lemma replace_fuel_more : forall p r, p <> [] -> forall n m s,
  (length s < n)%nat -> (length s < m)%nat -> replace_fuel n p r s = replace_fuel m p r s.
Proof.
  intros p r N. induction n as [|n IH]; intros m s L1 L2; [lia|].
  destruct m as [|m]; [lia|]. cbn [replace_fuel]. destruct s as [|c s]; [reflexivity|].
  cbn [length] in *.
  destruct (strip p (c :: s)) as [rest|] eqn:E.
  - pose proof (strip_length _ _ _ N E). cbn [length] in *. f_equal. apply IH; lia.
  - f_equal. apply IH; lia.
Qed.

Lemma replace_nil : forall p r, replace p r [] = [].
Proof. reflexivity. Qed.

Lemma replace_some : forall p r s rest, p <> [] -> s <> [] -> strip p s = Some rest ->
  replace p r s = r ++ replace p r rest.
Proof.
  intros p r s rest N S E. unfold replace at 1. cbn [replace_fuel].
  destruct s as [|c s]; [congruence|]. rewrite E. f_equal.
  pose proof (strip_length _ _ _ N E). apply replace_fuel_more; [exact N|lia|lia].
Qed.

Lemma replace_none : forall p r c s, p <> [] -> strip p (c :: s) = None ->
  replace p r (c :: s) = c :: replace p r s.
Proof.
  intros p r c s N E. unfold replace at 1. cbn [replace_fuel]. now rewrite E.
Qed.

Lemma replace_sep : forall p r, p <> [] -> no_sep p -> forall a c b, is_sep c = true ->
  replace p r (a ++ c :: b) = replace p r a ++ c :: replace p r b.
Proof.
  intros p r N Q a c b C. remember (length a) as n eqn:Ln.
  revert a Ln. induction n as [n IH] using lt_wf_ind. intros a ->.
  destruct a as [|x a].
  - cbn [app]. rewrite replace_none; [now rewrite replace_nil|exact N|].
    change (c :: b) with ([] ++ c :: b). rewrite strip_sep by assumption.
    destruct p; [congruence|reflexivity].
  - pose proof (strip_sep p (x :: a) c b Q C) as E.
    destruct (strip p (x :: a)) as [rest|] eqn:E1; cbn [option_map] in E.
    + assert (x :: a <> []) as X1 by discriminate.
      assert ((x :: a) ++ c :: b <> []) as X2 by discriminate.
      rewrite (replace_some p r _ _ N X2 E), (replace_some p r _ _ N X1 E1).
      rewrite (IH (length rest) (strip_length _ _ _ N E1) rest eq_refl).
      now rewrite <- app_assoc.
    + cbn [app] in E |- *. rewrite (replace_none p r _ _ N E), (replace_none p r _ _ N E1).
      cbn [app]. f_equal. apply (IH (length a)); [cbn; lia|reflexivity].
Qed.

Lemma replace_not_inside : forall p r, p <> [] -> forall s, ~ inside p s -> replace p r s = s.
Proof.
  intros p r N s. induction s as [|c s IH]; intros I; [apply replace_nil|].
  rewrite replace_none; [|exact N|].
  - f_equal. apply IH. intros (a & b & E). apply I. exists (c :: a), b. cbn. now rewrite E.
  - destruct (strip p (c :: s)) as [rest|] eqn:E; [|reflexivity]. exfalso. apply I.
    apply strip_spec in E. exists [], rest. exact E.
Qed.

Lemma replace_prefix : forall p r rest, p <> [] -> ~ inside p rest ->
  replace p r (p ++ rest) = r ++ rest.
Proof.
  intros p r rest N I. rewrite (replace_some p r (p ++ rest) rest N).
  - now rewrite replace_not_inside.
  - destruct p; [congruence|discriminate].
  - now apply strip_spec.
Qed.

(** Whether a text is inside another one can be decided. *)
Lemma inside_dec : forall p s, inside p s \/ ~ inside p s.
Proof.
  intros p s. induction s as [|c s IH].
  - destruct p as [|x p]; [left; now exists [], []|].
    right. intros (a & b & E). destruct a; discriminate.
  - destruct (strip p (c :: s)) as [rest|] eqn:E.
    + left. apply strip_spec in E. exists [], rest. exact E.
    + destruct IH as [(a & b & I)|I].
      * left. exists (c :: a), b. cbn. now rewrite I.
      * right. intros (a & b & I2). destruct a as [|x a].
        -- cbn in I2. assert (strip p (c :: s) = Some b) by now apply strip_spec. congruence.
        -- apply I. exists a, b. now injection I2.
Qed.

(** ** [runs] *)

Lemma runs_stop : forall f cur a c b, f c = false ->
  runs f cur (a ++ c :: b) = runs f cur a ++ runs f [] b.
Proof.
  intros f cur a c b C. revert cur. induction a as [|x a IH]; intros cur; cbn [app runs].
  - rewrite C. destruct cur; reflexivity.
  - destruct (f x); [apply IH|]. destruct cur; [apply IH|]. cbn [app]. f_equal. apply IH.
Qed.

Lemma runs_all : forall f s cur, Forall (fun c => f c = true) s ->
  runs f cur s = match rev cur ++ s with [] => [] | _ => [rev cur ++ s] end.
Proof.
  intros f s. induction s as [|c s IH]; intros cur Q; cbn [runs].
  - rewrite app_nil_r. destruct cur as [|x cur]; [reflexivity|].
    cbn [rev]. destruct (rev cur); reflexivity.
  - inversion Q as [|? ? Q1 Q2]; subst. rewrite Q1, (IH _ Q2). cbn [rev].
    now rewrite <- app_assoc.
Qed.

(** ** The paths *)

Lemma colon_captures_sep : forall a c b, is_sep c = true ->
  colon_captures (a ++ c :: b) = colon_captures a ++ colon_captures b.
Proof.
  intros a c b C. unfold colon_captures. rewrite runs_stop by now rewrite C.
  apply flat_map_app.
Qed.

Lemma no_colon_after : forall s b, ~ In ":"%char s -> after_colons b s = None.
Proof.
  induction s as [|c s IH]; intros b N; [reflexivity|]. cbn [after_colons].
  rewrite IH by (intros I; apply N; now right). destruct b; [reflexivity|].
  destruct s as [|d [|e s]]; [reflexivity|reflexivity|].
  destruct (Ascii.eqb c ":") eqn:E; [|reflexivity].
  apply Ascii.eqb_eq in E. exfalso. apply N. now left.
Qed.

Lemma after_colons_some : forall c s b r,
  after_colons false s = Some r -> after_colons b (c :: s) = Some r.
Proof. intros c s b r E. cbn [after_colons]. now rewrite E. Qed.

Lemma word_no_colon : forall s, word s -> ~ In ":"%char s.
Proof.
  intros s [_ W] I. rewrite Forall_forall in W. destruct (W _ I) as (_ & _ & E). congruence.
Qed.

Lemma after_colons_2 : forall n, word n -> after_colons false (lit "::" ++ n) = Some n.
Proof.
  intros n W. pose proof (word_no_colon _ W) as N. destruct W as [NE W].
  destruct n as [|c n]; [congruence|].
  cbn [lit list_ascii_of_string app]. cbn [after_colons].
  fold (after_colons false (c :: n)).
  rewrite (no_colon_after n) by (intros I; apply N; now right).
  assert (Ascii.eqb c ":" = false) as E.
  { apply Ascii.eqb_neq. intros ->. apply N. now left. }
  destruct n as [|d [|e n]]; cbn [Ascii.eqb Bool.eqb andb]; rewrite ?E; reflexivity.
Qed.

Lemma after_colons_app : forall s t r b,
  after_colons false t = Some r -> s <> [] -> after_colons b (s ++ t) = Some r.
Proof.
  induction s as [|c s IH]; intros t r b E N; [congruence|].
  cbn [app]. apply after_colons_some. destruct s as [|d s]; [exact E|].
  apply IH; [exact E|discriminate].
Qed.

Lemma path_after : forall path n, Forall word path -> word n -> path <> [] ->
  after_colons true (full_head path n) = Some n.
Proof.
  intros path n P W NE. unfold full_head, path_text.
  assert (forall path, Forall word path -> path <> [] -> forall b,
            after_colons b (concat (map (fun s => s ++ lit "::") path) ++ n) = Some n) as G.
  { clear path P NE. induction path as [|s path IH]; intros P NE b; [congruence|].
    inversion P as [|? ? Ps P']; subst. cbn [map concat]. rewrite <- !app_assoc.
    destruct path as [|s2 path].
    - cbn [map concat app]. apply after_colons_app; [now apply after_colons_2|apply Ps].
    - rewrite app_assoc. apply after_colons_app; [apply IH; [exact P'|discriminate]|].
      destruct Ps as [Ps _]. destruct s; [congruence|discriminate]. }
  now apply G.
Qed.

Lemma sep_colon : is_sep ":" = false.
Proof. reflexivity. Qed.

Lemma word_no_sep : forall s, word s -> no_sep s.
Proof. intros s [_ W]. eapply Forall_impl; [|exact W]. cbn. tauto. Qed.

Lemma path_no_sep : forall path, Forall word path -> no_sep (path_text path).
Proof.
  intros path P. induction P as [|s path W _ IH]; [constructor|].
  unfold path_text in *. cbn [map concat]. apply Forall_app. split; [|exact IH].
  apply Forall_app. split; [exact (word_no_sep _ W)|]. repeat constructor.
Qed.

Lemma full_no_sep : forall path n, Forall word path -> word n -> no_sep (full_head path n).
Proof.
  intros path n P W. apply Forall_app. split; [now apply path_no_sep|now apply word_no_sep].
Qed.

Lemma full_not_nil : forall path n, word n -> full_head path n <> [].
Proof. intros path n [N _]. unfold full_head. destruct (path_text path); [exact N|discriminate]. Qed.

Lemma head_captures : forall path n, Forall word path -> word n ->
  colon_captures (full_head path n) =
  match path with [] => [] | _ => [(full_head path n, n)] end.
Proof.
  intros path n P W. unfold colon_captures. rewrite runs_all.
  - cbn [rev app]. pose proof (full_not_nil path n W) as NE.
    destruct (full_head path n) as [|c s] eqn:E; [congruence|]. rewrite <- E.
    cbn [flat_map]. rewrite app_nil_r. destruct path as [|x path].
    + unfold full_head, path_text. cbn [map concat app].
      now rewrite no_colon_after by now apply word_no_colon.
    + rewrite path_after; [reflexivity|exact P|exact W|discriminate].
  - eapply Forall_impl; [|exact (full_no_sep path n P W)]. cbn. intros c ->. reflexivity.
Qed.

Definition path_caps (hs : list (list str * str)) : list (str * str) :=
  flat_map (fun h => match fst h with [] => [] | _ => [(full_head (fst h) (snd h), snd h)] end) hs.

Lemma type_captures : forall sp t, wordy t ->
  colon_captures (show_with full_head sp t) = path_caps (heads t).
Proof.
  intros sp t W. rewrite (homl_show _ _ eq_refl colon_captures_sep).
  unfold path_caps. rewrite !flat_map_concat_map. f_equal. apply map_ext_in.
  intros [p n] I. unfold wordy in W. rewrite Forall_forall in W.
  destruct (W _ I) as [W1 W2]. cbn [fst snd] in *. now apply head_captures.
Qed.

(** The end of a text after its last colon. *)
Lemma last_colon : forall x n y m,
  ~ In ":"%char n -> ~ In ":"%char m -> (x ++ lit ":") ++ n = (y ++ lit ":") ++ m -> n = m.
Proof.
  induction x as [|a x IH]; intros n y m N M E.
  - destruct y as [|b y]; cbn [app lit list_ascii_of_string] in E.
    + now injection E.
    + injection E as E1 E2. exfalso. apply N. rewrite E2. apply in_or_app. left.
      apply in_or_app. right. now left.
  - destruct y as [|b y]; cbn [app lit list_ascii_of_string] in E.
    + injection E as E1 E2. exfalso. apply M. rewrite <- E2. apply in_or_app. left.
      apply in_or_app. right. now left.
    + injection E as _ E2. exact (IH n y m N M E2).
Qed.

Lemma path_ends : forall path, path <> [] -> exists x, path_text path = x ++ lit ":".
Proof.
  intros path. unfold path_text. induction path as [|s path IH]; intros N; [congruence|].
  cbn [map concat]. destruct path as [|s2 path].
  - exists (s ++ lit ":"). cbn [map concat]. rewrite app_nil_r, <- app_assoc. reflexivity.
  - destruct (IH ltac:(discriminate)) as [x E]. rewrite E.
    exists ((s ++ lit "::") ++ x). now rewrite !app_assoc.
Qed.

(** One name, through all the replacements: the path is gone. *)
Definition drop_paths (caps : list (str * str)) (d : str) : str :=
  fold_left (fun d cap => replace (fst cap) (snd cap) d) caps d.

Lemma colon_in_path : forall path n, path <> [] -> In ":"%char (full_head path n).
Proof.
  intros path n NE. destruct (path_ends path NE) as [x E]. unfold full_head. rewrite E.
  apply in_or_app. left. apply in_or_app. right. now left.
Qed.

Lemma inside_in : forall p s c, inside p s -> In c p -> In c s.
Proof.
  intros p s c (a & b & ->) I. apply in_or_app. right. apply in_or_app. now left.
Qed.

Lemma drop_done : forall hs n, ~ In ":"%char n ->
  Forall (fun h => word (snd h)) hs -> drop_paths (path_caps hs) n = n.
Proof.
  unfold drop_paths, path_caps. induction hs as [|[p m] hs IH]; intros n N W; [reflexivity|].
  inversion W as [|? ? W1 W2]; subst. cbn [flat_map fst snd] in *.
  destruct p as [|x p]; [exact (IH n N W2)|]. cbn [app fold_left fst snd].
  rewrite replace_not_inside; [exact (IH n N W2)|now apply full_not_nil|].
  intros I. apply N. apply (inside_in _ _ _ I), colon_in_path. discriminate.
Qed.

Lemma drop_head : forall hs p n,
  Forall (fun h => Forall word (fst h) /\ word (snd h)) hs -> Forall word p -> word n ->
  (forall h, In h hs -> fst h <> [] -> inside (full_head (fst h) (snd h)) (full_head p n) ->
     exists rest, full_head p n = full_head (fst h) (snd h) ++ rest /\ ~ In ":"%char rest) ->
  p = [] \/ In (p, n) hs ->
  drop_paths (path_caps hs) (full_head p n) = n.
Proof.
  intros hs p n. destruct p as [|x0 p0].
  { intros W _ Wn _ _. apply drop_done; [now apply word_no_colon|].
    eapply Forall_impl; [|exact W]. cbn. tauto. }
  remember (x0 :: p0) as p eqn:Ep. assert (p <> []) as NE by now subst.
  clear Ep x0 p0. induction hs as [|[q m] hs IH]; intros W Wp Wn A [E|I];
    [congruence|contradiction|congruence|].
  inversion W as [|? ? [W1 W2] W3]; subst. cbn [fst snd] in *.
  assert (Forall (fun h => word (snd h)) hs) as W4.
  { eapply Forall_impl; [|exact W3]. cbn. tauto. }
  unfold drop_paths, path_caps. cbn [flat_map fst snd].
  destruct q as [|y q0].
  - apply IH; [exact W3|exact Wp|exact Wn|intros h Hh; apply A; now right|].
    right. destruct I as [E|I]; [congruence|exact I].
  - remember (y :: q0) as q eqn:Eq. assert (q <> []) as NQ by now subst. clear Eq y q0.
    cbn [app fold_left fst snd].
    destruct (inside_dec (full_head q m) (full_head p n)) as [Ins|Ins].
    + destruct (A (q, m) (or_introl eq_refl) NQ Ins) as (rest & E & NR). cbn [fst snd] in E.
      rewrite E, replace_prefix; [|now apply full_not_nil|].
      * assert (n = m ++ rest) as ->.
        { destruct (path_ends p NE) as [x Ex]. destruct (path_ends q NQ) as [z Ez].
          unfold full_head in E. rewrite Ex, Ez in E.
          rewrite <- (app_assoc (z ++ lit ":") m rest) in E.
          apply (last_colon x n z (m ++ rest)); [now apply word_no_colon| |exact E].
          intros J. apply in_app_or in J. destruct J; [|contradiction].
          now apply (word_no_colon m). }
        apply (drop_done hs); [now apply word_no_colon|exact W4].
      * intros J. apply NR. apply (inside_in _ _ _ J), colon_in_path, NQ.
    + rewrite replace_not_inside; [|now apply full_not_nil|exact Ins].
      apply IH; [exact W3|exact Wp|exact Wn|intros h Hh; apply A; now right|].
      right. destruct I as [E|I]; [|exact I]. injection E as -> ->.
      exfalso. apply Ins. exists [], []. now rewrite app_nil_r.
Qed.

Lemma drop_show : forall hs f sp t,
  Forall (fun h => Forall word (fst h) /\ word (snd h)) hs ->
  drop_paths (path_caps hs) (show_with f sp t) =
  show_with (fun p n => drop_paths (path_caps hs) (f p n)) sp t.
Proof.
  intros hs. induction hs as [|[p n] hs IH]; intros f sp t W; [reflexivity|].
  inversion W as [|? ? [W1 W2] W3]; subst. cbn [fst snd] in *.
  unfold drop_paths, path_caps in *. cbn [flat_map fst snd]. destruct p as [|x p].
  - exact (IH f sp t W3).
  - cbn [app fold_left fst snd].
    rewrite (hom_show (replace (full_head (x :: p) n) n)).
    + exact (IH _ sp t W3).
    + apply replace_nil.
    + intros a c b C. apply replace_sep; [now apply full_not_nil|now apply full_no_sep|exact C].
Qed.

Lemma drop_type : forall sp t, wordy t -> paths_apart t ->
  drop_paths (path_caps (heads t)) (show_with full_head sp t) = show_with short_head sp t.
Proof.
  intros sp t W A. rewrite drop_show by exact W. apply show_ext. intros [p n] I.
  cbn [fst snd]. unfold short_head. unfold wordy in W.
  pose proof W as W'. rewrite Forall_forall in W'. destruct (W' _ I) as [W1 W2].
  apply drop_head; [exact W|exact W1|exact W2| |now right].
  intros h Hh NE Ins. exact (A h (p, n) Hh I NE Ins).
Qed.

(** ** The names *)

Lemma alpha_not_sep : forall c, is_sep c = true -> is_alpha c = false.
Proof.
  intros c S. unfold is_sep in S. destruct (is_alpha c) eqn:A; [|reflexivity].
  exfalso. unfold is_alpha in A. set (n := nat_of_ascii c) in *.
  apply orb_true_iff in S. destruct S as [S|S].
  - apply orb_true_iff in S. destruct S as [S|S]; [apply orb_true_iff in S; destruct S as [S|S]|];
      apply Ascii.eqb_eq in S; subst c; cbv in A; discriminate.
  - unfold is_space in S. fold n in S.
    apply orb_true_iff in S. rewrite andb_true_iff, Nat.eqb_eq, !Nat.leb_le in S.
    apply orb_true_iff in A. rewrite !andb_true_iff, !Nat.leb_le in A. lia.
Qed.

Lemma letters_sep : forall a c b, is_sep c = true -> letters (a ++ c :: b) = letters a.
Proof.
  intros a c b C. induction a as [|x a IH]; cbn [app letters].
  - now rewrite (alpha_not_sep _ C).
  - destruct (is_alpha x); [now rewrite IH|reflexivity].
Qed.

Lemma letters_prefix : forall s, exists r, s = letters s ++ r.
Proof.
  induction s as [|c s [r IH]]; [now exists []|]. cbn [letters].
  destruct (is_alpha c); [|now exists (c :: s)]. exists r. cbn. now rewrite <- IH.
Qed.

Lemma name_no_sep : no_sep (lit "Name").
Proof. repeat constructor. Qed.

Lemma name_captures_more : forall n m s,
  (length s <= n)%nat -> (length s <= m)%nat -> name_captures n s = name_captures m s.
Proof.
  induction n as [|n IH]; intros m s L1 L2.
  - destruct s; [destruct m; reflexivity|cbn in L1; lia].
  - destruct m as [|m]; [destruct s; [reflexivity|cbn in L2; lia]|].
    cbn [name_captures]. destruct s as [|c s]; [reflexivity|]. cbn [length] in *.
    destruct (strip (lit "Name") (c :: s)) as [rest|] eqn:E; [|apply IH; lia].
    assert (lit "Name" <> []) as NN by discriminate.
    pose proof (strip_length _ _ _ NN E) as L. cbn [length] in L.
    destruct (letters rest) as [|x l] eqn:El; [apply IH; lia|].
    f_equal. apply IH; rewrite skipn_length; lia.
Qed.

Definition captured (s : str) : list str := name_captures (length s) s.

Lemma captured_step : forall c s,
  captured (c :: s) =
  match strip (lit "Name") (c :: s) with
  | Some rest =>
      match letters rest with
      | [] => captured s
      | l => l :: captured (skipn (length l) rest)
      end
  | None => captured s
  end.
Proof.
  intros c s. unfold captured at 1. cbn [length name_captures].
  destruct (strip (lit "Name") (c :: s)) as [rest|] eqn:E; [|reflexivity].
  assert (lit "Name" <> []) as NN by discriminate.
  pose proof (strip_length _ _ _ NN E) as L. cbn [length] in L.
  destruct (letters rest) as [|x l]; [reflexivity|].
  f_equal. unfold captured. apply name_captures_more; rewrite ?skipn_length; lia.
Qed.

Lemma skipn_prefix : forall {A} (a b c : list A), skipn (length a) ((a ++ b) ++ c) = b ++ c.
Proof. intros A a b c. rewrite <- app_assoc. induction a; [reflexivity|assumption]. Qed.

Lemma captured_sep : forall a c b, is_sep c = true ->
  captured (a ++ c :: b) = captured a ++ captured b.
Proof.
  intros a c b C. remember (length a) as n eqn:Ln.
  revert a Ln. induction n as [n IH] using lt_wf_ind. intros a ->.
  destruct a as [|x a].
  - cbn [app]. rewrite captured_step. change (c :: b) with ([] ++ c :: b).
    rewrite (strip_sep (lit "Name") [] c b name_no_sep C). reflexivity.
  - cbn [app]. rewrite !captured_step.
    change (x :: a ++ c :: b) with ((x :: a) ++ c :: b).
    rewrite (strip_sep (lit "Name") (x :: a) c b name_no_sep C).
    destruct (strip (lit "Name") (x :: a)) as [rest|] eqn:E; cbn [option_map].
    + assert (lit "Name" <> []) as NN by discriminate.
      pose proof (strip_length _ _ _ NN E) as L. cbn [length] in L.
      rewrite letters_sep by exact C. destruct (letters_prefix rest) as [r Er].
      destruct (letters rest) as [|y l] eqn:El.
      * apply (IH (length a)); [cbn; lia|reflexivity].
      * cbn [app]. f_equal.
        assert (skipn (length (y :: l)) (rest ++ c :: b) = r ++ c :: b) as ->.
        { rewrite Er. apply skipn_prefix. }
        assert (skipn (length (y :: l)) rest = r) as ->.
        { rewrite Er. pose proof (skipn_prefix (y :: l) r []) as S.
          rewrite !app_nil_r in S. exact S. }
        apply (IH (length r)); [|reflexivity].
        assert (length rest = length ((y :: l) ++ r)) by now rewrite <- Er.
        rewrite app_length in *. cbn [length] in *. lia.
    + apply (IH (length a)); [cbn; lia|reflexivity].
Qed.

Lemma letters_all : forall x, Forall (fun c => is_alpha c = true) x -> letters x = x.
Proof.
  intros x A. induction A as [|c x C _ IH]; [reflexivity|]. cbn [letters]. now rewrite C, IH.
Qed.

Lemma captured_name : forall x, x <> [] -> Forall (fun c => is_alpha c = true) x ->
  captured (name_of x) = [x].
Proof.
  intros x NE A. unfold name_of. cbn [lit list_ascii_of_string app]. rewrite captured_step.
  change (strip (lit "Name") ("N"%char :: "a"%char :: "m"%char :: "e"%char :: x)) with (Some x).
  cbv iota. rewrite (letters_all x A). destruct x as [|c x]; [congruence|].
  f_equal. pose proof (skipn_all (c :: x)) as E. cbn [length skipn] in E |- *.
  rewrite E. reflexivity.
Qed.

Lemma inside_cons : forall p c s, inside p s -> inside p (c :: s).
Proof. intros p c s (a & b & ->). now exists (c :: a), b. Qed.

Lemma captured_none : forall s, ~ named s -> captured s = [].
Proof.
  induction s as [|c s IH]; intros N; [reflexivity|]. rewrite captured_step.
  assert (~ named s) as N'.
  { intros (x & A & I). apply N. exists x. split; [exact A|now apply inside_cons]. }
  destruct (strip (lit "Name") (c :: s)) as [rest|] eqn:E; [|exact (IH N')].
  destruct rest as [|y rest]; cbn [letters]; [exact (IH N')|].
  destruct (is_alpha y) eqn:A; [|exact (IH N')].
  exfalso. apply N. apply strip_spec in E. exists y. split; [exact A|].
  exists [], rest. rewrite E. now rewrite <- app_assoc.
Qed.

(** The names of a type, in order. *)
Lemma type_names : forall N sp t, names_fit N -> names_in N t -> forall x,
  In x (captured (show_with short_head sp t)) -> In x N.
Proof.
  intros N sp t [F _] I x. rewrite (homl_show _ captured eq_refl captured_sep).
  induction t as [path name args IH] using ty_ind'. cbn [heads flat_map fst snd].
  intros J. apply in_app_or in J. inversion I as [p y Y|p n a NN Na]; subst.
  - unfold short_head in J. destruct (F y Y) as (F1 & F2 & _).
    rewrite (captured_name y F1 F2) in J. destruct J as [[->|[]]|[]]. exact Y.
  - unfold short_head at 1 in J. rewrite (captured_none _ NN) in J.
    destruct J as [[]|J]. apply in_flat_map in J. destruct J as (h & Hh & J).
    apply in_flat_map in Hh. destruct Hh as (u & U & Hh).
    rewrite Forall_forall in IH, Na. apply (IH u U (Na u U)).
    apply in_flat_map. now exists h.
Qed.

Lemma name_heads : forall N t x path, names_in N t -> In (path, name_of x) (heads t) ->
  forall sp, names_fit N -> In x N -> In x (captured (show_with short_head sp t)).
Proof.
  intros N t x path _ J sp [F _] X. rewrite (homl_show _ captured eq_refl captured_sep).
  apply in_flat_map. exists (path, name_of x). split; [exact J|].
  cbn [fst snd]. unfold short_head. destruct (F x X) as (F1 & F2 & _).
  rewrite (captured_name x F1 F2). now left.
Qed.

Definition role_text (x : str) : str := role_of x ++ lit "<RoleEnd>".

Definition put_roles (caps : list str) (d : str) : str :=
  fold_left
    (fun d cap => replace (lit "Name" ++ cap) (lit "Role" ++ cap ++ lit "<RoleEnd>") d) caps d.

Definition alphas (N : list str) : Prop :=
  forall x, In x N -> x <> [] /\ Forall (fun c => is_alpha c = true) x.

Lemma alpha_no_sep : forall x, Forall (fun c => is_alpha c = true) x -> no_sep x.
Proof.
  intros x A. eapply Forall_impl; [|exact A]. cbn. intros c C.
  destruct (is_sep c) eqn:S; [|reflexivity]. rewrite (alpha_not_sep _ S) in C. discriminate.
Qed.

Lemma put_roles_show : forall caps f sp t, alphas caps ->
  put_roles caps (show_with f sp t) = show_with (fun p n => put_roles caps (f p n)) sp t.
Proof.
  unfold put_roles. induction caps as [|x caps IH]; intros f sp t A; [reflexivity|].
  cbn [fold_left]. rewrite (hom_show (replace (lit "Name" ++ x) (lit "Role" ++ x ++ lit "<RoleEnd>"))).
  - apply IH. intros y Y. apply A. now right.
  - apply replace_nil.
  - intros a c b C. apply replace_sep; [discriminate| |exact C].
    apply Forall_app. split; [apply name_no_sep|]. apply alpha_no_sep. apply (A x). now left.
Qed.

Lemma inside_name_alpha : forall y s, y <> [] -> Forall (fun c => is_alpha c = true) y ->
  inside (lit "Name" ++ y) s -> named s.
Proof.
  intros y s NE A (a & b & E). destruct y as [|c y]; [congruence|].
  inversion A as [|? ? A1 A2]; subst. exists c. split; [exact A1|].
  exists a, (y ++ b). rewrite <- !app_assoc. reflexivity.
Qed.

Lemma put_roles_other : forall caps n, alphas caps -> ~ named n -> put_roles caps n = n.
Proof.
  unfold put_roles. induction caps as [|x caps IH]; intros n A NN; [reflexivity|].
  cbn [fold_left]. destruct (A x (or_introl eq_refl)) as [A1 A2].
  rewrite replace_not_inside; [|discriminate|].
  - apply IH; [intros y Y; apply A; now right|exact NN].
  - intros I. exact (NN (inside_name_alpha _ _ A1 A2 I)).
Qed.

Lemma role_not_named : forall x, ~ named x -> ~ named (role_of x).
Proof.
  intros x N (c & A & a & b & E). apply N. exists c. split; [exact A|].
  unfold role_of in E. cbn [lit list_ascii_of_string app] in E.
  destruct a as [|a1 [|a2 [|a3 [|a4 a]]]]; cbn [app] in E; try discriminate.
  injection E as _ _ _ _ E. exists a, b. exact E.
Qed.

Lemma put_roles_done : forall caps x, alphas caps -> ~ named x ->
  put_roles caps (role_text x) = role_text x.
Proof.
  unfold put_roles. induction caps as [|y caps IH]; intros x A NN; [reflexivity|].
  cbn [fold_left]. destruct (A y (or_introl eq_refl)) as [A1 A2].
  assert (replace (lit "Name" ++ y) (lit "Role" ++ y ++ lit "<RoleEnd>") (role_text x) = role_text x) as E.
  { assert (no_sep (lit "Name" ++ y)) as NS.
    { apply Forall_app. split; [apply name_no_sep|now apply alpha_no_sep]. }
    unfold role_text.
    change (lit "<RoleEnd>") with ("<"%char :: lit "RoleEnd" ++ ">"%char :: []) at 2 3.
    assert (lit "Name" ++ y <> []) as NX by discriminate.
    rewrite !(replace_sep _ _ NX NS) by reflexivity.
    rewrite replace_nil. rewrite !replace_not_inside; try discriminate; [reflexivity| |].
    - intros I. assert (In "N"%char (lit "RoleEnd")) as J.
      { apply (inside_in _ _ _ I). now left. }
      cbn in J. intuition discriminate.
    - intros I. exact (role_not_named x NN (inside_name_alpha _ _ A1 A2 I)). }
  rewrite E. apply IH; [intros z Z; apply A; now right|exact NN].
Qed.

Lemma put_roles_name : forall N x, names_fit N -> In x N -> forall caps,
  (forall y, In y caps -> In y N) -> In x caps -> put_roles caps (name_of x) = role_text x.
Proof.
  intros N x [F1 F2] X. unfold put_roles.
  assert (~ named x) as NN by (apply (F1 x X)).
  induction caps as [|y caps IH]; intros S I; [contradiction|]. cbn [fold_left].
  assert (alphas caps) as AC.
  { intros z Z. destruct (F1 z (S z (or_intror Z))) as (P1 & P2 & _). now split. }
  destruct (list_eq_dec ascii_dec y x) as [->|D].
  - unfold name_of. rewrite <- (app_nil_r (lit "Name" ++ x)) at 2.
    rewrite replace_prefix; [|discriminate|].
    + rewrite app_nil_r. exact (put_roles_done caps x AC NN).
    + intros (a & b & E). destruct a; discriminate.
  - destruct I as [E|I]; [congruence|].
    rewrite replace_not_inside; [apply IH; [intros z Z; apply S; now right|exact I]|discriminate|].
    intros (a & b & E). unfold name_of in E.
    cbn [lit list_ascii_of_string app] in E.
    destruct (F1 y (S y (or_introl eq_refl))) as (Y1 & Y2 & _).
    destruct a as [|a1 [|a2 [|a3 [|a4 a]]]]; cbn [app] in E; try discriminate.
    + injection E as E. pose proof (F2 y x b (S y (or_introl eq_refl)) X E) as ->.
      rewrite app_nil_r in E. congruence.
    + injection E as _ _ _ _ E. apply NN. apply (inside_name_alpha y x Y1 Y2).
      now exists a, b.
Qed.

(** ** All together *)

Lemma plain_names : forall N t t', plain N t t' -> names_in N t.
Proof.
  intros N t. induction t as [path name args IH] using ty_ind'. intros t' P.
  inversion P as [p x X|p n a a' NN Pa]; subst; [now constructor|].
  apply ni_node; [exact NN|]. clear P NN. induction Pa as [|u u' l l' U _ IHl]; [constructor|].
  inversion IH; subst. constructor; [eauto|now apply IHl].
Qed.

Lemma plain_wordy : forall N t t', plain N t t' -> wordy t -> wordy t'.
Proof.
  intros N t. induction t as [path name args IH] using ty_ind'. intros t' P W.
  destruct (wordy_node _ _ _ W) as (_ & Wn & Wa).
  inversion P as [p x X|p n a a' NN Pa]; subst.
  - unfold wordy. cbn [heads flat_map app]. repeat constructor; cbn [snd]; try discriminate.
    destruct Wn as [_ Wn]. apply Forall_app in Wn. destruct Wn as [_ Wn]. exact Wn.
  - unfold wordy. cbn [heads]. constructor; [split; [constructor|exact Wn]|].
    clear P NN W. induction Pa as [|u u' l l' U _ IHl]; [constructor|].
    inversion IH; subst. inversion Wa; subst. cbn [flat_map]. apply Forall_app. split; [|auto].
    match goal with H : forall t', plain N u t' -> _ |- _ => exact (H u' U ltac:(assumption)) end.
Qed.

Lemma put_roles_plain : forall N caps sp t t',
  names_fit N -> plain N t t' -> (forall x, In x caps -> In x N) ->
  (forall path x, In x N -> In (path, name_of x) (heads t) -> In x caps) ->
  show_with (fun p n => put_roles caps (short_head p n)) sp t = show_with short_head sp t'.
Proof.
  intros N caps sp t t' F P S1 S2. revert t' P S2.
  assert (alphas caps) as AC.
  { intros z Z. destruct F as [F _]. destruct (F z (S1 z Z)) as (P1 & P2 & _). now split. }
  induction t as [path name args IH] using ty_ind'. intros t' P S2.
  inversion P as [p x X|p n a a' NN Pa]; subst; rewrite !show_args.
  - unfold short_head at 1. rewrite (put_roles_name N x F X caps S1) by (apply (S2 path x X); now left).
    unfold role_text. cbn [map join]. rewrite app_nil_r. reflexivity.
  - unfold short_head at 1. rewrite (put_roles_other caps name AC NN). f_equal.
    assert (map (show_with (fun p n => put_roles caps (short_head p n)) sp) args =
            map (show_with short_head sp) a') as E.
    { clear P NN.
      assert (forall u, In u args -> forall path x, In x N -> In (path, name_of x) (heads u) -> In x caps) as S3.
      { intros u U pa x X Hh. apply (S2 pa x X). cbn [heads]. right.
        apply in_flat_map. now exists u. }
      clear S2. induction Pa as [|u u' l l' U _ IHl]; [reflexivity|].
      inversion IH as [|? ? Iu Il]; subst. cbn [map]. f_equal.
      - apply Iu; [exact U|]. intros pa x X Hh. exact (S3 u (or_introl eq_refl) pa x X Hh).
      - apply IHl; [exact Il|]. intros v V pa x X Hh. exact (S3 v (or_intror V) pa x X Hh). }
    inversion Pa; subst; [reflexivity|]. now rewrite E.
Qed.

Lemma filter_id : forall (f : ascii -> bool) s, Forall (fun c => f c = true) s -> filter f s = s.
Proof.
  intros f s H. induction H as [|c s C _ IH]; [reflexivity|]. cbn [filter]. now rewrite C, IH.
Qed.

Lemma word_no_space : forall s, word s -> filter (fun c => negb (is_space c)) s = s.
Proof.
  intros s W. apply filter_id. eapply Forall_impl; [|exact (word_quiet s W)].
  intros c Q. destruct (quiet_tests c Q) as (_ & E & _). now rewrite E.
Qed.

Lemma no_space_show : forall sp t, wordy t ->
  filter (fun c => negb (is_space c)) (show_with short_head sp t) = short t.
Proof.
  intros sp t. induction t as [path name args IH] using ty_ind'. intros W.
  destruct (wordy_node _ _ _ W) as (_ & Wn & Wa). unfold short. rewrite !show_args.
  rewrite filter_app. unfold short_head at 1. rewrite (word_no_space _ Wn).
  unfold short_head at 2. f_equal.
  destruct args as [|a args]; [reflexivity|]. rewrite !filter_app. f_equal. f_equal.
  revert a IH Wa W. induction args as [|b args IHa]; intros a IH Wa W.
  - cbn [map join]. inversion IH; subst. inversion Wa; subst. auto.
  - cbn [map] in *. rewrite !join_cons, !filter_app.
    inversion IH as [|? ? I1 I2]; subst. inversion Wa as [|? ? W1 W2]; subst.
    rewrite (I1 W1). f_equal. rewrite (IHa b I2 W2).
    + f_equal. destruct sp; reflexivity.
    + unfold wordy in *. cbn [heads flat_map] in *. inversion W as [|? ? W3 W4]; subst.
      constructor; [exact W3|]. apply Forall_app in W4. exact (proj2 W4).
Qed.

Lemma no_amp_show : forall sp t, wordy t ->
  filter (fun c => negb (Ascii.eqb c "&")) (show_with full_head sp t) = show_with full_head sp t.
Proof.
  intros sp t W. rewrite (hom_show (filter (fun c => negb (Ascii.eqb c "&")))).
  - apply show_ext. intros [p n] I. cbn [fst snd]. unfold wordy in W.
    rewrite Forall_forall in W. destruct (W _ I) as [W1 W2]. cbn [fst snd] in *.
    apply filter_id. apply Forall_app. split.
    + unfold path_text. clear -W1. induction W1 as [|s p Ws _ IH]; [constructor|].
      cbn [map concat]. rewrite <- app_assoc. apply Forall_app. split.
      * destruct Ws as [_ Ws]. eapply Forall_impl; [|exact Ws]. cbn. intros c (_ & A & _).
        apply Ascii.eqb_neq in A. now rewrite A.
      * apply Forall_app. split; [repeat constructor|exact IH].
    + destruct W2 as [_ W2]. eapply Forall_impl; [|exact W2]. cbn. intros c (_ & A & _).
      apply Ascii.eqb_neq in A. now rewrite A.
  - reflexivity.
  - intros a c b C. rewrite filter_app. cbn [filter]. destruct (Ascii.eqb c "&") eqn:E; [|reflexivity].
    apply Ascii.eqb_eq in E. subst. discriminate.
Qed.

Lemma first_run : forall n args, word n ->
  exists l, runs (fun c => negb (Ascii.eqb c "<" || Ascii.eqb c ">")) []
              (short (Node [] n args)) = n :: l.
Proof.
  intros n args W. unfold short. rewrite show_args. unfold short_head at 1.
  assert (runs (fun c => negb (Ascii.eqb c "<" || Ascii.eqb c ">")) [] n = [n]) as R.
  { rewrite runs_all.
    - cbn [rev app]. destruct W as [NE _]. destruct n; [congruence|reflexivity].
    - eapply Forall_impl; [|exact (word_quiet n W)]. intros c Q.
      destruct (quiet_tests c Q) as (_ & _ & E1 & E2 & _). cbn. now rewrite E1, E2. }
  destruct args as [|a args].
  - exists []. now rewrite app_nil_r.
  - cbn [lit list_ascii_of_string app]. rewrite runs_stop by reflexivity. rewrite R.
    eexists. reflexivity.
Qed.

Theorem clean_session_type : forall N sp t mc fs n a,
  wordy t -> paths_apart t -> names_fit N ->
  plain N t (Node [] mc (fs ++ [Node [] n a])) ->
  clean_session (show_with full_head sp t) = Ok (map short (fs ++ [Node [] n a]) ++ [n]).
Proof.
  intros N sp t mc fs n a W A F P. unfold clean_session.
  rewrite (no_amp_show sp t W), (type_captures sp t W).
  change (fold_left (fun d cap => replace (fst cap) (snd cap) d) (path_caps (heads t))
            (show_with full_head sp t)) with (drop_paths (path_caps (heads t)) (show_with full_head sp t)).
  rewrite (drop_type sp t W A).
  set (d := show_with short_head sp t). fold (captured d).
  change (fold_left _ (captured d) d) with (put_roles (captured d) d).
  pose proof (plain_names _ _ _ P) as NI.
  assert (forall x, In x (captured d) -> In x N) as S1 by exact (type_names N sp t F NI).
  assert (put_roles (captured d) d = show_with short_head sp (Node [] mc (fs ++ [Node [] n a]))) as ->.
  { unfold d at 2. rewrite put_roles_show.
    - apply (put_roles_plain N); [exact F|exact P|exact S1|].
      intros path x X J. exact (name_heads N t x path NI J sp F X).
    - intros z Z. destruct F as [F _]. destruct (F z (S1 z Z)) as (P1 & P2 & _). now split. }
  pose proof (plain_wordy _ _ _ P W) as W'.
  rewrite (no_space_show sp _ W').
  assert (get_blocks (short (Node [] mc (fs ++ [Node [] n a]))) = map short (fs ++ [Node [] n a])) as GB
    by exact (get_blocks_type short_head false [] mc _ (short_calm _ W')).
  rewrite !GB. rewrite map_app at 1. cbn [map]. rewrite rev_app_distr. cbn [rev app].
  destruct (wordy_node _ _ _ W') as (_ & _ & Wa). apply Forall_app in Wa. destruct Wa as [_ Wa].
  inversion Wa as [|? ? Wl _]; subst. destruct (wordy_node _ _ _ Wl) as (_ & Wn & _).
  destruct (first_run n a Wn) as [l E]. rewrite E. reflexivity.
Qed.
