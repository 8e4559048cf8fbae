(** * [clean_session] on the text of a reference: proofs for C45

    The variants of the enums are printed behind two references
    (mpst_seq_proc/src/checking/aux_checking_impl.rs:85-90), so that the path of
    the outermost name is captured together with "&&" and never found again. *)

From Coq Require Import Ascii String ZArith Lia Bool List.
From Verif Require Import Checker CheckerSpec CheckerText CheckerClean.
Import ListNotations.

Lemma drop_rest : forall hs p n,
  Forall (fun h => Forall word (fst h) /\ word (snd h)) hs -> Forall word p -> word n ->
  (forall h, In h hs -> fst h <> [] -> inside (full_head (fst h) (snd h)) (full_head p n) ->
     exists rest, full_head p n = full_head (fst h) (snd h) ++ rest /\ ~ In ":"%char rest) ->
  drop_paths (path_caps hs) (full_head p n) = n \/
  drop_paths (path_caps hs) (full_head p n) = full_head p n.
Proof.
  intros hs p n. destruct p as [|x0 p0].
  { intros W _ Wn _. left. apply drop_done; [now apply word_no_colon|].
    eapply Forall_impl; [|exact W]. cbn. tauto. }
  remember (x0 :: p0) as p eqn:Ep. assert (p <> []) as NE by now subst.
  clear Ep x0 p0. induction hs as [|[q m] hs IH]; intros W Wp Wn A; [now right|].
  inversion W as [|? ? [W1 W2] W3]; subst. cbn [fst snd] in *.
  assert (Forall (fun h => word (snd h)) hs) as W4.
  { eapply Forall_impl; [|exact W3]. cbn. tauto. }
  unfold drop_paths, path_caps. cbn [flat_map fst snd].
  destruct q as [|y q0].
  - apply IH; [exact W3|exact Wp|exact Wn|intros h Hh; apply A; now right].
  - remember (y :: q0) as q eqn:Eq. assert (q <> []) as NQ by now subst. clear Eq y q0.
    cbn [app fold_left fst snd].
    destruct (inside_dec (full_head q m) (full_head p n)) as [Ins|Ins].
    + destruct (A (q, m) (or_introl eq_refl) NQ Ins) as (rest & E & NR). cbn [fst snd] in E.
      left. rewrite E, replace_prefix; [|now apply full_not_nil|].
      * assert (n = m ++ rest) as ->.
        { destruct (path_ends p NE) as [x Ex]. destruct (path_ends q NQ) as [z Ez].
          unfold full_head in E. rewrite Ex, Ez in E.
          rewrite <- (app_assoc (z ++ lit ":") m rest) in E.
          apply (last_colon x n z (m ++ rest)); [now apply word_no_colon| |exact E].
          intros J. apply in_app_or in J. destruct J; [|contradiction].
          now apply (word_no_colon m). }
        apply (drop_done hs); [now apply word_no_colon|exact W4].
      * intros J. apply NR. apply (inside_in _ _ _ J), colon_in_path, NQ.
    + rewrite replace_not_inside; [|now apply full_not_nil|exact Ins].
      apply IH; [exact W3|exact Wp|exact Wn|intros h Hh; apply A; now right].
Qed.

Lemma full_quiet : forall path n, Forall word path -> word n -> Forall quiet_char (full_head path n).
Proof.
  intros path n P W. apply Forall_app. split; [|exact (word_quiet n W)].
  unfold path_text. induction P as [|s path Ws P IH]; [constructor|]. cbn [map concat].
  rewrite <- app_assoc. apply Forall_app. split; [exact (word_quiet s Ws)|].
  apply Forall_app. split; [|exact IH]. repeat constructor; discriminate.
Qed.

(** The head of a type behind "&&" has a capture that is not in the text. *)
Lemma amp_captures : forall path n, Forall word path -> word n ->
  exists caps, colon_captures (lit "&&" ++ full_head path n) = caps /\
    forall s, ~ In "&"%char s -> fold_left (fun d cap => replace (fst cap) (snd cap) d) caps s = s.
Proof.
  intros path n P W. eexists. split; [reflexivity|]. intros s NA.
  unfold colon_captures. rewrite runs_all.
  - cbn [rev app lit list_ascii_of_string flat_map]. rewrite app_nil_r.
    destruct (after_colons true _) as [r|]; [|reflexivity].
    cbn [fold_left fst snd]. apply replace_not_inside; [discriminate|].
    intros J. apply NA. apply (inside_in _ _ _ J). now left.
  - apply Forall_app. split; [repeat constructor|].
    eapply Forall_impl; [|exact (full_no_sep path n P W)]. cbn. intros c ->. reflexivity.
Qed.

Lemma amp_not_in : forall sp t, wordy t -> ~ In "&"%char (show_with full_head sp t).
Proof.
  intros sp t W I. rewrite <- (no_amp_show sp t W) in I. apply filter_In in I.
  destruct I as [_ I]. discriminate I.
Qed.

Theorem clean_session_ref : forall N t mc fs n a,
  wordy t -> paths_apart t -> names_fit N ->
  plain N t (Node [] mc (fs ++ [Node [] n a])) ->
  ~ named (match t with Node path name _ => full_head path name end) ->
  clean_session (lit "&&" ++ type_name t) = Ok (map short (fs ++ [Node [] n a]) ++ [n]).
Proof.
  intros N t mc fs n a W A F P NN. unfold clean_session.
  rewrite filter_app. unfold type_name. rewrite (no_amp_show true t W).
  cbn [lit list_ascii_of_string filter app Ascii.eqb Bool.eqb negb].
  destruct t as [path name args].
  assert (name = mc /\ ~ named mc /\ Forall2 (plain N) args (fs ++ [Node [] n a])) as (-> & Nmc & Pa).
  { inversion P as [p x X|p n' a0 a' Nn Pa]; subst.
    - exfalso. apply NN. destruct F as [F _]. destruct (F x X) as (F1 & F2 & _).
      apply (inside_name_alpha x); [exact F1|exact F2|]. unfold full_head, name_of.
      exists (path_text path), []. now rewrite app_nil_r.
    - now split. }
  assert (args <> []) as NE.
  { intros ->. clear -Pa. remember (fs ++ [Node [] n a]) as us eqn:Eu. inversion Pa; subst us.
    destruct fs; discriminate. }
  destruct (wordy_node _ _ _ W) as (Wp & Wm & Wa).
  set (X := join (comma true) (map (show_with full_head true) args)).
  assert (show_with full_head true (Node path mc args) = full_head path mc ++ "<"%char :: X ++ lit ">") as St.
  { rewrite show_args. destruct args; [congruence|reflexivity]. }
  assert (colon_captures (X ++ lit ">") = path_caps (flat_map heads args)) as Cr.
  { pose proof (type_captures true _ W) as C. rewrite St, colon_captures_sep in C by reflexivity.
    rewrite (head_captures path mc Wp Wm) in C. cbn [heads] in C. unfold path_caps in C.
    cbn [flat_map fst snd] in C. fold (path_caps (flat_map heads args)) in C.
    destruct path; [exact C|]. now apply app_inv_head in C. }
  change ("&"%char :: "&"%char :: show_with full_head true (Node path mc args))
    with (lit "&&" ++ show_with full_head true (Node path mc args)).
  destruct (amp_captures path mc Wp Wm) as (caps & Ec & Hc).
  replace (colon_captures (lit "&&" ++ show_with full_head true (Node path mc args)))
    with (caps ++ path_caps (flat_map heads args)).
  2:{ rewrite St, app_assoc, colon_captures_sep by reflexivity. now rewrite Ec, Cr. }
  rewrite fold_left_app, (Hc _ (amp_not_in true _ W)).
  set (hs := flat_map heads args).
  change (fold_left (fun d cap => replace (fst cap) (snd cap) d) (path_caps hs)
            (show_with full_head true (Node path mc args)))
    with (drop_paths (path_caps hs) (show_with full_head true (Node path mc args))).
  assert (Forall (fun h => Forall word (fst h) /\ word (snd h)) hs) as Wh.
  { unfold wordy in W. cbn [heads] in W. now inversion W. }
  rewrite (drop_show hs full_head true _ Wh).
  assert (exists H, drop_paths (path_caps hs) (full_head path mc) = H /\ Forall quiet_char H /\ ~ named H)
    as (H & EH & QH & NH).
  { destruct (drop_rest hs path mc Wh Wp Wm) as [Q|Q].
    - intros h Hh NE' Ins. apply (A h (path, mc)); [now right|now left|exact NE'|exact Ins].
    - exists mc. split; [exact Q|]. split; [exact (word_quiet mc Wm)|exact Nmc].
    - exists (full_head path mc). split; [exact Q|]. split; [now apply full_quiet|exact NN]. }
  set (d := show_with short_head true (Node [] H args)).
  assert (show_with (fun p m => drop_paths (path_caps hs) (full_head p m)) true (Node path mc args) = d) as ->.
  { unfold d. rewrite !show_args. rewrite EH. unfold short_head at 1. f_equal.
    destruct args as [|a0 args']; [congruence|]. do 3 f_equal. apply map_ext_in. intros u Hu.
    apply show_ext. intros [p m] I. cbn [fst snd]. unfold short_head.
    assert (In (p, m) hs) as Ih by (apply in_flat_map; now exists u).
    pose proof Wh as W'. rewrite Forall_forall in W'. destruct (W' _ Ih) as [W1 W2].
    apply drop_head; [exact Wh|exact W1|exact W2| |now right].
    intros h Hh NE' Ins. apply (A h (p, m)); [now right|now right|exact NE'|exact Ins]. }
  fold (captured d). change (fold_left _ (captured d) d) with (put_roles (captured d) d).
  set (us := fs ++ [Node [] n a]) in *.
  assert (plain N (Node [] H args) (Node [] H us)) as P' by now constructor.
  pose proof (plain_names _ _ _ P') as NI.
  assert (forall x, In x (captured d) -> In x N) as S1 by exact (type_names N true _ F NI).
  assert (put_roles (captured d) d = show_with short_head true (Node [] H us)) as ->.
  { unfold d at 2. rewrite put_roles_show.
    - apply (put_roles_plain N); [exact F|exact P'|exact S1|].
      intros p x X0 J. exact (name_heads N _ x p NI J true F X0).
    - intros z Z. destruct F as [F _]. destruct (F z (S1 z Z)) as (P1 & P2 & _). now split. }
  pose proof (plain_wordy _ _ _ P W) as W'.
  assert (filter (fun c => negb (is_space c)) (show_with short_head true (Node [] H us)) =
          show_with short_head false (Node [] H us)) as ->.
  { pose proof (no_space_show true _ W') as Z. unfold short in Z. rewrite !show_args in Z |- *.
    rewrite filter_app in Z |- *. unfold short_head at 1 in Z. unfold short_head at 2 in Z.
    rewrite (word_no_space _ Wm) in Z. apply app_inv_head in Z. rewrite Z. unfold short_head at 1.
    unfold short_head at 1. f_equal. apply filter_id. eapply Forall_impl; [|exact QH].
    intros c Q. destruct (quiet_tests c Q) as (_ & E & _). now rewrite E. }
  assert (get_blocks (show_with short_head false (Node [] H us)) = map short us) as GB.
  { apply (get_blocks_type short_head false [] H us).
    pose proof (short_calm _ W') as C. unfold calm in *. cbn [heads] in *.
    inversion C as [|? ? C1 C2]; subst. constructor; [exact QH|exact C2]. }
  rewrite !GB. unfold us at 1. rewrite map_app. cbn [map]. rewrite rev_app_distr. cbn [rev app].
  destruct (wordy_node _ _ _ W') as (_ & _ & Wa'). apply Forall_app in Wa'. destruct Wa' as [_ Wa'].
  inversion Wa' as [|? ? Wl _]; subst. destruct (wordy_node _ _ _ Wl) as (_ & Wn & _).
  destruct (first_run n a Wn) as [l E]. rewrite E. reflexivity.
Qed.
