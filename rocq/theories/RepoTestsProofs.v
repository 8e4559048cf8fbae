(** Proofs for the repository's tests of the nuscr reader: matching lines that contain any words. *)
From Coq Require Import Ascii String Lia Bool Permutation List.
From Verif Require Import Checker Nuscr NuscrSpec Regex NuscrText NuscrTextSpec RegexProofs NuscrRead CheckerText.
Import ListNotations.
Open Scope list_scope.

Lemma search_step r c s : ways r [] (c :: s) = [] -> search r (c :: s) = search r s.
Proof. intros E. cbn [search]. now rewrite E. Qed.

(** All the message expressions on a message, with any spacing. *)
Definition some {A} (o : option A) : bool := match o with Some _ => true | None => false end.

Lemma message_matches m s : message_text m s ->
  is_match MESSAGE s = true /\
  is_match MESSAGE_WITH_PAYLOAD s = (some (payload m) && negb (some (reset m))) /\
  is_match MESSAGE_WITH_RESET s = (negb (some (payload m)) && some (reset m)) /\
  is_match MESSAGE_WITH_PAYLOAD_AND_RESET s = (some (payload m) && some (reset m)).
Proof.
  intros H. destruct H as [i g1 g2 g3 g4 g5 g6 g7 p1 p2 p3 p4 g8 g9 g10 g11 p5 t H1 H2 H3 H4 H5 H6 H7 H8 Hi G1 G2
    G3 G4 G5 G6 G7 P1 P2 P3 P4 G8 G9 G10 G11 P5 Ht].
  set (s := i ++ _).
  change s with (whole m i g1 g2 g3 g4 g5 g6 g7 p1 p2 p3 p4 g8 g9 g10 g11 p5 t).
  split; [unfold is_match; now rewrite message_found by assumption|].
  assert (forall pay rst f, rejects pay (option_text (payload m)) \/
      reads pay (option_text (payload m)) f /\ rejects rst (option_text (reset m)) ->
      is_match (message_re pay rst) (whole m i g1 g2 g3 g4 g5 g6 g7 p1 p2 p3 p4 g8 g9 g10 g11 p5 t) = false) as N.
  { intros pay rst f H. unfold is_match. now rewrite search_message_none with (f := f) by assumption. }
  assert (forall pay rst f g, reads pay (option_text (payload m)) f -> reads rst (option_text (reset m)) g ->
      is_match (message_re pay rst) (whole m i g1 g2 g3 g4 g5 g6 g7 p1 p2 p3 p4 g8 g9 g10 g11 p5 t) = true) as Y.
  { intros pay rst f g Hp Hr. unfold is_match. now rewrite (search_message m i g1 g2 g3 g4 g5 g6 g7 p1 p2 p3 p4 g8 g9 g10 g11
      p5 t) with (f := f) (g := g) by assumption. }
  assert (R : forall n w, word w -> reads (Cap n wordchars1) w (hset n w)) by (intros; now apply reads_some).
  unfold MESSAGE_WITH_PAYLOAD, MESSAGE_WITH_RESET, MESSAGE_WITH_PAYLOAD_AND_RESET.
  destruct (payload m) as [w|], (reset m) as [w'|]; cbn [option_text option_word some negb andb] in *.
  - split; [|split].
    + eapply N. right. split; [apply R; assumption|apply rejects_some; assumption].
    + eapply N with (f := fun e => e). left. apply rejects_some; assumption.
    + eapply Y; apply R; assumption.
  - split; [|split].
    + eapply Y; [apply R; assumption|apply reads_none].
    + eapply N with (f := fun e => e). left. apply rejects_some; assumption.
    + eapply N. right. split; [apply R; assumption|apply rejects_none].
  - split; [|split].
    + eapply N with (f := fun e => e). left. apply rejects_none.
    + eapply Y; [apply reads_none|apply R; assumption].
    + eapply N with (f := fun e => e). left. apply rejects_none.
  - split; [|split].
    + eapply N with (f := fun e => e). left. apply rejects_none.
    + eapply N. right. split; [apply reads_none|apply rejects_none].
    + eapply N with (f := fun e => e). left. apply rejects_none.
Qed.

(** A line that starts with known letters, none of which starts a match. *)
Ltac known := repeat (rewrite search_step by (vm_compute; reflexivity)).

Lemma global_found w t x l : word w -> 
  (forall e, ways (Seq (Plus role_item) (Lit (lit ")") (Seq spaces (Opt (Chr (Ascii.eqb "{")))))) e t = (e, x) :: l e) ->
  is_match GLOBAL (lit "timed global protocol " ++ w ++ lit "(" ++ t) = true.
Proof.
  intros Hw E. unfold is_match.
  change (lit "timed global protocol " ++ w ++ lit "(" ++ t) with
    (lit "timed" ++ lit " " ++ lit "global" ++ lit " " ++ lit "protocol" ++ lit " " ++ w ++ lit "(" ++ t).
  assert (gap (lit " ")) as G by (split; [discriminate|repeat constructor]).
  erewrite search_here; [reflexivity|]. unfold GLOBAL.
  repeat step. apply E.
Qed.

Lemma choice_found w t x l : word w -> stops is_word t ->
  (forall e, ways (Seq spaces (Opt (Chr (Ascii.eqb "{")))) e t = (e, x) :: l e) ->
  is_match CHOICE (lit "choice at " ++ w ++ t) = true.
Proof.
  intros Hw Ht E. unfold is_match.
  change (lit "choice at " ++ w ++ t) with (lit "choice" ++ lit " " ++ lit "at" ++ lit " " ++ w ++ t).
  assert (gap (lit " ")) as G by (split; [discriminate|repeat constructor]).
  destruct (last_cap is_word (lit "choice") w [] t (proj1 Hw) (proj2 (word_all _ Hw)) Ht) as [l1 E1].
  destruct (first_seq _ (Seq spaces (Opt (Chr (Ascii.eqb "{")))) [] (w ++ t) _ _ _ _ _ E1 (E _)) as [l2 E2].
  erewrite search_here; [reflexivity|]. unfold CHOICE. step. step. step. step. exact E2.
Qed.

Lemma rec_found w t : word w -> stops is_word t -> is_match REC (lit "rec " ++ w ++ t) = true.
Proof.
  intros Hw Ht. unfold is_match. change (lit "rec " ++ w ++ t) with (lit "rec" ++ lit " " ++ w ++ t).
  assert (gap (lit " ")) as G by (split; [discriminate|repeat constructor]).
  destruct (last_cap is_word (lit "loop") w [] t (proj1 Hw) (proj2 (word_all _ Hw)) Ht) as [l1 E1].
  erewrite search_here; [reflexivity|]. unfold REC. step. step. exact E1.
Qed.

Lemma continue_found w : word w -> is_match CONTINUE (lit "continue " ++ w ++ lit ";") = true.
Proof.
  intros Hw. unfold is_match.
  assert (gap (lit " ")) as G by (split; [discriminate|repeat constructor]).
  assert (pad []) as P by constructor.
  change (lit "continue " ++ w ++ lit ";") with (lit "continue" ++ lit " " ++ w ++ [] ++ lit ";" ++ []).
  erewrite search_here; [reflexivity|]. unfold CONTINUE. step. step. step. step. reflexivity.
Qed.

Lemma global_lost w t : word w -> search GLOBAL (lit "(" ++ t) = None ->
  is_match GLOBAL (lit "global protocol " ++ w ++ lit "(" ++ t) = false.
Proof.
  intros Hw E. unfold is_match, GLOBAL in *.
  change (lit "global protocol " ++ w ++ lit "(" ++ t) with
    (lit "global" ++ lit " " ++ lit "protocol" ++ lit " " ++ w ++ lit "(" ++ t).
  skip (lit "timed"). skip (lit "timed"). skip (lit "timed"). skip (lit "timed"). skip (lit "timed").
  change (lit "(" ++ t) with ("("%char :: t) in *. cbn [app lit list_ascii_of_string] in E |- *. now rewrite E.
Qed.

Lemma choice_lost w : word w -> is_match CHOICE (lit "choice t " ++ w ++ lit " {") = false /\
  is_match CHOICE (lit "offer at " ++ w ++ lit " {") = false.
Proof.
  intros Hw. assert (search CHOICE (w ++ lit " {") = None) as E.
  { apply space_none; [exact choice_space|]. apply nopair_a; [nones|]. apply nopair_end. nones. }
  split; unfold is_match; cbn [lit list_ascii_of_string app]; known.
  - change (match search CHOICE (w ++ lit " {") with Some _ => true | None => false end = false). now rewrite E.
  - change (match search CHOICE (w ++ lit " {") with Some _ => true | None => false end = false). now rewrite E.
Qed.

Lemma or_lost w : word w -> is_match OR (lit "   } or " ++ w ++ lit "  {    ") = false.
Proof.
  intros Hw. unfold is_match.
  change (lit "   } or " ++ w ++ lit "  {    ") with
    (" "%char :: " "%char :: " "%char :: "}"%char :: lit " or " ++ w ++ lit "  {    ").
  do 3 (rewrite search_step by (vm_compute; reflexivity)). rewrite search_step.
  - rewrite or_brace; [reflexivity|]. apply none_app; [nones|]. apply none_app; nones.
  - change ("}"%char :: lit " or " ++ w ++ lit "  {    ") with (lit "}" ++ lit " " ++ lit "or" ++ lit " " ++ w ++ lit "  {    ").
    assert (pad (lit " ")) as P by repeat constructor. unfold OR. step. step. step. step.
    destruct Hw as [Hn Hw]. destruct w as [|c w]; [easy|]. apply no_start; [reflexivity|].
    inversion Hw as [|? ? Hc _]. subst. cbn [starts]. destruct (Ascii.eqb "{" c) eqn:E; [|reflexivity].
    apply Ascii.eqb_eq in E. subst c. apply word_char_b in Hc. discriminate.
Qed.

Lemma word_pair w : word w -> ~ pair spc is_word w.
Proof. intros Hw. rewrite <- (app_nil_r w). apply nopair_a; [nones|]. apply nopair_end. constructor. Qed.

Lemma rec_lost w : word w -> is_match REC (lit "rece " ++ w) = false.
Proof.
  intros Hw. unfold is_match. cbn [lit list_ascii_of_string app]. known.
  rewrite space_none; [reflexivity|exact rec_space|now apply word_pair].
Qed.
Lemma continue_lost w : word w -> is_match CONTINUE (lit "conti nue " ++ w) = false.
Proof.
  intros Hw. unfold is_match. cbn [lit list_ascii_of_string app]. known.
  rewrite space_none; [reflexivity|exact continue_space|now apply word_pair].
Qed.

(** ** Lists in any order *)

Fixpoint take_out {A} (d : forall a b : A, {a = b} + {a <> b}) (a : A) (l : list A) : option (list A) :=
  match l with
  | [] => None
  | b :: l => if d a b then Some l else option_map (cons b) (take_out d a l)
  end.
Fixpoint same_b {A} (d : forall a b : A, {a = b} + {a <> b}) (l l' : list A) : bool :=
  match l with
  | [] => match l' with [] => true | _ => false end
  | a :: l => match take_out d a l' with Some l'' => same_b d l l'' | None => false end
  end.
Lemma take_out_ok {A} d (a : A) l : forall l', take_out d a l = Some l' -> Permutation (a :: l') l.
Proof.
  induction l as [|b l IH]; intros l' H; [discriminate|]. cbn [take_out] in H. destruct (d a b) as [->|_].
  - injection H as <-. reflexivity.
  - destruct (take_out d a l) as [l2|]; [|discriminate]. injection H as <-. rewrite perm_swap. constructor. now apply IH.
Qed.
Lemma same_ok {A} d (l : list A) : forall l', same_b d l l' = true -> Permutation l l'.
Proof.
  induction l as [|a l IH]; intros l' H; cbn [same_b] in H; [destruct l'; [constructor|discriminate]|].
  destruct (take_out d a l') as [l2|] eqn:E; [|discriminate]. rewrite <- (take_out_ok _ _ _ _ E). constructor. now apply IH.
Qed.

Definition str_dec : forall a b : str, {a = b} + {a <> b}. Proof. repeat decide equality. Defined.
Definition struct_dec : forall a b : str * option str, {a = b} + {a <> b}. Proof. repeat decide equality. Defined.
Definition decl_dec : forall a b : decl, {a = b} + {a <> b}. Proof. repeat decide equality. Defined.
Definition enum_dec : forall a b : str * list str, {a = b} + {a <> b}. Proof. repeat decide equality. Defined.
Definition endpoint_dec : forall a b : endpoint, {a = b} + {a <> b}. Proof. repeat decide equality. Defined.
Definition function_dec : forall a b : str * list nat * nat * str * list str, {a = b} + {a <> b}.
Proof. repeat decide equality. Defined.
