(** * Each line of a protocol is read as what was written

    The lemmas behind C39: the regular expressions of NuscrText.v on the texts
    of NuscrTextSpec.v. *)

From Coq Require Import Ascii String Bool Arith Lia List.
From Verif Require Import Checker CheckerText Nuscr NuscrSpec NuscrMaps Regex RegexProofs NuscrText NuscrTextSpec.
Import ListNotations.

(** ** Characters *)

Lemma word_char_b c : word_char c <-> is_word c = true.
Proof.
  unfold word_char, digit, is_word, is_alpha, is_digit. cbv zeta.
  rewrite !orb_true_iff, !andb_true_iff, !Nat.leb_le, Ascii.eqb_eq. tauto.
Qed.
Lemma digit_b c : digit c <-> is_digit c = true.
Proof. unfold digit, is_digit. cbv zeta. now rewrite andb_true_iff, !Nat.leb_le. Qed.
Lemma digit_word c : is_digit c = true -> is_word c = true.
Proof. intros H. apply word_char_b. left. now apply digit_b. Qed.

Definition all (p : ascii -> bool) (w : str) : Prop := Forall (fun c => p c = true) w.
Definition none (p : ascii -> bool) (w : str) : Prop := Forall (fun c => p c = false) w.
Definition spc (c : ascii) : bool := Ascii.eqb " " c.

Lemma word_all w : word w -> w <> [] /\ all is_word w.
Proof. intros [Hn H]. split; [exact Hn|]. eapply Forall_impl; [|exact H]. intros c. apply word_char_b. Qed.
Lemma natural_all w : natural w -> w <> [] /\ all is_digit w.
Proof. intros [Hn H]. split; [exact Hn|]. eapply Forall_impl; [|exact H]. intros c. apply digit_b. Qed.
Lemma natural_word w : natural w -> word w.
Proof. intros [Hn H]. split; [exact Hn|]. eapply Forall_impl; [|exact H]. intros c Hc. now left. Qed.
Lemma pad_all w : pad w -> all (Ascii.eqb " ") w.
Proof. intros H. eapply Forall_impl; [|exact H]. intros c <-. reflexivity. Qed.
Lemma gap_all w : gap w -> w <> [] /\ all (Ascii.eqb " ") w.
Proof. intros [Hn H]. split; [exact Hn|now apply pad_all]. Qed.
Lemma pad_margin w : pad w -> margin w.
Proof. intros H. eapply Forall_impl; [|exact H]. intros c <-. now left. Qed.

(** Characters of a margin, of a word. *)
Definition off_margin (q : ascii -> bool) : bool := negb (q " "%char) && negb (q "009"%char).
Definition off_word (q : ascii -> bool) : bool :=
  forallb (fun n => let c := ascii_of_nat n in negb (is_word c && q c)) (seq 0 256).
Lemma margin_none q w : off_margin q = true -> margin w -> none q w.
Proof.
  unfold off_margin. rewrite andb_true_iff, !negb_true_iff. intros [H1 H2] H. eapply Forall_impl; [|exact H].
  now intros c [->| ->].
Qed.
Lemma word_none q w : off_word q = true -> word w -> none q w.
Proof.
  unfold off_word. rewrite forallb_forall. intros H [_ Hw]. eapply Forall_impl; [|exact Hw].
  intros c Hc. apply word_char_b in Hc.
  assert (In (nat_of_ascii c) (seq 0 256)) as Hin by (apply in_seq; pose proof (nat_ascii_bounded c); lia).
  specialize (H _ Hin). cbv beta zeta in H. rewrite ascii_nat_embedding, Hc in H. now apply negb_true_iff in H.
Qed.

Lemma stops_none q w s : none q w -> w <> [] -> stops q (w ++ s).
Proof. intros H Hn. destruct H as [|c w Hc Hw]; [easy|]. exact Hc. Qed.
Lemma stops_pad q w s : none q w -> stops q s -> stops q (w ++ s).
Proof. intros H Hs. destruct H as [|c w Hc Hw]; [exact Hs|]. exact Hc. Qed.
Lemma stops_end q w : none q w -> stops q w.
Proof. intros H. destruct H as [|c w Hc Hw]; [exact Logic.I|exact Hc]. Qed.

(** Solves [stops q s] and [none q s] on the texts. *)
Ltac nones :=
  match goal with
  | H : word ?w |- none _ ?w => apply word_none; [vm_compute; reflexivity|exact H]
  | H : natural ?w |- none _ ?w => apply word_none; [vm_compute; reflexivity|exact (natural_word _ H)]
  | H : gap ?w |- none _ ?w => apply margin_none; [vm_compute; reflexivity|exact (pad_margin _ (proj2 H))]
  | H : pad ?w |- none _ ?w => apply margin_none; [vm_compute; reflexivity|exact (pad_margin _ H)]
  | H : margin ?w |- none _ ?w => apply margin_none; [vm_compute; reflexivity|exact H]
  | |- none _ (left_text ?b) => destruct b; solve [repeat constructor]
  | |- none _ (right_text ?b) => destruct b; solve [repeat constructor]
  | |- none _ (lit _) => solve [repeat (apply Forall_cons; [vm_compute; reflexivity|]); apply Forall_nil]
  end.
Ltac stop :=
  match goal with
  | |- stops _ (lit _ ++ _) => exact eq_refl
  | |- stops _ (left_text ?b ++ _) => destruct b; exact eq_refl
  | |- stops _ (right_text ?b ++ _) => destruct b; exact eq_refl
  | H : word ?w |- stops _ (?w ++ _) => apply stops_none; [nones|exact (proj1 H)]
  | H : natural ?w |- stops _ (?w ++ _) => apply stops_none; [nones|exact (proj1 H)]
  | H : gap ?w |- stops _ (?w ++ _) => apply stops_none; [nones|exact (proj1 H)]
  | H : pad ?w |- stops _ (?w ++ _) => apply stops_pad; [nones|stop]
  | H : margin ?w |- stops _ (?w ++ _) => apply stops_pad; [nones|stop]
  | H : margin ?w |- stops _ ?w => apply stops_end; nones
  end.

(** One item of an expression on one item of a text. *)
Lemma step_bracket n k e c s : c = "["%char \/ c = "]"%char ->
  ways (Seq (Cap n bracket) k) e ([c] ++ s) = ways k (hset n [c] e) s.
Proof.
  intros H. assert (ways bracket e ([c] ++ s) = [(e, s)]) as E by now destruct H as [-> | ->].
  change (flat_map (fun x => ways k (fst x) (snd x))
    (map (fun x => (hset n (firstn (length ([c] ++ s) - length (snd x)) ([c] ++ s)) (fst x), snd x))
       (ways bracket e ([c] ++ s))) = ways k (hset n [c] e) s).
  rewrite E. cbn [map flat_map fst snd]. rewrite firstn_read. apply app_nil_r.
Qed.
Lemma step_left n k e b s :
  ways (Seq (Cap n bracket) k) e (left_text b ++ s) = ways k (hset n (left_text b) e) s.
Proof. destruct b; apply step_bracket; tauto. Qed.
Lemma step_right n k e b s :
  ways (Seq (Cap n bracket) k) e (right_text b ++ s) = ways k (hset n (right_text b) e) s.
Proof. destruct b; apply step_bracket; tauto. Qed.

Ltac step :=
  first
  [ rewrite step_lit
  | rewrite step_left
  | rewrite step_right
  | match goal with
    | H : gap ?g |- context [ways (Seq spaces1 ?k) ?e (?g ++ ?s)] =>
        rewrite (step_plus (Ascii.eqb " ") _ g);
          [|vm_compute; reflexivity|exact (proj1 H)|exact (pad_all _ (proj2 H))|stop]
    | H : pad ?g |- context [ways (Seq spaces ?k) ?e (?g ++ ?s)] =>
        rewrite (step_star (Ascii.eqb " ") _ g);
          [|vm_compute; reflexivity|exact (pad_all _ H)|stop]
    | H : word ?g |- context [ways (Seq (Cap ?n wordchars1) ?k) ?e (?g ++ ?s)] =>
        rewrite (step_cap is_word _ _ g);
          [|vm_compute; reflexivity|exact (proj1 H)|exact (proj2 (word_all _ H))|stop]
    | H : natural ?g |- context [ways (Seq (Cap ?n (Plus (Chr is_digit))) ?k) ?e (?g ++ ?s)] =>
        rewrite (step_cap is_digit _ _ g);
          [|vm_compute; reflexivity|exact (proj1 H)|exact (proj2 (natural_all _ H))|stop]
    end ].

(** ** Messages *)

Definition reads (r : re) (w : str) (f : hmap str -> hmap str) : Prop :=
  forall k e s, ways (Seq r (Lit (lit ")") k)) e (w ++ lit ")" ++ s) = ways (Lit (lit ")") k) (f e) (lit ")" ++ s).
Definition rejects (r : re) (w : str) : Prop :=
  forall k e s, ways (Seq r (Lit (lit ")") k)) e (w ++ lit ")" ++ s) = [].

Lemma reads_any o : option_word o -> reads wordchars (option_text o) (fun e => e).
Proof.
  intros H k e s. apply step_star; [vm_compute; reflexivity| |reflexivity].
  destruct o as [w|]; [exact (proj2 (word_all _ H))|constructor].
Qed.
Lemma reads_some n w : word w -> reads (Cap n wordchars1) w (hset n w).
Proof.
  intros H k e s. apply step_cap; [vm_compute; reflexivity|exact (proj1 H)|exact (proj2 (word_all _ H))|reflexivity].
Qed.
Lemma reads_none : reads Eps [] (fun e => e).
Proof. intros k e s. cbn [ways flat_map fst snd app]. apply app_nil_r. Qed.
Lemma rejects_none n : rejects (Cap n wordchars1) [].
Proof. intros k e s. apply no_start; reflexivity. Qed.
Lemma rejects_some w : word w -> rejects Eps w.
Proof.
  intros [Hn H] k e s. destruct w as [|c w]; [easy|]. apply no_start; [reflexivity|].
  assert (Ascii.eqb ")" c = false) as E; [|change (Ascii.eqb ")" c || false && starts k c = false); now rewrite E].
  apply Ascii.eqb_neq. intros <-. inversion H as [|? ? Hc _]. apply word_char_b in Hc. discriminate.
Qed.

(** The end of the expression. *)
Definition last_re : re := Lit (lit ")") (Seq spaces (Chr (Ascii.eqb ";"))).
Definition after_re (rst : re) : re :=
  Lit (lit ")") (Seq spaces1
  (Lit (lit "from") (Seq spaces1 (Seq (Cap (lit "sender") wordchars1) (Seq spaces1
  (Lit (lit "to") (Seq spaces1 (Seq (Cap (lit "receiver") wordchars1) (Seq spaces1
  (Lit (lit "within") (Seq spaces1 (Seq (Cap (lit "left_bracket") bracket) (Seq spaces
  (Seq (Cap (lit "left_bound") (Plus (Chr is_digit))) (Seq spaces (Lit (lit ";") (Seq spaces
  (Seq (Cap (lit "right_bound") (Plus (Chr is_digit))) (Seq spaces
  (Seq (Cap (lit "right_bracket") bracket) (Seq spaces1
  (Lit (lit "using") (Seq spaces1 (Seq (Cap (lit "clock") wordchars1) (Seq spaces1
  (Lit (lit "and") (Seq spaces1 (Lit (lit "resetting") (Seq spaces1
  (Lit (lit "(") (Seq rst last_re))))))))))))))))))))))))))))))).
Lemma message_re_eq pay rst :
  message_re pay rst = Seq (Cap (lit "message") wordchars1) (Lit (lit "(") (Seq pay (after_re rst))).
Proof. reflexivity. Qed.

(** The groups of a message. *)
Definition fields (m : msg) (e : hmap str) : hmap str :=
  hset (lit "clock") (clock m) (hset (lit "right_bracket") (right_text (ri m))
    (hset (lit "right_bound") (rb m) (hset (lit "left_bound") (lb m)
    (hset (lit "left_bracket") (left_text (li m)) (hset (lit "receiver") (receiver m)
    (hset (lit "sender") (sender m) e)))))).

(** ** Where an expression cannot match *)

Lemma nopair_a p q u s : none p u -> ~ pair p q s -> ~ pair p q (u ++ s).
Proof.
  intros H Hs. induction H as [|c u Hc Hu IH]; [exact Hs|]. intros (a & c' & d & b & E & Ec & Ed).
  destruct a as [|x a]; cbn in E; injection E as <- E; [congruence|]. apply IH. now exists a, c', d, b.
Qed.
Lemma nopair_b p q u s : none q u -> stops q s -> ~ pair p q s -> ~ pair p q (u ++ s).
Proof.
  intros H Hst Hs. induction H as [|c u Hc Hu IH]; [exact Hs|]. intros (a & c' & d & b & E & Ec & Ed).
  destruct a as [|x a]; cbn in E.
  - injection E as <- E. destruct Hu as [|e u He Hu]; cbn in E.
    + subst s. cbn in Hst. congruence.
    + injection E as -> _. congruence.
  - injection E as <- E. apply IH. now exists a, c', d, b.
Qed.
Lemma nopair_end p q u : none q u -> ~ pair p q u.
Proof.
  intros H (a & c & d & b & -> & _ & Hd). apply Forall_app in H as [_ H]. inversion H as [|? ? _ H']. subst.
  inversion H'. congruence.
Qed.
Ltac nopair := repeat first [apply nopair_end; nones | apply nopair_a; [nones|] | apply nopair_b; [nones|stop|]].

Lemma skip_none r u s : nullable r = false -> none (starts r) u -> search r (u ++ s) = search r s.
Proof.
  intros N H. apply search_skip. intros v a -> Hv. apply Forall_app in H as [_ H].
  destruct H as [|c v Hc H]; [easy|]. now apply no_start.
Qed.

Lemma den_lit w k u : den (Lit w k) u -> exists v, u = w ++ v /\ den k v.
Proof.
  revert u. induction w as [|c w IH]; intros u H; [now exists u|]. cbn [Lit] in H.
  inversion H as [| |? ? u1 u2 H1 H2| | | | |]; subst. inversion H1 as [|? d E| | | | | |]; subst.
  apply Ascii.eqb_eq in E. subst d. destruct (IH _ H2) as (v & -> & Hv). now exists v.
Qed.

Lemma word_split v w s s' : all is_word v -> all is_word w -> stops is_word s -> stops is_word s' ->
  v ++ s = w ++ s' -> v = w /\ s = s'.
Proof.
  intros Hv. revert w. induction Hv as [|c v Hc Hv IH]; intros w Hw Hs Hs' E.
  - destruct Hw as [|d w Hd Hw]; [now split|]. cbn in E. subst s. cbn in Hs. congruence.
  - destruct Hw as [|d w Hd Hw]; cbn in E.
    + subst s'. cbn in Hs'. congruence.
    + injection E as <- E. destruct (IH w Hw Hs Hs' E) as [-> ->]. now split.
Qed.

(** A keyword cannot match inside a word, unless it ends the word and a space
    follows. *)
Lemma skip_word L k w s : word L -> first_b spc k = true -> word w -> stops is_word s ->
  stops spc s \/ ~ ends_with L w -> search (Lit L k) (w ++ s) = search (Lit L k) s.
Proof.
  intros HL Hk Hw Hs Hc. apply search_skip. intros v a Ew Hv. apply ways_nil. intros u s' E Hu.
  apply den_lit in Hu as (x & -> & Hx). apply (first_ok spc) in Hx as (d & y & -> & Hd); [|exact Hk].
  unfold spc in Hd. apply Ascii.eqb_eq in Hd. subst d. rewrite <- app_assoc in E.
  apply word_split in E as [-> ->]; [| |exact (proj2 (word_all _ HL))|exact Hs|reflexivity].
  - destruct Hc as [Hc|Hc]; [discriminate Hc|]. apply Hc. now exists a.
  - apply word_all in Hw as [_ Hw]. exact (forall_end _ _ _ _ Hw Ew).
Qed.

Definition ends_with_b (e w : str) : bool := existsb (seqb e) (ends w).
Lemma ends_with_ok e w : ends_with_b e w = false -> ~ ends_with e w.
Proof.
  intros H [u ->]. unfold ends_with_b in H. assert (existsb (seqb e) (ends (u ++ e)) = true) as K; [|congruence].
  apply existsb_exists. exists e. split; [|apply seqb_refl]. clear H. induction u as [|c u IH]; cbn [app ends].
  - destruct e; [now left|]. cbn [ends]. apply in_app_iff. right. now left.
  - apply in_app_iff. now left.
Qed.
Lemma word_lit_b w : match w with [] => false | _ => forallb is_word w end = true -> word w.
Proof.
  destruct w as [|c w]; [easy|]. intros H. split; [discriminate|]. apply Forall_forall. intros x Hx.
  apply word_char_b. rewrite forallb_forall in H. now apply H.
Qed.
Lemma skip_other L k u s : word L -> none is_word u -> search (Lit L k) (u ++ s) = search (Lit L k) s.
Proof.
  intros [Hn HL] H. destruct L as [|c L]; [easy|]. inversion HL as [|? ? Hc _]. subst.
  apply skip_none; [reflexivity|]. eapply Forall_impl; [|exact H]. intros d Hd. cbn beta in Hd.
  cbn [Lit starts nullable]. rewrite orb_false_r. apply Ascii.eqb_neq. intros <-. apply word_char_b in Hc. congruence.
Qed.

Lemma natural_rec w : natural w -> ~ ends_with (lit "rec") w.
Proof.
  intros [_ H] [u ->]. apply Forall_app in H as [_ H]. inversion H as [|? ? Hc _]. apply digit_b in Hc. discriminate.
Qed.

(** Skips one item of a text. *)
Ltac skip L :=
  match goal with
  | |- context [search _ (lit ?w ++ ?s)] =>
      first
      [ assert (none is_word (lit w)) by nones;
        rewrite (skip_other L _ (lit w) s); [|apply word_lit_b; reflexivity|assumption]
      | rewrite (skip_word L _ (lit w) s);
        [|apply word_lit_b; reflexivity|vm_compute; reflexivity|apply word_lit_b; reflexivity|stop|
          first [left; stop|right; apply ends_with_ok; vm_compute; reflexivity]] ]
  | H : word ?w |- context [search _ (?w ++ ?s)] =>
      rewrite (skip_word L _ w s);
        [|apply word_lit_b; reflexivity|vm_compute; reflexivity|exact H|stop|
          first [left; stop|right; assumption]]
  | H : natural ?w |- context [search _ (?w ++ ?s)] =>
      rewrite (skip_word L _ w s);
        [|apply word_lit_b; reflexivity|vm_compute; reflexivity|exact (natural_word _ H)|stop|
          first [left; stop|right; exact (natural_rec _ H)]]
  | |- context [search _ (?w ++ ?s)] =>
      rewrite (skip_other L _ w s); [|apply word_lit_b; reflexivity|nones]
  end.

Section Message.
  Variable m : msg.
  Variables i g1 g2 g3 g4 g5 g6 g7 p1 p2 p3 p4 g8 g9 g10 g11 p5 t : str.
  Hypothesis (H1 : word (label m)) (H2 : option_word (payload m)) (H3 : word (sender m)) (H4 : word (receiver m))
    (H5 : natural (lb m)) (H6 : natural (rb m)) (H7 : word (clock m)) (H8 : option_word (reset m)).
  Hypothesis (Hi : margin i) (G1 : gap g1) (G2 : gap g2) (G3 : gap g3) (G4 : gap g4) (G5 : gap g5) (G6 : gap g6)
    (G7 : gap g7) (P1 : pad p1) (P2 : pad p2) (P3 : pad p3) (P4 : pad p4) (G8 : gap g8) (G9 : gap g9)
    (G10 : gap g10) (G11 : gap g11) (P5 : pad p5) (Ht : margin t).

  Definition tail2 : str := lit ")" ++ p5 ++ lit ";" ++ t.
  Definition tail1 : str :=
    lit ")" ++ g1 ++ lit "from" ++ g2 ++ sender m ++ g3 ++ lit "to" ++ g4 ++ receiver m ++ g5 ++
      lit "within" ++ g6 ++ left_text (li m) ++ p1 ++ lb m ++ p2 ++ lit ";" ++ p3 ++ rb m ++ p4 ++
      right_text (ri m) ++ g7 ++ lit "using" ++ g8 ++ clock m ++ g9 ++ lit "and" ++ g10 ++
      lit "resetting" ++ g11 ++ lit "(" ++ option_text (reset m) ++ tail2.
  Definition tail : str := lit "(" ++ option_text (payload m) ++ tail1.

  Lemma after_ways rst e :
    ways (after_re rst) e tail1 = ways (Seq rst last_re) (fields m e) (option_text (reset m) ++ tail2).
  Proof. unfold after_re, tail1, fields. repeat step. reflexivity. Qed.

  Lemma last_ways e : ways last_re e tail2 = [(e, t)].
  Proof. unfold last_re, tail2. step. step. reflexivity. Qed.

  (** From a word that ends where the label ends. *)
  Lemma message_label pay rst w e : word w ->
    ways (message_re pay rst) e (w ++ tail) =
    ways (Seq pay (after_re rst)) (hset (lit "message") w e) (option_text (payload m) ++ tail1).
  Proof. intros Hw. rewrite message_re_eq. unfold tail. step. step. reflexivity. Qed.

  Lemma message_ways pay rst w f g e : word w ->
    reads pay (option_text (payload m)) f -> reads rst (option_text (reset m)) g ->
    ways (message_re pay rst) e (w ++ tail) = [(g (fields m (f (hset (lit "message") w e))), t)].
  Proof.
    intros Hw Hp Hr. rewrite message_label by exact Hw. unfold after_re. unfold tail1 at 1. rewrite Hp.
    change (ways (after_re rst) (f (hset (lit "message") w e)) tail1 = [(g (fields m (f (hset (lit "message") w e))), t)]).
    rewrite after_ways. unfold last_re, tail2. rewrite Hr. apply last_ways.
  Qed.

  Lemma message_fails pay rst w f e : word w ->
    rejects pay (option_text (payload m)) \/
    reads pay (option_text (payload m)) f /\ rejects rst (option_text (reset m)) ->
    ways (message_re pay rst) e (w ++ tail) = [].
  Proof.
    intros Hw H. rewrite message_label by exact Hw. unfold after_re. unfold tail1 at 1. destruct H as [Hp|[Hp Hr]].
    - apply Hp.
    - rewrite Hp.
      change (ways (after_re rst) (f (hset (lit "message") w e)) tail1 = []).
      rewrite after_ways. unfold last_re, tail2. apply Hr.
  Qed.

  Definition whole : str := i ++ label m ++ tail.

  Lemma message_pair pay rst : every (pair is_word (Ascii.eqb "(")) (message_re pay rst).
  Proof. rewrite message_re_eq. apply every_pair; [apply last_cap_plus|vm_compute; reflexivity]. Qed.

  Lemma tail_pair : ~ pair is_word (Ascii.eqb "(") tail.
  Proof.
    unfold tail, tail1, tail2. apply nopair_a; [nones|].
    destruct (payload m) as [w|], (reset m) as [w'|]; cbn [option_text app option_word] in *; nopair.
  Qed.

  Lemma search_message pay rst f g :
    reads pay (option_text (payload m)) f -> reads rst (option_text (reset m)) g ->
    search (message_re pay rst) whole = Some (g (fields m (f (hset (lit "message") (label m) []))), t).
  Proof.
    intros Hp Hr. unfold whole. rewrite skip_none; [|reflexivity|].
    - eapply search_here. now apply message_ways.
    - eapply margin_none; [|exact Hi]. vm_compute. reflexivity.
  Qed.

  Lemma search_message_none pay rst f :
    rejects pay (option_text (payload m)) \/
    reads pay (option_text (payload m)) f /\ rejects rst (option_text (reset m)) ->
    search (message_re pay rst) whole = None.
  Proof.
    intros H. unfold whole. rewrite skip_none; [|reflexivity|eapply margin_none; [vm_compute; reflexivity|exact Hi]].
    rewrite search_skip.
    - apply (every_none (pair is_word (Ascii.eqb "("))); [apply wide_pair|apply message_pair|apply tail_pair].
    - intros v a E Hv. apply message_fails with (f := f); [|exact H].
      split; [exact Hv|]. exact (forall_end _ _ _ _ (proj2 H1) E).
  Qed.

  Lemma read_options_ok : read_options whole = (payload m, reset m).
  Proof.
    pose proof (search_message_none (Cap (lit "payload") wordchars1) (Cap (lit "reset") wordchars1)) as A.
    pose proof (search_message_none Eps (Cap (lit "reset") wordchars1)) as B.
    pose proof (search_message_none (Cap (lit "payload") wordchars1) Eps) as C.
    pose proof (search_message (Cap (lit "payload") wordchars1) (Cap (lit "reset") wordchars1)) as A'.
    pose proof (search_message Eps (Cap (lit "reset") wordchars1)) as B'.
    pose proof (search_message (Cap (lit "payload") wordchars1) Eps) as C'.
    fold MESSAGE_WITH_PAYLOAD_AND_RESET in A, A'. fold MESSAGE_WITH_RESET in B, B'. fold MESSAGE_WITH_PAYLOAD in C, C'.
    unfold read_options, is_match, capture.
    destruct (payload m) as [w|] eqn:Ep, (reset m) as [w'|] eqn:Er; cbn [option_text option_word] in *.
    - rewrite (A' _ _ (reads_some _ _ H2) (reads_some _ _ H8)). reflexivity.
    - rewrite (A _ (or_intror (conj (reads_some _ _ H2) (rejects_none _)))).
      rewrite (B (fun e => e) (or_introl (rejects_some _ H2))).
      rewrite (C' _ _ (reads_some _ _ H2) reads_none). reflexivity.
    - rewrite (A (fun e => e) (or_introl (rejects_none _))).
      rewrite (B' _ _ reads_none (reads_some _ _ H8)). reflexivity.
    - rewrite (A (fun e => e) (or_introl (rejects_none _))).
      rewrite (B _ (or_intror (conj reads_none (rejects_none _)))).
      rewrite (C (fun e => e) (or_introl (rejects_none _))). reflexivity.
  Qed.

  Lemma message_found : search MESSAGE whole = Some (fields m (hset (lit "message") (label m) []), t).
  Proof. apply (search_message wordchars wordchars (fun e => e) (fun e => e)); now apply reads_any. Qed.

  Lemma read_message_ok : read_message whole = m.
  Proof.
    unfold read_message. rewrite read_options_ok. unfold capture. rewrite message_found. cbn [fst snd].
    unfold fields. destruct m as [la pa se re l1 l2 r1 r2 cl rs]. cbn [label payload sender receiver li lb rb ri clock reset].
    destruct l1, r2; reflexivity.
  Qed.

  Lemma global_not_message : search GLOBAL whole = None.
  Proof.
    unfold whole, GLOBAL. rewrite skip_other; [|apply word_lit_b; reflexivity|nones].
    unfold tail at 1. skip (lit "timed"). fold tail.
    apply (every_none (pair is_word (Ascii.eqb "("))); [apply wide_pair| |apply tail_pair].
    repeat first [apply every_lit; [apply wide_pair|]
      |apply every_pair; [apply last_cap_plus|vm_compute; reflexivity]|apply every_r; [apply wide_pair|]].
  Qed.
End Message.

Lemma count_app c s s' : count c (s ++ s') = (count c s + count c s')%nat.
Proof. unfold count. now rewrite filter_app, app_length. Qed.
Lemma count_none c s : none (Ascii.eqb c) s -> count c s = 0%nat.
Proof.
  intros H. unfold count. induction H as [|d s Hd Hs IH]; [reflexivity|]. cbn [filter]. now rewrite Hd.
Qed.
Ltac counts :=
  repeat (rewrite count_app);
  repeat match goal with |- context [count ?c ?s] => rewrite (count_none c s); [|nones] end;
  try reflexivity.

Lemma not_blank i (w s : str) : w <> [] -> match i ++ w ++ s with [] => true | _ => false end = false.
Proof. intros H. destruct i; [|reflexivity]. destruct w; easy. Qed.

Lemma search_end r : nullable r = false -> search r [] = None.
Proof. intros H. cbn [search]. now rewrite no_end. Qed.
Lemma skip_all r u : nullable r = false -> none (starts r) u -> search r u = None.
Proof. intros N H. rewrite <- (app_nil_r u), skip_none by assumption. now apply search_end. Qed.

(** The message line as a whole. *)
Lemma read_message_line m s : message_text m s ->
  exists rt, read_line s = Line 0 0 false (KMessage m) rt /\
    (~ ends_with (lit "rec") (sender m) -> ~ ends_with (lit "rec") (receiver m) ->
     ~ ends_with (lit "rec") (clock m) -> rt = None).
Proof.
  intros H. destruct H as [i g1 g2 g3 g4 g5 g6 g7 p1 p2 p3 p4 g8 g9 g10 g11 p5 t H1 H2 H3 H4 H5 H6 H7 H8 Hi G1 G2
    G3 G4 G5 G6 G7 P1 P2 P3 P4 G8 G9 G10 G11 P5 Ht].
  set (s := i ++ _). exists (if is_match REC s then Some s else None). split.
  - change s with (whole m i g1 g2 g3 g4 g5 g6 g7 p1 p2 p3 p4 g8 g9 g10 g11 p5 t). unfold read_line. f_equal.
    + unfold whole, tail, tail1, tail2.
      destruct (payload m), (reset m); cbn [option_text app option_word] in *; counts.
    + unfold whole, tail, tail1, tail2.
      destruct (payload m), (reset m); cbn [option_text app option_word] in *; counts.
    + apply not_blank. exact (proj1 H1).
    + unfold read_kind, is_match. rewrite global_not_message by assumption.
      rewrite message_found by assumption. now rewrite read_message_ok.
  - intros N1 N2 N3. unfold is_match. replace (search REC s) with (@None (hmap str * str)); [reflexivity|].
    symmetry. unfold s, REC.
    destruct (payload m), (reset m); cbn [option_text app option_word] in *;
      repeat skip (lit "rec"); apply skip_all; try reflexivity; nones.
Qed.

(** ** The other lines *)

Lemma every_paren : every (has "("%char) GLOBAL /\ every (has "("%char) MESSAGE.
Proof.
  assert (forall k, every (has "("%char) (Lit (lit "(") k)) as K
    by (intros k; apply every_l; [apply wide_has|apply every_chr]).
  split; unfold GLOBAL, MESSAGE, message_re;
    repeat first [apply K|apply every_lit; [apply wide_has|]|apply every_r; [apply wide_has|]].
Qed.
Lemma no_paren s : none (Ascii.eqb "(") s -> search GLOBAL s = None /\ search MESSAGE s = None.
Proof.
  intros H. assert (~ has "("%char s) as N.
  { intros Hc. unfold none in H. rewrite Forall_forall in H. specialize (H _ Hc). discriminate. }
  split; apply (every_none (has "("%char)); try exact N; try apply wide_has; apply every_paren.
Qed.
Lemma none_app q s s' : none q s -> none q s' -> none q (s ++ s').
Proof. intros H H'. apply Forall_app. now split. Qed.
Ltac noness := repeat first [apply none_app; [nones|]|nones].

Lemma or_brace s : none (Ascii.eqb "}") s -> search OR s = None.
Proof. intros H. apply skip_all; [reflexivity|]. eapply Forall_impl; [|exact H]. intros c Hc. cbn beta in Hc.
  cbn [OR Lit lit list_ascii_of_string starts nullable]. now rewrite Hc. Qed.

(** A keyword followed by a space and a word needs a space before a word. *)
Definition after_space (r : re) : Prop := every (pair spc is_word) r.
Lemma rec_space : after_space REC.
Proof. unfold REC. apply every_lit; [apply wide_pair|]. apply every_pair; [apply last_plus|vm_compute; reflexivity]. Qed.
Lemma continue_space : after_space CONTINUE.
Proof. unfold CONTINUE. apply every_lit; [apply wide_pair|]. apply every_pair; [apply last_plus|vm_compute; reflexivity]. Qed.
Lemma choice_space : after_space CHOICE.
Proof. unfold CHOICE. apply every_lit; [apply wide_pair|]. apply every_pair; [apply last_plus|vm_compute; reflexivity]. Qed.
Lemma space_none r s : after_space r -> ~ pair spc is_word s -> search r s = None.
Proof. intros H N. exact (every_none _ _ _ (wide_pair _ _) H N). Qed.

Lemma read_choice_line a s : choice_text a s -> read_line s = plain (KChoice a).
Proof.
  intros [i g1 g2 t Hi G1 G2 Ha Ht]. unfold read_line, plain. f_equal; [counts|counts|apply not_blank; discriminate| |].
  - unfold read_kind, is_match, capture.
    destruct (no_paren (i ++ lit "choice" ++ g1 ++ lit "at" ++ g2 ++ a ++ t)) as [-> ->]; [noness|].
    assert (exists l, search CHOICE (i ++ lit "choice" ++ g1 ++ lit "at" ++ g2 ++ a ++ t) =
      Some ([(lit "choice", a)], l)) as [l ->]; [|reflexivity].
    unfold CHOICE. rewrite skip_other; [|apply word_lit_b; reflexivity|nones].
    set (k := Seq spaces (Opt (Chr (Ascii.eqb "{")))).
    assert (forall e, exists x l, ways k e t = (e, x) :: l) as K.
    { intros e. assert (exists u v, t = u ++ v /\ pad u /\ stops (Ascii.eqb " ") v /\ stops (Ascii.eqb "{") v) as
        (u & v & -> & Hu & Hv & Hv').
      { clear -Ht. induction Ht as [|c t Hc Ht IH]; [exists [], []; split; [reflexivity|]; split; [constructor|easy]|].
        destruct Hc as [-> | ->].
        - destruct IH as (u & v & -> & Hu & Hv). exists (" "%char :: u), v. split; [reflexivity|].
          split; [now constructor|exact Hv].
        - exists [], ("009"%char :: t). split; [reflexivity|]. split; [constructor|now split]. }
      unfold k. destruct (ends_first u) as [l El].
      pose proof (ways_star (Ascii.eqb " ") u e v (pad_all _ Hu) Hv) as E. rewrite El in E. cbn [map app] in E.
      destruct (first_seq spaces (Opt (Chr (Ascii.eqb "{"))) e (u ++ v) e v _ (e, v) [] E) as [l' ->]; [|eauto].
      unfold Opt. cbn [ways]. destruct v as [|c v]; [reflexivity|]. unfold stops in Hv'. now rewrite Hv'. }
    destruct (last_cap is_word (lit "choice") a [] t (proj1 Ha) (proj2 (word_all _ Ha)) ltac:(stop)) as [l El].
    destruct (K (hset (lit "choice") a [])) as (x & l2 & E2).
    destruct (first_seq _ k [] (a ++ t) _ _ _ _ _ El E2) as [l3 E3]. exists x.
    eapply search_here with (l := l3). rewrite step_lit.
    rewrite (step_plus (Ascii.eqb " ") _ g1); [|vm_compute; reflexivity|exact (proj1 G1)|exact (pad_all _ (proj2 G1))|stop].
    rewrite step_lit.
    rewrite (step_plus (Ascii.eqb " ") _ g2); [|vm_compute; reflexivity|exact (proj1 G2)|exact (pad_all _ (proj2 G2))|stop].
    exact E3.
  - unfold is_match. replace (search REC (i ++ lit "choice" ++ g1 ++ lit "at" ++ g2 ++ a ++ t)) with
      (@None (hmap str * str)); [reflexivity|]. symmetry.
    unfold REC. do 5 skip (lit "rec"). fold REC. apply space_none; [exact rec_space|].
    apply nopair_a; [nones|]. apply nopair_end. nones.
Qed.

Lemma read_other_line s : none is_word s -> none (Ascii.eqb "(") s -> none (Ascii.eqb "}") s \/ none (Ascii.eqb "o") s ->
  read_kind s = KOther /\ is_match REC s = false.
Proof.
  intros H Hp Ho. unfold read_kind, is_match. destruct (no_paren s Hp) as [-> ->].
  assert (forall L k, word L -> search (Lit L k) s = None) as K.
  { intros L k HL. rewrite <- (app_nil_r s), skip_other by assumption. apply search_end.
    destruct L; [now destruct HL|reflexivity]. }
  unfold CHOICE. rewrite (K (lit "choice")) by (apply word_lit_b; reflexivity).
  unfold REC. rewrite (K (lit "rec")) by (apply word_lit_b; reflexivity).
  unfold CONTINUE. rewrite (K (lit "continue")) by (apply word_lit_b; reflexivity).
  assert (search OR s = None) as ->; [|now split].
  destruct Ho as [Ho|Ho]; [now apply or_brace|].
  apply (every_none (has "o"%char)); [apply wide_has| |].
  - unfold OR. apply every_lit; [apply wide_has|]. apply every_r; [apply wide_has|].
    apply every_l; [apply wide_has|apply every_chr].
  - intros Hc. unfold none in Ho. rewrite Forall_forall in Ho. specialize (Ho _ Hc). discriminate.
Qed.

Lemma read_open_line s : open_text s -> read_line s = open_line.
Proof.
  intros [i t Hi Ht]. unfold read_line, open_line.
  destruct (read_other_line (i ++ lit "{" ++ t)) as [-> ->]; [noness|noness|left; noness|].
  f_equal; [counts|counts|apply not_blank; discriminate].
Qed.
Lemma read_close_line s : close_text s -> read_line s = close_line.
Proof.
  intros [i t Hi Ht]. unfold read_line, close_line.
  destruct (read_other_line (i ++ lit "}" ++ t)) as [-> ->]; [noness|noness|right; noness|].
  f_equal; [counts|counts|apply not_blank; discriminate].
Qed.
Lemma read_empty_line s : margin s -> exists b, read_line s = Line 0 0 b KOther None.
Proof.
  intros Hs. unfold read_line.
  destruct (read_other_line s) as [-> ->]; [noness|noness|right; noness|].
  eexists. f_equal; counts.
Qed.

Lemma read_or_line s : or_text s -> read_line s = or_line.
Proof.
  intros H. destruct H as [i p1 p2 t Hi P1 P2 Ht]. set (s := i ++ _).
  assert (forall r c, every (has c) r -> none (Ascii.eqb c) s -> search r s = None) as K.
  { intros r c E N. apply (every_none (has c)); [apply wide_has|exact E|]. intros Hc. unfold none in N.
    rewrite Forall_forall in N. specialize (N _ Hc). cbn beta in N. now rewrite Ascii.eqb_refl in N. }
  assert (search OR s <> None) as HO.
  { unfold s. rewrite skip_none; [|reflexivity|apply margin_none; [vm_compute; reflexivity|exact Hi]].
    erewrite search_here; [discriminate|]. unfold OR. rewrite step_lit.
    rewrite (step_star (Ascii.eqb " ") _ p1); [|vm_compute; reflexivity|exact (pad_all _ P1)|stop].
    rewrite step_lit.
    rewrite (step_star (Ascii.eqb " ") _ p2); [|vm_compute; reflexivity|exact (pad_all _ P2)|stop].
    reflexivity. }
  assert (search REC s = None) as HR.
  { apply (K _ "c"%char); [|unfold s; noness]. unfold REC. apply every_r; [apply wide_has|].
    apply every_r; [apply wide_has|]. apply every_l; [apply wide_has|apply every_chr]. }
  unfold read_line, or_line, is_match at 1. rewrite HR. f_equal.
  - unfold s. counts.
  - unfold s. counts.
  - apply not_blank. discriminate.
  - unfold read_kind, is_match. destruct (no_paren s) as [-> ->]; [unfold s; noness|].
    rewrite (K CHOICE "c"%char); [|apply every_l; [apply wide_has|apply every_chr]|unfold s; noness].
    destruct (search OR s); [reflexivity|easy].
Qed.

Lemma read_loop_line x s : loop_text x s -> read_line s = Line 1 0 false (KRec x) (Some s) /\ contains x s = true.
Proof.
  intros H. destruct H as [i g p t Hi G Hx P Ht]. set (s := i ++ _).
  assert (exists l, search REC s = Some ([(lit "loop", x)], l)) as [l HR].
  { exists (p ++ lit "{" ++ t).
    unfold s, REC. rewrite skip_other; [|apply word_lit_b; reflexivity|nones].
    destruct (last_cap is_word (lit "loop") x [] (p ++ lit "{" ++ t) (proj1 Hx) (proj2 (word_all _ Hx)) ltac:(stop)) as [l El].
    eapply search_here with (l := l). rewrite step_lit.
    rewrite (step_plus (Ascii.eqb " ") _ g); [|vm_compute; reflexivity|exact (proj1 G)|exact (pad_all _ (proj2 G))|stop].
    exact El. }
  split.
  - unfold read_line. f_equal.
    + unfold s. counts.
    + unfold s. counts.
    + apply not_blank. discriminate.
    + unfold read_kind, is_match, capture. destruct (no_paren s) as [-> ->]; [unfold s; noness|].
      replace (search CHOICE s) with (@None (hmap str * str)).
      2:{ symmetry. unfold s, CHOICE. do 3 skip (lit "choice"). fold CHOICE. apply space_none; [exact choice_space|]. nopair. }
      rewrite or_brace by (unfold s; noness). now rewrite HR.
    + unfold is_match. now rewrite HR.
  - unfold s. do 2 rewrite app_assoc.
    generalize ((i ++ lit "rec") ++ g) as a. intros a. induction a as [|c a IH]; cbn [app].
    + destruct x as [|c x]; [now destruct Hx|]. cbn [app contains strip]. rewrite Ascii.eqb_refl.
      assert (forall (w : str) y, strip w (w ++ y) = Some y) as ->; [|reflexivity].
      clear. induction w as [|c w IH]; intros y; [reflexivity|]. cbn [strip app]. now rewrite Ascii.eqb_refl.
    + cbn [contains]. rewrite IH. apply orb_true_r.
Qed.

Lemma read_continue_line x s : continue_text x s -> read_line s = plain (KContinue x).
Proof.
  intros H. destruct H as [i g p t Hi G Hx P Ht]. set (s := i ++ _).
  assert (search REC s = None) as HR.
  { unfold s, REC. do 3 skip (lit "rec"). fold REC. apply space_none; [exact rec_space|]. nopair. }
  unfold read_line, plain, is_match at 1. rewrite HR. f_equal.
  - unfold s. counts.
  - unfold s. counts.
  - apply not_blank. discriminate.
  - unfold read_kind, is_match, capture. destruct (no_paren s) as [-> ->]; [unfold s; noness|].
    replace (search CHOICE s) with (@None (hmap str * str)).
    2:{ symmetry. unfold s, CHOICE. do 3 skip (lit "choice"). fold CHOICE. apply space_none; [exact choice_space|]. nopair. }
    rewrite or_brace by (unfold s; noness). rewrite HR.
    assert (search CONTINUE s = Some ([(lit "loop", x)], t)) as ->; [|reflexivity].
    unfold s, CONTINUE. rewrite skip_other; [|apply word_lit_b; reflexivity|nones].
    eapply search_here. repeat step. reflexivity.
Qed.
