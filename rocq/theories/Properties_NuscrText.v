(** * The text of a nuscr protocol: C39, C40

    The model is NuscrText.v, on the regular expressions of Regex.v; the text
    of a protocol is NuscrTextSpec.v. *)

From Coq Require Import Ascii String Bool Arith Lia List.
From Verif Require Import Checker CheckerText CheckerClean Nuscr NuscrSpec Regex NuscrText NuscrTextSpec RegexProofs NuscrRead
  NuscrReadAll NuscrPrint.
Import ListNotations.

(** ** C39: the text is read as it was written *)

(** Whatever the spacing: every field of a message, the roles of the first
    line, the role that chooses, the name of a loop; the other lines are not
    taken for one of these. *)
Theorem lines_read_as_written :
  (forall name rs s, header_text name rs s -> what (read_line s) = KGlobal name rs) /\
  (forall m s, message_text m s -> what (read_line s) = KMessage m) /\
  (forall a s, choice_text a s -> what (read_line s) = KChoice a) /\
  (forall s, or_text s -> what (read_line s) = KOr) /\
  (forall x s, loop_text x s -> what (read_line s) = KRec x) /\
  (forall x s, continue_text x s -> what (read_line s) = KContinue x) /\
  (forall s, open_text s \/ close_text s \/ margin s -> what (read_line s) = KOther).
Proof.
  repeat apply conj.
  - intros name rs s H. now destruct (read_header_line name rs s H) as [rt ->].
  - intros m s H. now destruct (read_message_line m s H) as (rt & -> & _).
  - intros a s H. now rewrite (read_choice_line a s H).
  - intros s H. now rewrite (read_or_line s H).
  - intros x s H. now destruct (read_loop_line x s H) as [-> _].
  - intros x s H. now rewrite (read_continue_line x s H).
  - intros s [H|[H|H]]; [now rewrite (read_open_line s H)|now rewrite (read_close_line s H)|].
    now destruct (read_empty_line s H) as [b ->].
Qed.
Print Assumptions lines_read_as_written.

(** So a text stands for one name, one list of roles and one list of messages. *)
Theorem text_unambiguous : forall name name' p p' ls,
  protocol_text name p ls -> protocol_text name' p' ls ->
  name = name' /\ p_roles p = p_roles p' /\
  forall m, In m (before p ++ inside p) \/
            (exists a b bs c, ending p = Some (a, b, bs) /\ In c (b :: bs) /\ In m (said c)) <->
            In m (before p' ++ inside p') \/
            (exists a b bs c, ending p' = Some (a, b, bs) /\ In c (b :: bs) /\ In m (said c)).
Proof.
  assert (forall name p ls, protocol_text name p ls -> exists rt l,
    map read_line ls = Line 1 0 false (KGlobal name (p_roles p)) rt :: l) as Hhead.
  { intros name p ls H. destruct H as [s1 s2 ls1 ls2 ls3 _ H _ _ _ _|x s1 s2 s3 s4 ls1 ls2 ls3 _ H _ _ _ _ _ _];
      apply read_header_line in H as [rt E]; cbn [map]; rewrite E; eauto. }
  assert (forall ms ls, messages_text ms ls -> forall m, In m ms <-> In (KMessage m) (map (fun s => what (read_line s)) ls))
    as Hms.
  { intros ms ls H m. induction H as [|m' ms s ls Hm _ IH|ms s ls Hs _ IH]; cbn [map In]; [tauto| |].
    - destruct (read_message_line m' s Hm) as (rt & -> & _). cbn [what]. rewrite <- IH.
      split; [intros [->|]; auto|intros [[= ->]|]; auto].
    - destruct (read_empty_line s Hs) as [b ->]. cbn [what]. rewrite <- IH. intuition discriminate. }
  assert (forall x b ls, branch_text x b ls -> forall m, In m (said b) <-> In (KMessage m) (map (fun s => what (read_line s)) ls))
    as Hb.
  { intros x b ls H m. destruct H as [y s ls _ _ H Hc|ls _ H]; [|exact (Hms _ _ H m)].
    rewrite map_app, in_app_iff, <- (Hms _ _ H m). cbn [map In]. rewrite (read_continue_line _ _ Hc). cbn [what plain].
    intuition discriminate. }
  assert (forall x bs ls, branches_text x bs ls -> forall m,
    (exists c, In c bs /\ In m (said c)) <-> In (KMessage m) (map (fun s => what (read_line s)) ls)) as Hbs.
  { intros x bs ls H m. induction H as [|b bs s ls ls' Ho H _ IH]; [cbn; split; [intros (? & [] & _)|easy]|].
    cbn [map In]. rewrite (read_or_line _ Ho), map_app, in_app_iff, <- IH, <- (Hb _ _ _ H m). cbn [what or_line]. split.
    - intros (c & [<-|Hc] & Hm); [now right; left|right; right; eauto].
    - intros [?|[Hm|(c & Hc & Hm)]]; [discriminate|exists b; auto|exists c; auto]. }
  assert (forall x en ls, ending_text x en ls -> forall m,
    (exists a b bs c, en = Some (a, b, bs) /\ In c (b :: bs) /\ In m (said c)) <->
    In (KMessage m) (map (fun s => what (read_line s)) ls)) as He.
  { intros x en ls H m. destruct H as [|a b bs s1 s2 s3 ls1 ls2 H1 H2 H3 H4 H5].
    - cbn. split; [intros (? & ? & ? & ? & ? & _); discriminate|easy].
    - cbn [map In]. rewrite (read_choice_line _ _ H1), (read_open_line _ H2), !map_app, !in_app_iff. cbn [map In].
      rewrite (read_close_line _ H3), <- (Hb _ _ _ H4 m), <- (Hbs _ _ _ H5 m). cbn [what plain open_line close_line]. split.
      + intros (a' & b' & bs' & c & [= <- <- <-] & [<-|Hc] & Hm); [auto|]. do 3 right. left. eauto.
      + intros [?|[?|[Hm|[(c & Hc & Hm)|[?|[]]]]]]; try discriminate.
        * exists a, b, bs, b. auto with datatypes.
        * exists a, b, bs, c. auto with datatypes. }
  assert (forall name p ls, protocol_text name p ls -> forall m, In m (before p ++ inside p) \/
            (exists a b bs c, ending p = Some (a, b, bs) /\ In c (b :: bs) /\ In m (said c)) <->
            In (KMessage m) (map (fun s => what (read_line s)) ls)) as Hall.
  { intros name p ls H m. rewrite in_app_iff.
    destruct H as [s1 s2 ls1 ls2 ls3 _ H1 H2 H3 H4 H5|x s1 s2 s3 s4 ls1 ls2 ls3 _ H1 H2 H3 H4 H5 H6 H7];
      cbn [map In]; destruct (read_header_line _ _ _ H1) as [rt ->]; rewrite !map_app, !in_app_iff; cbn [map In].
    - rewrite (read_close_line _ H5), <- (Hms _ _ H2 m), <- (Hms _ _ H3 m), <- (He _ _ _ H4 m). cbn [what close_line].
      intuition discriminate.
    - rewrite (proj1 (read_loop_line _ _ H3)), (read_close_line _ H6), (read_close_line _ H7), <- (Hms _ _ H2 m),
        <- (Hms _ _ H4 m), <- (He _ _ _ H5 m). cbn [what close_line].
      intuition discriminate. }
  intros name name' p p' ls H H'. destruct (Hhead _ _ _ H) as (rt & l & E), (Hhead _ _ _ H') as (rt' & l' & E').
  rewrite E in E'. injection E' as En Er _ _. split; [exact En|]. split; [exact Er|]. intros m.
  rewrite (Hall _ _ _ H m), (Hall _ _ _ H' m). reflexivity.
Qed.
Print Assumptions text_unambiguous.

Example spaced_message :
  let s := lit "	 Msg4(text)   from A  to   B within [ 0 ;  10 [ using clk and  resetting  (clk) ;  " in
  message_text (Msg (lit "Msg4") (Some (lit "text")) (lit "A") (lit "B") true (lit "0") (lit "10") false (lit "clk")
    (Some (lit "clk"))) s /\
  rec_text (read_line s) = None.
Proof.
  assert (forall n, gap (repeat " "%char (S n))) as G.
  { intros n. split; [discriminate|]. apply Forall_forall. intros c Hc. now apply repeat_spec in Hc. }
  assert (forall n, pad (repeat " "%char n)) as P.
  { intros n. apply Forall_forall. intros c Hc. now apply repeat_spec in Hc. }
  split; [|now vm_compute].
  apply (message_text_intro (Msg (lit "Msg4") (Some (lit "text")) (lit "A") (lit "B") true (lit "0") (lit "10") false
    (lit "clk") (Some (lit "clk"))) (lit "	 ") (repeat " "%char 3) (lit " ") (repeat " "%char 2) (repeat " "%char 3) (lit " ")
    (lit " ") (lit " ") (lit " ") (lit " ") (repeat " "%char 2) (lit " ") (lit " ") (lit " ") (repeat " "%char 2)
    (repeat " "%char 2) (lit " ") (repeat " "%char 2));
    first [exact (G _)|exact (P _)|apply gap_one|apply pad_one|now apply word_ok|now apply natural_ok
          |apply pad_margin, (P 2%nat)|idtac].
  constructor; [now right|]. constructor; [now left|constructor].
Qed.

(** But what a line says can be lost without an error: a message that is not
    written exactly as expected (two payloads, spaces in the parentheses, no
    "and resetting ()") is not there for the generator... *)
Definition as_file (ls : list string) : list str := map lit ls.
Definition idt' (s : str) : str := s.
Definition drops (s : string) : Prop :=
  let h := "timed global protocol P(role A, role B) {"%string in
  let x := "X() from A to B within [0;1] using a and resetting ();"%string in
  exists f, generator_text idt' (as_file [h; x; s; "}"]%string) = Fine f /\
            generator_text idt' (as_file [h; x; "}"]%string) = Fine f.
Theorem lines_kept_refuted :
  drops "Pay(i32, u8) from A to B within [0;1] using a and resetting ();" /\
  drops "Pay( i32 ) from A to B within [0;1] using a and resetting ();" /\
  drops "Pay(i32) from A to B within [0;1] using a;" /\
  drops "Pay(i32) from A to B;".
Proof.
  assert (forall s, match generator_text idt' (as_file ["timed global protocol P(role A, role B) {"; 
             "X() from A to B within [0;1] using a and resetting ();"; s; "}"]%string),
    generator_text idt' (as_file ["timed global protocol P(role A, role B) {"; 
             "X() from A to B within [0;1] using a and resetting ();"; "}"]%string) with
    | Fine f, Fine g => f = g | _, _ => False end -> drops s) as K.
  { intros s H. unfold drops. cbv zeta.
    destruct (generator_text idt' _) as [f| | |]; [|destruct H..].
    destruct (generator_text idt' _) as [g| | |]; [subst g; now exists f|destruct H..]. }
  repeat apply conj; apply K; vm_compute; reflexivity.
Qed.
Print Assumptions lines_kept_refuted.

(** ... of two messages on a line only the first is read, a message behind
    "//" is read, a role after two spaces is not a role, ... *)
Theorem line_meaning_refuted :
  (exists m m' s s', message_text m s /\ message_text m' s' /\ m <> m' /\ what (read_line (s ++ s')) = KMessage m) /\
  (exists m s, message_text m s /\ what (read_line (lit "// " ++ s)) = KMessage m) /\
  what (read_line (lit "timed global protocol P(role  A, role B) {")) = KGlobal (lit "P") [lit "B"].
Proof.
  set (m l := Msg (lit l) None (lit "A") (lit "B") true (lit "0") (lit "1") true (lit "a") None).
  repeat apply conj; [| |now vm_compute].
  - exists (m "X"%string), (m "Y"%string), (print_message (m "X"%string)), (print_message (m "Y"%string)).
    split; [now apply print_message_ok|]. split; [now apply print_message_ok|]. split; [discriminate|]. now vm_compute.
  - exists (m "X"%string), (print_message (m "X"%string)). split; [now apply print_message_ok|]. now vm_compute.
Qed.
Print Assumptions line_meaning_refuted.

(** ... and an empty line can make the difference: at the start of the file
    (an error), between "choice at A" and "{" (a panic), two of them after the
    end of a choice (an error). *)
Theorem empty_lines_refuted :
  let h := "timed global protocol P(role A, role B) {"%string in
  let x := "X() from A to B within [0;1] using a and resetting ();"%string in
  let ok ls := exists f, generator_text idt' (as_file ls) = Fine f in
  ok [h; "choice at A"; "{"; x; "} or {"; x; "}"; "}"]%string /\
  ok [h; "choice at A"; "{"; x; "} or {"; x; "}"; ""; "}"]%string /\
  generator_text idt' (as_file [""; h; "choice at A"; "{"; x; "} or {"; x; "}"; "}"]%string) = Error /\
  generator_text idt' (as_file [h; "choice at A"; ""; "{"; x; "} or {"; x; "}"; "}"]%string) = Panic /\
  generator_text idt' (as_file [h; "choice at A"; "{"; x; "} or {"; x; "}"; ""; ""; "}"]%string) = Error.
Proof.
  assert (forall ls, match generator_text idt' ls with Fine _ => True | _ => False end ->
    exists f, generator_text idt' ls = Fine f) as K.
  { intros ls H. destruct (generator_text idt' ls) as [f| | |]; [now exists f|destruct H..]. }
  repeat apply conj; try apply K; now vm_compute.
Qed.
Print Assumptions empty_lines_refuted.

(** ** C40: the protocol without time given to nuscr *)

(** A line of the protocol without time: the first line without "timed ", a
    message without its window, every other line as it is. *)
Definition untimed_message (i : str) (m : msg) : str :=
  repeat " "%char (length i) ++ label m ++ lit "(" ++ option_text (payload m) ++ lit ") from " ++ sender m ++
  lit " to " ++ receiver m ++ lit ";".
Inductive untimed : str -> str -> Prop :=
| untimed_header name rs a b : header_text name rs (a ++ lit "timed " ++ b) -> margin a ->
    untimed (a ++ lit "timed " ++ b) (a ++ b)
| untimed_msg m i c s : message_text m (i ++ c :: s) -> margin i -> word_char c -> untimed (i ++ c :: s) (untimed_message i m)
| untimed_other s : (forall name rs, ~ header_text name rs s) -> (forall m, ~ message_text m s) -> untimed s s.

Lemma is_word_char c : word_char c -> is_space c = false.
Proof.
  intros H. destruct (is_space c) eqn:E; [exfalso|reflexivity]. revert H E. unfold word_char, digit.
  destruct c as [[] [] [] [] [] [] [] []]; cbn; intros H E; try discriminate E; destruct H as [H|[H|[H|H]]]; try lia; discriminate H.
Qed.
Lemma margin_take i c s : margin i -> word_char c -> take_while is_space (i ++ c :: s) = i.
Proof.
  intros Hi Hc. induction Hi as [|d i Hd Hi IH]; cbn [app take_while].
  - now rewrite (is_word_char c Hc).
  - rewrite IH. now destruct Hd as [-> | ->].
Qed.
Lemma map_spaces (i : str) : map (fun _ => " "%char) i = repeat " "%char (length i).
Proof. induction i as [|c i IH]; cbn; [reflexivity|now rewrite IH]. Qed.

Lemma regular_message m s : message_text m s -> untimed s (regular_line s).
Proof.
  intros H. pose proof (proj1 (proj2 lines_read_as_written) m s H) as K. cbn [read_line what] in K.
  assert (exists i c s', margin i /\ word_char c /\ s = i ++ c :: s') as (i & c & s' & Hi & Hc & ->).
  { destruct H as [i g1 g2 g3 g4 g5 g6 g7 p1 p2 p3 p4 g8 g9 g10 g11 p5 t [Hn Hw] _ _ _ _ _ _ _ Hi].
    destruct (label m) as [|c l]; [now destruct Hn|]. exists i, c. eexists. split; [exact Hi|].
    split; [now inversion Hw|]. reflexivity. }
  replace (regular_line (i ++ c :: s')) with (untimed_message i m); [now constructor|].
  unfold regular_line, read_kind in *. destruct (is_match GLOBAL (i ++ c :: s')); [discriminate K|].
  destruct (is_match MESSAGE (i ++ c :: s')).
  - injection K as ->. rewrite margin_take, map_spaces by assumption. unfold untimed_message, option_text. reflexivity.
  - repeat match type of K with (if ?b then _ else _) = _ => destruct b; [discriminate K|] end. discriminate K.
Qed.
Lemma regular_other s : match what (read_line s) with KGlobal _ _ | KMessage _ => False | _ => True end ->
  untimed s (regular_line s) /\ is_match GLOBAL s = false.
Proof.
  intros H. assert (is_match GLOBAL s = false) as HG.
  { cbn [read_line what] in H. unfold read_kind in H. destruct (is_match GLOBAL s); [destruct H|reflexivity]. }
  assert (is_match MESSAGE s = false) as HM.
  { cbn [read_line what] in H. unfold read_kind in H. rewrite HG in H. destruct (is_match MESSAGE s); [destruct H|reflexivity]. }
  split; [|exact HG]. unfold regular_line. rewrite HG, HM. constructor.
  - intros name rs K. now rewrite (proj1 lines_read_as_written name rs s K) in H.
  - intros m K. now rewrite (proj1 (proj2 lines_read_as_written) m s K) in H.
Qed.

(** ["timed "] occurs only at the start of a first line. *)
Definition timed_in (s : str) : Prop := exists a b, s = a ++ lit "timed " ++ b.

Lemma drop_char c s : c <> "t"%char -> timed_in (c :: s) -> timed_in s.
Proof.
  intros N (a & b & E). destruct a as [|d a]; cbn in E.
  - injection E as E _. now destruct N.
  - injection E as _ E. now exists a, b.
Qed.
Lemma drop_pad g s : margin g -> timed_in (g ++ s) -> timed_in s.
Proof.
  intros Hg. induction Hg as [|c g Hc Hg IH]; [easy|]. intros H. apply IH. apply (drop_char c); [|exact H].
  now destruct Hc as [-> | ->].
Qed.
Lemma pad_margin g : pad g -> margin g.
Proof. intros H. unfold margin, pad in *. revert H. apply Forall_impl. intros c <-. now left. Qed.
Lemma app_eq_cases (a b c d : str) : a ++ b = c ++ d ->
  (exists u, a = c ++ u /\ d = u ++ b) \/ (exists u, c = a ++ u /\ b = u ++ d).
Proof.
  revert c. induction a as [|x a IH]; intros [|y c] H; cbn in H.
  - left. now exists [].
  - right. exists (y :: c). now split.
  - left. exists (x :: a). now split.
  - injection H as -> H. destruct (IH c H) as [(u & -> & ->)|(u & -> & ->)]; [left|right]; now exists u.
Qed.
(** It ends with the only space it has, and has no other character that is
    not a letter. *)
Lemma split_space w s : ~ In " "%char w -> timed_in (w ++ " "%char :: s) -> ends_with (lit "timed") w \/ timed_in s.
Proof.
  intros N (a & b & E). destruct (app_eq_cases _ _ _ _ E) as [(u & -> & Eu)|(u & -> & Eu)].
  - destruct (app_eq_cases u (" "%char :: s) (lit "timed") (" "%char :: b)) as [(v & -> & Ev)|(v & Ev & Ev')].
    { rewrite <- Eu. reflexivity. }
    + destruct v as [|c v]; [left; exists a; now rewrite app_nil_r|].
      exfalso. apply N. rewrite !in_app_iff. right. right. injection Ev as -> _. now left.
    + destruct v as [|c v]; [left; exists a; now rewrite Ev, app_nil_r|].
      exfalso. injection Ev' as Ec _; subst c. assert (In " "%char (lit "timed")) as K by (rewrite Ev, in_app_iff; right; now left).
      cbn in K. intuition discriminate.
  - destruct u as [|c u]; cbn in Eu; [discriminate Eu|]. injection Eu as _ ->. right. now exists u, b.
Qed.
Lemma split_other c w s : ~ In c (lit "timed ") -> ~ In " "%char w -> timed_in (w ++ c :: s) -> timed_in s.
Proof.
  intros Nc N (a & b & E). destruct (app_eq_cases _ _ _ _ E) as [(u & -> & Eu)|(u & -> & Eu)].
  - destruct (app_eq_cases u (c :: s) (lit "timed ") b) as [(v & -> & Ev)|(v & Ev & Ev')].
    { now rewrite Eu. }
    + exfalso. apply N. rewrite !in_app_iff. right. left. cbn. tauto.
    + destruct v as [|d v]; [rewrite app_nil_r in Ev; exfalso; apply N; rewrite in_app_iff; right; rewrite <- Ev; cbn; tauto|].
      exfalso. injection Ev' as -> _. apply Nc. rewrite Ev, in_app_iff. right. now left.
  - destruct u as [|d u]; cbn in Eu; [injection Eu as -> _; exfalso; apply Nc; now left|].
    injection Eu as _ ->. now exists u, b.
Qed.
Lemma word_gap w g s : ~ In " "%char w -> ~ ends_with (lit "timed") w -> gap g -> timed_in (w ++ g ++ s) -> timed_in s.
Proof.
  intros N E [G P] H. destruct g as [|c g]; [now destruct G|]. inversion P as [|? ? <- Pg]; subst.
  destruct (split_space w (g ++ s) N H) as [K|K]; [now destruct E|]. exact (drop_pad g s (pad_margin g Pg) K).
Qed.
Lemma word_no_space w : word w -> ~ In " "%char w.
Proof.
  intros [_ H] K. rewrite Forall_forall in H. apply H in K. apply is_word_char in K. discriminate K.
Qed.
Lemma roles_no_timed rs t s : roles_text rs t -> (forall r, In r rs -> ~ ends_with (lit "timed") r) ->
  timed_in (t ++ lit ")" ++ s) -> timed_in s.
Proof.
  intros H N. assert (forall r p c s, ~ In c (lit "timed ") -> word r -> ~ ends_with (lit "timed") r -> pad p ->
    timed_in (lit "role " ++ r ++ p ++ c :: s) -> timed_in s) as K.
  { intros r p c s' Hc Hr Nr Hp. cbn [lit app list_ascii_of_string]. intros K.
    do 5 (apply drop_char in K; [|discriminate]). destruct p as [|d p].
    - exact (split_other c r s' Hc (word_no_space r Hr) K).
    - apply (word_gap r (d :: p) (c :: s')) in K; [|now apply word_no_space|exact Nr|now split].
      apply (drop_char c) in K; [exact K|]. intros ->. apply Hc. now left. }
  induction H as [r p Hr Hp|r p p' rs t Hr Hp Hp' Hrs IH]; intros T; rewrite <- ?app_assoc in T.
  - apply K in T; [exact T|cbn; intuition discriminate|exact Hr|apply N; now left|exact Hp].
  - apply K in T; [|cbn; intuition discriminate|exact Hr|apply N; now left|exact Hp].
    apply drop_pad in T; [|now apply pad_margin]. apply IH; [|exact T].
    intros r' Hr'. apply N. now right.
Qed.
Lemma regular_header name rs s : header_text name rs s -> (forall r, In r rs -> ~ ends_with (lit "timed") r) ->
  untimed s (regular_line s).
Proof.
  intros H N. pose proof H as H0. destruct H as [i g1 g2 g3 t p t' Hi [G1 P1] G2 G3 Hn Hr Hp Ht'].
  destruct g1 as [|c g1]; [now destruct G1|]. inversion P1 as [|? ? <- Pg]; subst.
  match type of H0 with header_text _ _ (i ++ _ ++ (_ :: _) ++ ?r) => set (rest := r) in * end.
  change (lit "timed" ++ (" "%char :: g1) ++ rest) with (lit "timed " ++ (g1 ++ rest)) in *.
  assert (~ timed_in (g1 ++ rest)) as K.
  { intros K. apply drop_pad in K; [|now apply pad_margin]. unfold rest in K.
    apply word_gap in K; [|cbn; intuition discriminate|apply ends_with_ok; now vm_compute|exact G2].
    apply word_gap in K; [|cbn; intuition discriminate|apply ends_with_ok; now vm_compute|exact G3].
    apply split_other in K; [|cbn; intuition discriminate|now apply word_no_space].
    apply (roles_no_timed rs t _ Hr N) in K. apply drop_pad in K; [|now apply pad_margin].
    apply drop_char in K; [|discriminate]. rewrite <- (app_nil_r t') in K. apply drop_pad in K; [|exact Ht'].
    destruct K as ([|? ?] & b & E); discriminate E. }
  assert (regular_line (i ++ lit "timed " ++ g1 ++ rest) = i ++ g1 ++ rest) as ->; [|now apply (untimed_header name rs)].
  unfold regular_line. assert (is_match GLOBAL (i ++ lit "timed " ++ g1 ++ rest) = true) as ->.
  { pose proof (proj1 lines_read_as_written name rs _ H0) as E. cbn [read_line what] in E. unfold read_kind in E.
    destruct (is_match GLOBAL _); [reflexivity|].
    repeat match type of E with (if ?b then _ else _) = _ => destruct b; [discriminate E|] end. discriminate E. }
  clear H0. induction Hi as [|c i Hc Hi IH]; cbn [app].
  - change (lit "timed " ++ g1 ++ rest) with (lit "timed " ++ (g1 ++ rest)).
    rewrite (CheckerClean.replace_some _ _ _ (g1 ++ rest)); [|discriminate|discriminate|reflexivity].
    cbn [app]. rewrite CheckerClean.replace_not_inside; [reflexivity|discriminate|exact K].
  - rewrite CheckerClean.replace_none; [now rewrite IH|discriminate|]. now destruct Hc as [-> | ->].
Qed.

(** The lines of a protocol after the first. *)
Definition body_line (s : str) : Prop :=
  (exists m, message_text m s) \/ match what (read_line s) with KGlobal _ _ | KMessage _ => False | _ => True end.
Lemma protocol_lines name p ls : protocol_text name p ls ->
  exists s ls', ls = s :: ls' /\ header_text name (p_roles p) s /\ Forall body_line ls'.
Proof.
  destruct lines_read_as_written as (_ & _ & K3 & K4 & K5 & K6 & K7).
  assert (forall a s, choice_text a s -> body_line s) as L3 by (intros a s H; right; now rewrite (K3 a s H)).
  assert (forall s, or_text s -> body_line s) as L4 by (intros s H; right; now rewrite (K4 s H)).
  assert (forall a s, loop_text a s -> body_line s) as L5 by (intros a s H; right; now rewrite (K5 a s H)).
  assert (forall a s, continue_text a s -> body_line s) as L6 by (intros a s H; right; now rewrite (K6 a s H)).
  assert (forall s, open_text s \/ close_text s \/ margin s -> body_line s) as L7
    by (intros s H; right; now rewrite (K7 s H)).
  clear K3 K4 K5 K6 K7.
  assert (forall ms ls, messages_text ms ls -> Forall body_line ls) as Hms.
  { intros ms l H. induction H as [|m ms s l Hm _ IH|ms s l Hs _ IH]; constructor; auto. left. now exists m. }
  assert (forall x b ls, branch_text x b ls -> Forall body_line ls) as Hb.
  { intros x b l H. destruct H as [y s l _ _ H Hc|l _ H]; [|eauto]. apply Forall_app. eauto. }
  assert (forall x bs ls, branches_text x bs ls -> Forall body_line ls) as Hbs.
  { intros x bs l H. induction H as [|b bs s l l' Ho H _ IH]; constructor; [auto|]. apply Forall_app. eauto. }
  assert (forall x en ls, ending_text x en ls -> Forall body_line ls) as He.
  { intros x en l H. destruct H as [|a b bs s1 s2 s3 l1 l2 H1 H2 H3 H4 H5]; [constructor|].
    constructor; [eauto|]. constructor; [auto|]. rewrite !Forall_app. repeat apply conj; eauto. }
  intros H. destruct H as [s1 s2 ls1 ls2 ls3 _ H1 H2 H3 H4 H5|x s1 s2 s3 s4 ls1 ls2 ls3 _ H1 H2 H3 H4 H5 H6 H7];
    eexists; eexists; (split; [reflexivity|]); (split; [exact H1|]); rewrite !Forall_app; repeat apply conj; repeat apply Forall_cons; try apply Forall_nil; eauto 7.
Qed.

(** The protocol given to nuscr is the protocol without its time: same name,
    same lines in the same order, each without its window only. *)
Theorem regular_protocol : forall name p ls,
  protocol_text name p ls -> (forall r, In r (p_roles p) -> ~ ends_with (lit "timed") r) ->
  exists out, generate_regular_protocol [] ls = (name, out) /\ Forall2 untimed ls out.
Proof.
  intros name p ls T N. destruct (protocol_lines name p ls T) as (s & ls' & -> & Hs & Hb).
  assert (is_match GLOBAL s = true /\ capture GLOBAL (lit "name") s = name) as [E1 E2].
  { pose proof (proj1 lines_read_as_written name (p_roles p) s Hs) as E. cbn [read_line what] in E. unfold read_kind in E.
    destruct (is_match GLOBAL s); [now injection E|].
    repeat match type of E with (if ?b then _ else _) = _ => destruct b; [discriminate E|] end. discriminate E. }
  assert (exists out, generate_regular_protocol name ls' = (name, out) /\ Forall2 untimed ls' out) as (out & E & F).
  { clear s Hs T E1 E2. induction Hb as [|s ls' Hs _ (out & IH1 & IH2)]; [exists []; now split|].
    assert (untimed s (regular_line s) /\ is_match GLOBAL s = false) as [U G].
    { destruct Hs as [[m Hm]|Hs]; [|exact (regular_other s Hs)]. split; [exact (regular_message m s Hm)|].
      pose proof (proj1 (proj2 lines_read_as_written) m s Hm) as E. cbn [read_line what] in E. unfold read_kind in E.
      destruct (is_match GLOBAL s); [discriminate E|reflexivity]. }
    exists (regular_line s :: out). cbn [generate_regular_protocol]. rewrite G, IH1. split; [reflexivity|now constructor]. }
  exists (regular_line s :: out). cbn [generate_regular_protocol]. rewrite E1, E2, E. split; [reflexivity|].
  constructor; [exact (regular_header name (p_roles p) s Hs N)|exact F].
Qed.
Print Assumptions regular_protocol.

Example regular_example :
  let p := Proto [lit "A"; lit "timed_B"] [] (Some (lit "L"))
    [Msg (lit "Load") (Some (lit "i32")) (lit "A") (lit "timed_B") true (lit "0") (lit "1") false (lit "a") (Some (lit "a"))]
    (Some (lit "A", Branch [] true, [Branch [] false])) in
  protocol_text (lit "P") p (print (lit "P") p) /\ (forall r, In r (p_roles p) -> ~ ends_with (lit "timed") r) /\
  generate_regular_protocol [] (print (lit "P") p) =
    (lit "P", map lit ["global protocol P(role A, role timed_B) {"; "rec L {"; "    Load(i32) from A to timed_B;";
       "  choice at A"; "{"; "  continue L;"; "} or {"; "}"; "}"; "}"]%string).
Proof.
  split; [now apply print_ok|]. split; [|now vm_compute].
  intros r [<-|[<-|[]]]; apply ends_with_ok; now vm_compute.
Qed.

(** A role whose name ends with "timed" is renamed if a space follows: the
    text for nuscr has another role. *)
Theorem regular_roles_refuted : exists name p ls out,
  protocol_text name p ls /\ generate_regular_protocol [] ls = (name, out) /\ ~ Forall2 untimed ls out.
Proof.
  set (p := Proto [lit "Untimed"; lit "B"] [] None [] None).
  set (ls := [lit "timed global protocol P(role Untimed , role B) {"; lit "}"]).
  assert (header_text (lit "P") (p_roles p) (lit "timed global protocol P(role Untimed , role B) {")) as H.
  { pose proof (header_text_intro (lit "P") (p_roles p) [] (lit " ") (lit " ") (lit " ") (lit "role Untimed , role B")
      (lit " ") []) as K. cbn in K. apply K; try blanks; [now apply word_ok|].
    pose proof (roles_more (lit "Untimed") (lit " ") (lit " ") [lit "B"] (lit "role B")) as R. cbn in R.
    apply R; try blanks; [now apply word_ok|].
    pose proof (roles_one (lit "B") []) as R1. cbn in R1. apply R1; [now apply word_ok|blanks]. }
  exists (lit "P"), p, ls, [lit "global protocol P(role Un, role B) {"; lit "}"].
  split; [|split; [now vm_compute|]].
  - apply (pt_plain (lit "P") p _ (lit "}") [] [] []); try constructor; [exact H|].
    apply (close_text_intro [] []); blanks.
  - assert (forall s o, untimed s o -> s = lit "timed global protocol P(role Untimed , role B) {" ->
      o = lit "global protocol P(role Un, role B) {" -> False) as U.
    { intros s o U. destruct U as [n rs a b K Ha|m i c s K Hi Hc|s K _]; intros Es Eo.
      - apply (f_equal (@length ascii)) in Es, Eo. rewrite !app_length in Es. rewrite app_length in Eo. cbn in Es, Eo. lia.
      - rewrite <- Es in H. pose proof (proj1 lines_read_as_written _ _ _ H) as E1.
        rewrite (proj1 (proj2 lines_read_as_written) m _ K) in E1. discriminate E1.
      - rewrite Es in Eo. discriminate Eo. }
    intros F. inversion F as [|? ? ? ? U1 _]. exact (U _ _ U1 eq_refl eq_refl).
Qed.
Print Assumptions regular_roles_refuted.
