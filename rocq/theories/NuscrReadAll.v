(** * The text of a whole protocol is read as what was written *)

From Coq Require Import Ascii String Bool Arith Lia List.
From Verif Require Import Checker CheckerText Nuscr NuscrSpec NuscrMaps Regex RegexProofs NuscrText NuscrTextSpec NuscrRead.
Import ListNotations.

(** ** The first line *)

Lemma den_all p w : all p w -> den (Star (Chr p)) w.
Proof.
  induction 1 as [|c w Hc Hw IH]; [constructor|]. change (c :: w) with ([c] ++ w).
  apply den_star_cons; [discriminate|now constructor|exact IH].
Qed.
Lemma den_plus_all p w : w <> [] -> all p w -> den (Plus (Chr p)) w.
Proof.
  intros Hn H. destruct H as [|c w Hc Hw]; [easy|]. change (c :: w) with ([c] ++ w).
  constructor; [now constructor|now apply den_all].
Qed.
Lemma den_lit_intro w k u : den k u -> den (Lit w k) (w ++ u).
Proof.
  intros H. induction w as [|c w IH]; [exact H|]. cbn [Lit app]. change (c :: w ++ u) with ([c] ++ w ++ u).
  constructor; [|exact IH]. constructor. apply Ascii.eqb_refl.
Qed.

Lemma den_item r p q p' : word r -> pad p -> (q = [] \/ q = lit ",") -> pad p' ->
  den role_item (lit "role " ++ r ++ p ++ q ++ p').
Proof.
  intros Hr Hp Hq Hp'. unfold role_item. change (lit "role " ++ r ++ p ++ q ++ p') with
    (lit "role" ++ (lit " " ++ r ++ p ++ q ++ p')). apply den_lit_intro.
  constructor; [apply den_plus_all; [discriminate|repeat constructor]|].
  constructor; [apply den_plus_all; apply word_all; exact Hr|].
  constructor; [apply den_all, pad_all, Hp|].
  constructor; [|apply den_all, pad_all, Hp'].
  destruct Hq as [-> | ->]; [apply den_alt_r, den_eps|apply den_alt_l, den_chr; reflexivity].
Qed.

Lemma den_roles rs t : roles_text rs t -> den (Plus role_item) t.
Proof.
  unfold Plus. induction 1 as [r p Hr Hp|r p p' rs t Hr Hp Hp' Ht IH].
  - rewrite <- (app_nil_r (lit "role " ++ r ++ p)). constructor; [|constructor].
    rewrite <- (app_nil_r p). apply (den_item r p [] []); [exact Hr|exact Hp|now left|constructor].
  - replace (lit "role " ++ r ++ p ++ lit "," ++ p' ++ t) with ((lit "role " ++ r ++ p ++ lit "," ++ p') ++ t)
      by (rewrite <- !app_assoc; reflexivity).
    constructor; [apply den_item; [exact Hr|exact Hp|now right|exact Hp']|].
    inversion IH as [| |? ? u v Hu Hv| | | | |]; subst. apply den_star_cons; [|exact Hu|exact Hv].
    intros ->. apply den_lit in Hu as (w & E & _). discriminate.
Qed.

(** The text of the roles. *)
Lemma roles_start rs t : roles_text rs t -> exists t', t = lit "role " ++ t'.
Proof. intros [r p Hr Hp|r p p' rs' t' Hr Hp Hp' Ht]; eauto. Qed.
Lemma roles_words rs t q : roles_text rs t -> off_word q = true -> off_margin q = true -> q ","%char = false -> none q t.
Proof.
  intros H Hw Hm Hc. induction H as [r p Hr Hp|r p p' rs t Hr Hp Hp' Ht IH].
  - change (lit "role " ++ r ++ p) with (lit "role" ++ lit " " ++ r ++ p).
    apply none_app; [apply word_none; [exact Hw|apply word_lit_b; reflexivity]|].
    apply none_app; [apply margin_none; [exact Hm|repeat constructor]|].
    apply none_app; [now apply word_none|]. apply margin_none; [exact Hm|now apply pad_margin].
  - change (lit "role " ++ r ++ p ++ lit "," ++ p' ++ t) with (lit "role" ++ lit " " ++ r ++ p ++ lit "," ++ p' ++ t).
    apply none_app; [apply word_none; [exact Hw|apply word_lit_b; reflexivity]|].
    apply none_app; [apply margin_none; [exact Hm|repeat constructor]|].
    apply none_app; [now apply word_none|]. apply none_app; [apply margin_none; [exact Hm|now apply pad_margin]|].
    apply none_app; [constructor; [exact Hc|constructor]|].
    apply none_app; [apply margin_none; [exact Hm|now apply pad_margin]|]. exact IH.
Qed.

(** [ROLE] finds a role and goes on behind it. *)
Lemma role_found r s : word r -> stops is_word s ->
  search ROLE (lit "role " ++ r ++ s) = Some ([(lit "name", r)], s).
Proof.
  intros Hr Hs. destruct (last_cap is_word (lit "name") r [] s (proj1 Hr) (proj2 (word_all _ Hr)) Hs) as [l El].
  eapply search_here with (l := l). unfold ROLE. rewrite step_lit. exact El.
Qed.
Lemma role_skip u s : none is_word u -> search ROLE (u ++ s) = search ROLE s.
Proof.
  intros H. apply skip_none; [reflexivity|]. eapply Forall_impl; [|exact H]. intros c Hc. cbn beta in Hc.
  change (Ascii.eqb "r" c || false = false). rewrite orb_false_r. apply Ascii.eqb_neq. intros <-. discriminate.
Qed.
Lemma role_skip_word w s : word w -> stops is_word s -> stops spc s \/ ~ ends_with (lit "role") w ->
  search ROLE (w ++ s) = search ROLE s.
Proof.
  intros Hw Hs Hc. change ROLE with (Lit (lit "role") (Lit (lit " ") (Cap (lit "name") wordchars1))).
  apply skip_word; try assumption; [apply word_lit_b; reflexivity|vm_compute; reflexivity].
Qed.

Lemma captures_roles rs t : roles_text rs t -> forall fuel u v, none is_word u -> stops is_word v ->
  (forall f, captures_iter ROLE (lit "name") f v = []) -> (length rs <= fuel)%nat ->
  captures_iter ROLE (lit "name") fuel (u ++ t ++ v) = rs.
Proof.
  induction 1 as [r p Hr Hp|r p p' rs t Hr Hp Hp' Ht IH]; intros fuel u v Hu Hv Hend L; cbn [length] in L;
    (destruct fuel as [|fuel]; [lia|]); cbn [captures_iter].
  - rewrite role_skip by exact Hu. rewrite <- !app_assoc. rewrite role_found; [|exact Hr|apply stops_pad; [nones|exact Hv]].
    cbn [hget]. rewrite seqb_refl. f_equal.
    specialize (Hend fuel). destruct fuel as [|fuel]; [reflexivity|]. cbn [captures_iter] in *.
    now rewrite role_skip by nones.
  - rewrite role_skip by exact Hu. rewrite <- !app_assoc. rewrite role_found; [|exact Hr|apply stops_pad; [nones|exact eq_refl]].
    cbn [hget]. rewrite seqb_refl. f_equal. rewrite 2!app_assoc. rewrite <- (app_assoc (p ++ lit ",")). rewrite <- app_assoc.
    replace (p ++ lit "," ++ p' ++ t ++ v) with ((p ++ lit "," ++ p') ++ t ++ v) by (rewrite <- !app_assoc; reflexivity).
    apply IH; [|exact Hv|exact Hend|lia]. noness.
Qed.

Lemma roles_length rs t : roles_text rs t -> (length rs <= length t)%nat.
Proof. induction 1 as [r p Hr Hp|r p p' rs t Hr Hp Hp' Ht IH]; rewrite ?app_length; cbn [length lit list_ascii_of_string]; lia. Qed.

Lemma read_header_line name rs s : header_text name rs s ->
  exists rt, read_line s = Line 1 0 false (KGlobal name rs) rt.
Proof.
  intros H. destruct H as [i g1 g2 g3 t p t' Hi G1 G2 G3 Hn Hr Hp Ht']. set (s := i ++ _).
  unfold read_line. eexists. f_equal.
  - unfold s. repeat (rewrite count_app).
    rewrite (count_none "{" t) by (apply (roles_words _ _ _ Hr); vm_compute; reflexivity). counts.
  - unfold s. repeat (rewrite count_app).
    rewrite (count_none "}" t) by (apply (roles_words _ _ _ Hr); vm_compute; reflexivity). counts.
  - apply not_blank. discriminate.
  - unfold read_kind, is_match, capture.
    assert (exists e l, search GLOBAL s = Some (e, l) /\ hget e (lit "name") = Some name) as (e & l & -> & ->).
    { unfold s, GLOBAL. rewrite skip_other; [|apply word_lit_b; reflexivity|nones].
      set (k := Seq (Plus role_item) _). set (e0 := hset (lit "name") name []).
      assert (exists e l l', ways k e0 (t ++ lit ")" ++ p ++ lit "{" ++ t') = (e, l) :: l' /\
        hget e (lit "name") = Some name) as (e & l & l' & E & He).
      { destruct (den_ways k (t ++ lit ")")) with (e := e0) (s := p ++ lit "{" ++ t') as [e1 H1].
        - unfold k. constructor; [exact (den_roles _ _ Hr)|]. rewrite <- (app_nil_r (lit ")")). apply den_lit_intro.
          change (@nil ascii) with (@nil ascii ++ []). constructor; [constructor|apply den_alt_r; constructor].
        - rewrite <- app_assoc in H1.
          destruct (ways k e0 (t ++ lit ")" ++ p ++ lit "{" ++ t')) as [|[e l] l'] eqn:E; [easy|].
          exists e, l, l'. split; [reflexivity|]. rewrite (ways_keep k (lit "name") eq_refl e0 _ e l) by (rewrite E; now left).
          reflexivity. }
      exists e, l. split; [|exact He]. eapply search_here with (l := l'). rewrite <- E.
      destruct (roles_start _ _ Hr) as [t0 ->]. rewrite <- app_assoc.
      repeat step. reflexivity. }
    f_equal. unfold s. rewrite <- (app_nil_l (i ++ _)).
    assert (forall f, captures_iter ROLE (lit "name") f (lit ")" ++ p ++ lit "{" ++ t') = []) as Hend.
    { intros f. destruct f as [|f]; [reflexivity|]. cbn [captures_iter].
      rewrite !role_skip by nones. rewrite <- (app_nil_r t'), role_skip by nones. reflexivity. }
    assert (forall f, captures_iter ROLE (lit "name") (S f) s =
      captures_iter ROLE (lit "name") (S f) ([] ++ t ++ lit ")" ++ p ++ lit "{" ++ t')) as Hs.
    { intros f. cbn [captures_iter app]. unfold s.
      rewrite (role_skip i) by nones.
      rewrite (role_skip_word (lit "timed")) by (first [apply word_lit_b; reflexivity|stop|right; apply ends_with_ok; vm_compute; reflexivity]).
      rewrite (role_skip g1) by nones.
      rewrite (role_skip_word (lit "global")) by (first [apply word_lit_b; reflexivity|stop|right; apply ends_with_ok; vm_compute; reflexivity]).
      rewrite (role_skip g2) by nones.
      rewrite (role_skip_word (lit "protocol")) by (first [apply word_lit_b; reflexivity|stop|right; apply ends_with_ok; vm_compute; reflexivity]).
      rewrite (role_skip g3) by nones.
      rewrite (role_skip_word name) by (first [exact Hn|stop|left; stop]).
      rewrite (role_skip (lit "(")) by nones. reflexivity. }
    cbn [app]. fold s. assert (length rs <= length s)%nat as L.
    { unfold s. rewrite !app_length. pose proof (roles_length _ _ Hr). lia. }
    destruct (length s) as [|f] eqn:E.
    { unfold s in E. rewrite !app_length in E. cbn [length lit list_ascii_of_string] in E. lia. }
    rewrite Hs. apply captures_roles; [exact Hr|constructor|exact eq_refl|exact Hend|exact L].
Qed.

(** ** The whole text *)

Lemma read_messages ms ls : messages_text ms ls ->
  forall safe : option str -> Prop, (forall m rt, In m ms ->
     (~ ends_with (lit "rec") (sender m) -> ~ ends_with (lit "rec") (receiver m) ->
      ~ ends_with (lit "rec") (clock m) -> rt = None) -> safe rt) ->
  messages_as safe ms (map read_line ls).
Proof.
  intros H safe. induction H as [|m ms s ls Hm Hms IH|ms s ls Hs Hms IH]; intros K; cbn [map].
  - constructor.
  - apply read_message_line in Hm as (rt & -> & Hrt). constructor.
    + apply (K m rt); [now left|exact Hrt].
    + apply IH. intros m' rt' Hin. apply K. now right.
  - apply read_empty_line in Hs as [b ->]. constructor. apply IH, K.
Qed.
Lemma read_messages_any ms ls : messages_text ms ls -> messages_as (fun _ => True) ms (map read_line ls).
Proof. intros H. now apply read_messages. Qed.

Lemma read_branch x b ls : branch_text x b ls -> branch_as x b (map read_line ls).
Proof.
  intros [y s ls' -> Ha Hm Hc|ls' Hx Hm].
  - rewrite map_app. cbn [map]. rewrite (read_continue_line _ _ Hc).
    replace [plain (KContinue y)] with (continue_as (Some y) b) by (unfold continue_as; now rewrite Ha).
    constructor. now apply read_messages_any.
  - rewrite <- (app_nil_r (map read_line ls')).
    replace (@nil line) with (continue_as x b).
    + constructor. now apply read_messages_any.
    + unfold continue_as. destruct Hx as [-> | ->]; [reflexivity|]. now destruct x.
Qed.
Lemma read_branches x bs ls : branches_text x bs ls -> branches_as x bs (map read_line ls).
Proof.
  induction 1 as [|b bs s ls ls' Ho Hb Hbs IH]; cbn [map]; [constructor|].
  rewrite (read_or_line _ Ho), map_app. constructor; [now apply read_branch|exact IH].
Qed.
Lemma read_ending x en ls : ending_text x en ls -> ending_as x en (map read_line ls).
Proof.
  intros [|a b bs s1 s2 s3 ls1 ls2 H1 H2 H3 Hb Hbs]; cbn [map]; [constructor|].
  rewrite (read_choice_line _ _ H1), (read_open_line _ H2), !map_app. cbn [map].
  rewrite (read_close_line _ H3). constructor; [now apply read_branch|now apply read_branches].
Qed.

Lemma read_protocol name p ls : protocol_text name p ls -> no_rec p ->
  exists lt, proto_as lt name p (map read_line ls).
Proof.
  intros H Hno. destruct H as [s1 s2 ls1 ls2 ls3 Hl H1 Hb Hi He H2|x s1 s2 s3 s4 ls1 ls2 ls3 Hl H1 Hb H2 Hi He H3 H4].
  - exists []. cbn [map]. rewrite !map_app. cbn [map]. apply read_header_line in H1 as [rt ->].
    rewrite (read_close_line _ H2).
    pose proof (pa [] name p rt (map read_line ls1) (map read_line ls2) (map read_line ls3)) as K.
    rewrite Hl in K. cbn [loop_open loop_close app] in K. apply K.
    + now apply read_messages_any.
    + apply read_messages; [exact Hi|]. intros m rt' _ _. now destruct rt'.
    + now apply read_ending.
    + exact Logic.I.
  - exists s2. cbn [map]. rewrite !map_app. cbn [map]. apply read_header_line in H1 as [rt ->].
    apply read_loop_line in H2 as [-> Hc].
    rewrite (read_close_line _ H3), (read_close_line _ H4).
    pose proof (pa s2 name p rt (map read_line ls1) (map read_line ls2) (map read_line ls3)) as K.
    rewrite Hl in K. cbn [loop_open loop_close app] in K. apply K.
    + now apply read_messages_any.
    + apply read_messages; [exact Hi|]. intros m rt' Hm Hrt. destruct Hno as [Hno|Hno]; [congruence|].
      destruct (Hno m Hm) as (N1 & N2 & N3). now rewrite (Hrt N1 N2 N3).
    + now apply read_ending.
    + exact Hc.
Qed.
