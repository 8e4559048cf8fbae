(** * A text for every protocol

    One way to write a protocol that satisfies NuscrTextSpec.v, used in the
    examples: the texts there are not empty. *)

From Coq Require Import Ascii String Bool Arith Lia List.
From Verif Require Import Checker CheckerText Nuscr NuscrSpec NuscrText NuscrTextSpec NuscrRead.
Import ListNotations.

Definition print_message (m : msg) : str :=
  lit "    " ++ label m ++ lit "(" ++ option_text (payload m) ++ lit ")" ++ lit " " ++
      lit "from" ++ lit " " ++ sender m ++ lit " " ++ lit "to" ++ lit " " ++ receiver m ++ lit " " ++
      lit "within" ++ lit " " ++ left_text (li m) ++ [] ++ lb m ++ [] ++ lit ";" ++ [] ++ rb m ++ [] ++
      right_text (ri m) ++ lit " " ++ lit "using" ++ lit " " ++ clock m ++ lit " " ++ lit "and" ++ lit " " ++
      lit "resetting" ++ lit " " ++ lit "(" ++ option_text (reset m) ++ lit ")" ++ [] ++ lit ";" ++ [].
Fixpoint print_roles (rs : list str) : str :=
  match rs with
  | [] => []
  | [r] => lit "role " ++ r ++ []
  | r :: rs => lit "role " ++ r ++ [] ++ lit "," ++ lit " " ++ print_roles rs
  end.
Definition print_header (name : str) (rs : list str) : str :=
  [] ++ lit "timed" ++ lit " " ++ lit "global" ++ lit " " ++ lit "protocol" ++ lit " " ++ name ++
      lit "(" ++ print_roles rs ++ lit ")" ++ lit " " ++ lit "{" ++ [].
Definition print_branch (x : option str) (b : branch) : list str :=
  map print_message (said b) ++
  match x with
  | Some x => if again b then [lit "  " ++ lit "continue" ++ lit " " ++ x ++ [] ++ lit ";" ++ []] else []
  | None => []
  end.
Definition print_ending (x : option str) (e : option (str * branch * list branch)) : list str :=
  match e with
  | None => []
  | Some (a, b, bs) =>
      [lit "  " ++ lit "choice" ++ lit " " ++ lit "at" ++ lit " " ++ a ++ []; [] ++ lit "{" ++ []] ++
      print_branch x b ++
      flat_map (fun b => ([] ++ lit "}" ++ lit " " ++ lit "or" ++ lit " " ++ lit "{" ++ []) :: print_branch x b) bs ++
      [[] ++ lit "}" ++ []]
  end.
Definition print (name : str) (p : proto) : list str :=
  match loop p with
  | None =>
      print_header name (p_roles p) :: map print_message (before p) ++ map print_message (inside p) ++
        print_ending None (ending p) ++ [[] ++ lit "}" ++ []]
  | Some x =>
      print_header name (p_roles p) :: map print_message (before p) ++
        [[] ++ lit "rec" ++ lit " " ++ x ++ lit " " ++ lit "{" ++ []] ++ map print_message (inside p) ++
        print_ending (Some x) (ending p) ++ [[] ++ lit "}" ++ []; [] ++ lit "}" ++ []]
  end.

(** Names are words, bounds are numbers. *)
Definition word_b (w : str) : bool := match w with [] => false | _ => forallb is_word w end.
Definition natural_b (w : str) : bool := match w with [] => false | _ => forallb is_digit w end.
Definition option_b (o : option str) : bool := match o with Some w => word_b w | None => true end.
Definition msg_b (m : msg) : bool :=
  word_b (label m) && option_b (payload m) && word_b (sender m) && word_b (receiver m) && natural_b (lb m) &&
  natural_b (rb m) && word_b (clock m) && option_b (reset m).
Definition proto_b (p : proto) : bool :=
  match p_roles p with [] => false | rs => forallb word_b rs end &&
  option_b (loop p) && forallb msg_b (before p) && forallb msg_b (inside p) &&
  match ending p with
  | None => true
  | Some (a, b, bs) => word_b a && forallb (fun b => forallb msg_b (said b)) (b :: bs)
  end.

Lemma word_ok w : word_b w = true -> word w.
Proof. apply word_lit_b. Qed.
Lemma natural_ok w : natural_b w = true -> natural w.
Proof.
  destruct w as [|c w]; [easy|]. intros H. split; [discriminate|]. apply Forall_forall. intros x Hx.
  apply digit_b. cbn [natural_b] in H. rewrite forallb_forall in H. now apply H.
Qed.
Lemma option_ok o : option_b o = true -> option_word o.
Proof. destruct o; [apply word_ok|easy]. Qed.
Lemma pad_nil : pad [].
Proof. constructor. Qed.
Lemma pad_one : pad (lit " ").
Proof. repeat constructor. Qed.
Lemma gap_one : gap (lit " ").
Proof. split; [discriminate|apply pad_one]. Qed.
Lemma margin_spaces : margin [] /\ margin (lit "  ") /\ margin (lit "    ").
Proof. split; [constructor|]. split; repeat (constructor; [now left|]); constructor. Qed.

Ltac blanks :=
  first [apply gap_one|apply pad_nil|apply pad_one|apply margin_spaces|assumption].

Lemma print_message_ok m : msg_b m = true -> message_text m (print_message m).
Proof.
  unfold msg_b. rewrite !andb_true_iff. intros (((((((H1 & H2) & H3) & H4) & H5) & H6) & H7) & H8).
  apply word_ok in H1, H3, H4, H7. apply option_ok in H2, H8. apply natural_ok in H5, H6.
  unfold print_message. constructor; blanks.
Qed.
Lemma print_messages_ok ms : forallb msg_b ms = true -> messages_text ms (map print_message ms).
Proof.
  induction ms as [|m ms IH]; cbn [forallb map]; [constructor|]. rewrite andb_true_iff. intros [Hm Hms].
  constructor; [now apply print_message_ok|now apply IH].
Qed.
Lemma print_roles_ok rs : rs <> [] -> forallb word_b rs = true -> roles_text rs (print_roles rs).
Proof.
  induction rs as [|r [|r' rs] IH]; intros Hn H; [easy| |]; cbn [forallb] in H; apply andb_true_iff in H as [Hr H];
    apply word_ok in Hr.
  - cbn [print_roles]. constructor; blanks.
  - change (print_roles (r :: r' :: rs)) with (lit "role " ++ r ++ [] ++ lit "," ++ lit " " ++ print_roles (r' :: rs)).
    constructor; try blanks. apply IH; [discriminate|exact H].
Qed.
Lemma print_branch_ok x b : option_b x = true -> forallb msg_b (said b) = true -> branch_text x b (print_branch x b).
Proof.
  intros Hx Hb. apply print_messages_ok in Hb. unfold print_branch. destruct x as [x|].
  - destruct (again b) eqn:Ha.
    + apply (bt_again (Some x) b x); try easy. apply word_ok in Hx. constructor; blanks.
    + rewrite app_nil_r. apply bt_end; [now right|exact Hb].
  - rewrite app_nil_r. apply bt_end; [now left|exact Hb].
Qed.
Lemma print_ok name p : word_b name = true -> proto_b p = true -> protocol_text name p (print name p).
Proof.
  unfold proto_b. rewrite !andb_true_iff. intros Hn ((((H1 & H2) & H3) & H4) & H5). apply word_ok in Hn.
  assert (header_text name (p_roles p) (print_header name (p_roles p))) as Hh.
  { unfold print_header. constructor; try blanks. destruct (p_roles p); [easy|]. now apply print_roles_ok. }
  assert (close_text ([] ++ lit "}" ++ [])) as Hc by (constructor; blanks).
  assert (ending_text (loop p) (ending p) (print_ending (loop p) (ending p))) as He.
  { destruct (ending p) as [[[a b] bs]|]; [|constructor]. cbn [print_ending].
    cbn [forallb] in H5. rewrite !andb_true_iff in H5. destruct H5 as (Ha & Hb & Hbs). apply word_ok in Ha.
    cbn [app]. apply (et_choice (loop p) a b bs
      (lit "  " ++ lit "choice" ++ lit " " ++ lit "at" ++ lit " " ++ a ++ []) ([] ++ lit "{" ++ []) ([] ++ lit "}" ++ [])).
    - constructor; blanks.
    - constructor; blanks.
    - exact Hc.
    - now apply print_branch_ok.
    - clear Hb. induction bs as [|b' bs IH]; cbn [flat_map]; [constructor|].
      cbn [forallb] in Hbs. apply andb_true_iff in Hbs as [Hb' Hbs].
      apply (bst_cons (loop p) b' bs ([] ++ lit "}" ++ lit " " ++ lit "or" ++ lit " " ++ lit "{" ++ [])).
      + constructor; blanks.
      + now apply print_branch_ok.
      + now apply IH. }
  apply print_messages_ok in H3, H4. unfold print. destruct (loop p) as [x|] eqn:El.
  - apply word_ok in H2. apply (pt_loop name p x); try assumption. constructor; blanks.
  - now apply (pt_plain name p).
Qed.

(** No name ends with "rec". *)
Definition rec_b (w : str) : bool := negb (ends_with_b (lit "rec") w).
Definition no_rec_b (p : proto) : bool :=
  forallb (fun m => rec_b (sender m) && rec_b (receiver m) && rec_b (clock m)) (inside p).
Lemma no_rec_ok p : no_rec_b p = true -> no_rec p.
Proof.
  unfold no_rec_b. rewrite forallb_forall. intros H. right. intros m Hm. specialize (H m Hm). cbn beta in H.
  rewrite !andb_true_iff in H. unfold rec_b in H. rewrite !negb_true_iff in H. destruct H as [[H1 H2] H3].
  split; [now apply ends_with_ok|]. split; now apply ends_with_ok.
Qed.
