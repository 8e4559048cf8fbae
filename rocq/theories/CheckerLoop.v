(** * Behaviours with enums of branches, step by step: proofs for C45 *)

From Coq Require Import Ascii String ZArith Lia Bool List.
From Verif Require Import Checker CheckerSpec CheckerText CheckerClean CheckerGraph CheckerRun
  CheckerLoopSpec.
Import ListNotations.

Lemma ty_dec : forall a b : ty, {a = b} + {a <> b}.
Proof.
  fix IH 1. intros [pa na xa] [pb nb xb].
  destruct (list_eq_dec (list_eq_dec ascii_dec) pa pb) as [->|D]; [|right; congruence].
  destruct (list_eq_dec ascii_dec na nb) as [->|D]; [|right; congruence].
  assert ({xa = xb} + {xa <> xb}) as [->|D]; [|now left|right; congruence].
  revert xb. induction xa as [|x xa IHx]; intros [|y xb]; try (now left); try (right; discriminate).
  destruct (IH x y) as [->|D]; [|right; congruence].
  destruct (IHx xb) as [->|D]; [now left|right; congruence].
Defined.

Lemma config_dec : forall a b : config, {a = b} + {a <> b}.
Proof. decide equality; [apply ty_dec|apply (list_eq_dec ty_dec)]. Defined.

Lemma alts_dec : forall a b : alternatives, {a = b} + {a <> b}.
Proof. apply list_eq_dec. decide equality; [apply config_dec|apply (list_eq_dec ascii_dec)]. Defined.

Lemma key_one : forall {A} (m : list (str * A)) e a b, NoDup (map fst m) ->
  In (e, a) m -> In (e, b) m -> a = b.
Proof.
  intros A m e a b D I J. induction m as [|[x v] m IH]; [contradiction|].
  cbn [map fst] in D. inversion D as [|? ? D1 D2]; subst.
  destruct I as [X|I]; destruct J as [Y|J].
  - congruence.
  - injection X as -> ->. exfalso. apply D1. apply in_map_iff. now exists (e, b).
  - injection Y as -> ->. exfalso. apply D1. apply in_map_iff. now exists (e, a).
  - now apply IH.
Qed.

Lemma NoDup_apart : forall {A} (l m : list A) x, NoDup (l ++ m) -> In x l -> In x m -> False.
Proof.
  intros A. induction l as [|y l IH]; intros m x D I J; [contradiction|].
  inversion D as [|? ? D1 D2]; subst. destruct I as [<-|I].
  - apply D1. apply in_or_app. now right.
  - now apply (IH m x).
Qed.

Lemma NoDup_right : forall {A} (l m : list A), NoDup (l ++ m) -> NoDup m.
Proof. intros A. induction l as [|y l IH]; intros m D; [exact D|]. inversion D. now apply IH. Qed.

Lemma names_app : forall a b, names_of (a ++ b) = names_of a ++ names_of b.
Proof. intros a b. apply map_app. Qed.

Lemma names_line : forall (G : line_table) k c a, In (c, a) G -> In k (names_of a) ->
  In k (names_of (concat (map snd G))).
Proof.
  intros G k c a I J. unfold names_of in *. apply in_map_iff in J. destruct J as (v & <- & J).
  apply in_map_iff. exists v. split; [reflexivity|]. apply in_concat. exists a. split; [|exact J].
  apply in_map_iff. now exists (c, a).
Qed.

Lemma lines_one : forall (G : line_table), NoDup (names_of (concat (map snd G))) ->
  forall k c a d b, In (c, a) G -> In k (names_of a) -> In (d, b) G -> In k (names_of b) ->
  c = d /\ a = b.
Proof.
  intros G D k c a d b I J K L. induction G as [|[x v] G IH]; [contradiction|].
  cbn [map snd concat] in D. rewrite names_app in D.
  destruct I as [X|I]; destruct K as [Y|K].
  - split; congruence.
  - injection X as -> ->. exfalso. eapply NoDup_apart; [exact D|exact J|]. eapply names_line; eassumption.
  - injection Y as -> ->. exfalso. eapply NoDup_apart; [exact D|exact L|]. eapply names_line; eassumption.
  - apply IH; try assumption. now apply NoDup_right in D.
Qed.

Section Steps.
  Variable roles : list str.
  Variable me : nat.
  Variable E : enum_table.
  Variable G : line_table.
  Hypothesis Roles : NoDup roles.
  Hypothesis Listed : well_listed E G.

  Notation unf := (unfolds E G roles me).
  Notation does_ c := (performs E G roles me (fst c) (snd c)).
  Notation others := (filter (fun i => negb (i =? me)%nat) (seq 0 (length roles))).

  Lemma same_role : forall i j r, nth_error roles i = Some r -> nth_error roles j = Some r -> i = j.
  Proof.
    intros i j r A B. pose proof (position_nth _ _ _ Roles A). pose proof (position_nth _ _ _ Roles B).
    congruence.
  Qed.

  (** What a role can do at once. *)
  Inductive now : config -> label -> option config -> Prop :=
  | nw_finish : forall ss, Forall (eq tEnd) ss -> now (ss, tRoleEnd) Finish None
  | nw_send : forall ss st i r p s,
      nth_error roles i = Some r -> i <> me ->
      nth_error ss (slot me i) = Some (tSend p s) ->
      now (ss, Node [] r [st]) (Out i p) (Some (put ss (slot me i) s, st))
  | nw_recv : forall ss st i r p s,
      nth_error roles i = Some r -> i <> me ->
      nth_error ss (slot me i) = Some (tRecv p s) ->
      ~ In (short p) (map fst E) ->
      now (ss, Node [] r [st]) (In_ i p) (Some (put ss (slot me i) s, st)).

  (** The two sides of a binary choice. *)
  Inductive binary : config -> config -> config -> Prop :=
  | bi_offer : forall ss r stl str k l ls lst ln rgt rs rst rn,
      nth_error ss k = Some (tRecv (tEither (Node [] l (ls ++ [lst; ln]))
                                            (Node [] rgt (rs ++ [rst; rn]))) tEnd) ->
      binary (ss, Node [] r [stl; str]) (ls, lst) (rs, rst)
  | bi_choose : forall ss r stl str dl dr,
      Forall2 (fun i_s d => exists l ls lst ln rgt,
                 snd i_s = tSend (tEither (Node [] l (ls ++ [lst; ln])) rgt) tEnd /\
                 exists s, nth_error ls (slot (fst i_s) me) = Some s /\ dual_of s d)
        (combine others ss) dl ->
      Forall2 (fun i_s d => exists lft r' rs rst rn,
                 snd i_s = tSend (tEither lft (Node [] r' (rs ++ [rst; rn]))) tEnd /\
                 exists s, nth_error rs (slot (fst i_s) me) = Some s /\ dual_of s d)
        (combine others ss) dr ->
      binary (ss, Node [] r [stl; str]) (dl, stl) (dr, str).

  (** What a role can do after some silent choices, but without entering the
      choice [k]. *)
  Inductive next (k : option alternatives) : config -> label -> option config -> Prop :=
  | nx_now : forall c l o, now c l o -> next k c l o
  | nx_left : forall c c1 c2 l o, binary c c1 c2 -> next k c1 l o -> next k c l o
  | nx_right : forall c c1 c2 l o, binary c c1 c2 -> next k c2 l o -> next k c l o
  | nx_unfold : forall c alts a l o, unf c alts -> k <> Some alts -> In a alts ->
      next k (snd a) l o -> next k c l o.

  Lemma next_weaken : forall k c l o, next k c l o -> next None c l o.
  Proof.
    intros k c l o N. induction N; [now apply nx_now|eapply nx_left; eassumption|eapply nx_right; eassumption|].
    eapply nx_unfold; try eassumption. discriminate.
  Qed.

  (** ** Each configuration has one shape *)

  Lemma enum_one : forall e a b, In (e, a) E -> In (e, b) E -> a = b.
  Proof. intros e a b. apply key_one. apply Listed. Qed.

  Lemma line_one : forall k c a d b, In (c, a) G -> In k (names_of a) -> In (d, b) G -> In k (names_of b) ->
    c = d /\ a = b.
  Proof. intros k c a d b. apply (lines_one G); apply Listed. Qed.

  Lemma unf_unique : forall c a, unf c a -> forall b, unf c b -> a = b.
  Proof.
    intros c a U b V. inversion U as [ss st i r p s vs Ni D Ns I|ss alls F]; subst.
    - inversion V as [ss' st' i' r' p' s' vs' Ni' D' Ns' I'|]; subst.
      pose proof (same_role _ _ _ Ni Ni') as <-. rewrite Ns in Ns'. injection Ns' as <- <-.
      now rewrite (enum_one _ _ _ I I').
    - inversion V as [|ss' alls' F']; subst. f_equal. clear U V.
      revert alls' F'. induction F as [|s a ss alls (p & s' & vs & -> & I & H) F IH]; intros alls' F'.
      + now inversion F'.
      + inversion F' as [|? a' ? alls'' (p' & s'' & vs' & X & I' & H') F'']; subst.
        injection X as <- <-. f_equal; [|now apply IH].
        rewrite <- (enum_one _ _ _ I I') in H'.
        clear -Listed H H'. revert a' H'. induction H as [|v x vs a (N1 & n1 & A1 & B1) H IH]; intros a' H'.
        * now inversion H'.
        * inversion H' as [|? x' ? a'' (N2 & n2 & A2 & B2) H'']; subst. f_equal; [|now apply IH].
          destruct x as [k1 c1], x' as [k2 c2]. cbn [fst snd] in *. subst. f_equal.
          assert (forall n, In (short p, fst v) n -> In (variant_name (short p) (fst v)) (names_of n)) as Q.
          { clear. intros n B. apply in_map_iff. now exists (short p, fst v). }
          apply (line_one _ _ _ _ _ A1 (Q _ B1) A2 (Q _ B2)).
  Qed.

  Lemma enum_named : forall e vs, In (e, vs) E -> In e (map fst E).
  Proof. intros e vs I. apply in_map_iff. now exists (e, vs). Qed.

  Lemma unf_not_now : forall c a l o, unf c a -> now c l o -> False.
  Proof.
    intros c a l o U N. inversion U as [ss st i r p s vs Ni D Ns I|ss alls F]; subst.
    - inversion N as [|? ? i' ? p' s' Ni' D' Ns'|? ? i' ? p' s' Ni' D' Ns' NE]; subst;
        pose proof (same_role _ _ _ Ni Ni') as <-; rewrite Ns in Ns'; [discriminate|].
      injection Ns' as <- <-. apply NE. eapply enum_named, I.
    - inversion N.
  Qed.

  Lemma unf_not_binary : forall c a c1 c2, unf c a -> binary c c1 c2 -> False.
  Proof. intros c a c1 c2 U B. inversion U; subst; inversion B. Qed.

  (** What follows a choice with enums. *)
  Lemma next_unfold : forall c alts, unf c alts -> forall l o,
    next None c l o <-> exists a, In a alts /\ next (Some alts) (snd a) l o.
  Proof.
    intros c alts U l o. split.
    - intros N.
      assert (forall d l o, next None d l o ->
                next (Some alts) d l o \/ exists a, In a alts /\ next (Some alts) (snd a) l o) as K.
      { clear N l o. intros d l o N. induction N as
          [d l o N|d d1 d2 l o B N IH|d d1 d2 l o B N IH|d alts' a l o U' _ Ia N IH].
        - left. now apply nx_now.
        - destruct IH as [IH|IH]; [left|now right]. eapply nx_left; eassumption.
        - destruct IH as [IH|IH]; [left|now right]. eapply nx_right; eassumption.
        - destruct IH as [IH|IH]; [|now right]. destruct (alts_dec alts' alts) as [->|D].
          + right. now exists a.
          + left. eapply nx_unfold; try eassumption. congruence. }
      destruct (K _ _ _ N) as [K'|K']; [|exact K'].
      exfalso. inversion K' as [d l' o' N'|d d1 d2 l' o' B|d d1 d2 l' o' B|d alts' a l' o' U' D]; subst.
      + eapply unf_not_now; eassumption.
      + eapply unf_not_binary; eassumption.
      + eapply unf_not_binary; eassumption.
      + apply D. f_equal. eapply unf_unique; eassumption.
    - intros (a & I & N). eapply nx_unfold; [exact U|discriminate|exact I|eapply next_weaken, N].
  Qed.

  Lemma next_same : forall c d alts, unf c alts -> unf d alts ->
    forall l o, next None c l o <-> next None d l o.
  Proof. intros c d alts U V l o. now rewrite (next_unfold c alts U), (next_unfold d alts V). Qed.

  (** ** Behaviours and steps *)

  Definition after (o : option config) (tr : list label) : Prop :=
    match o with None => tr = [] | Some c => does_ c tr end.

  Lemma next_does : forall k c l o tr, next k c l o -> after o tr -> does_ c (l :: tr).
  Proof.
    intros k c l o tr N. induction N as
      [c l o N|c c1 c2 l o B N IH|c c1 c2 l o B N IH|c alts a l o U _ Ia N IH]; intros A.
    - inversion N; subst; cbn [after fst snd] in *.
      + subst. now apply pf_finish.
      + eapply pf_send; eassumption.
      + eapply pf_recv; eassumption.
    - inversion B; subst; cbn [fst snd] in *.
      + eapply pf_offer; [eassumption|left; reflexivity|now apply IH].
      + eapply pf_choose; [eassumption|eassumption|left; reflexivity|now apply IH].
    - inversion B; subst; cbn [fst snd] in *.
      + eapply pf_offer; [eassumption|right; reflexivity|now apply IH].
      + eapply pf_choose; [eassumption|eassumption|right; reflexivity|now apply IH].
    - destruct c as [ss st]. destruct a as [k' [ls lst]]. eapply pf_enum; try eassumption. now apply IH.
  Qed.

  Lemma does_next : forall ss st tr, performs E G roles me ss st tr ->
    match tr with
    | [] => True
    | l :: tr' => exists o, next None (ss, st) l o /\ after o tr'
    end.
  Proof.
    intros ss st tr D. induction D as
      [ss st|ss F|ss st i r p s tr Ni Dn Ns D IH|ss st i r p s tr Ni Dn Ns NE D IH
      |ss r stl str k l ls lst ln rgt rs rst rn c tr N C D IH|ss r stl str dl dr c tr F1 F2 C D IH
      |ss st alts k ls lst tr U I D IH].
    - exact Logic.I.
    - exists None. split; [apply nx_now; now constructor|reflexivity].
    - eexists. split; [apply nx_now; eapply nw_send; eassumption|exact D].
    - eexists. split; [apply nx_now; eapply nw_recv; eassumption|exact D].
    - destruct tr as [|x tr]; [exact Logic.I|]. destruct IH as (o & IH & A). exists o. split; [|exact A].
      destruct C as [-> | ->]; [eapply nx_left|eapply nx_right]; try exact IH; eapply bi_offer; exact N.
    - destruct tr as [|x tr]; [exact Logic.I|]. destruct IH as (o & IH & A). exists o. split; [|exact A].
      destruct C as [-> | ->]; [eapply nx_left|eapply nx_right]; try exact IH; eapply bi_choose; eassumption.
    - destruct tr as [|x tr]; [exact Logic.I|]. destruct IH as (o & IH & A). exists o. split; [|exact A].
      eapply nx_unfold; [exact U|discriminate|exact I|exact IH].
  Qed.

  Lemma does_steps : forall c tr, does_ c tr <->
    match tr with [] => True | l :: tr' => exists o, next None c l o /\ after o tr' end.
  Proof.
    intros [ss st] tr. split; [apply does_next|]. cbn [fst snd].
    destruct tr as [|l tr]; [intros _; constructor|]. intros (o & N & A).
    exact (next_does _ _ _ _ _ N A).
  Qed.

  Lemma does_same : forall c d alts, unf c alts -> unf d alts -> forall tr, does_ c tr <-> does_ d tr.
  Proof.
    intros c d alts U V tr. rewrite !does_steps. destruct tr as [|l tr]; [reflexivity|].
    split; intros (o & N & A); exists o; (split; [|exact A]); now apply (next_same c d alts U V).
  Qed.
End Steps.
