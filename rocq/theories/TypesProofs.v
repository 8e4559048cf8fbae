(** Proofs about Types.v. *)
From Coq Require Import List ZArith Bool Lia.
From Verif Require Import Types.
Import ListNotations.

Lemma sdual_involutive : forall r, sdual (sdual r) = r.
Proof. induction r; cbn; congruence. Qed.

(** Induction principle going through the fields of a MeshedChannels. *)
Section TyInd.
  Variable P : Type.
  Variable Q : ty P -> Prop.
  Hypothesis HEnd : Q TEnd.
  Hypothesis HSend : forall p s, Q s -> Q (TSend p s).
  Hypothesis HRecv : forall p s, Q s -> Q (TRecv p s).
  Hypothesis HSendT : forall p w s, Q s -> Q (TSendT p w s).
  Hypothesis HRecvT : forall p w s, Q s -> Q (TRecvT p w s).
  Hypothesis HMesh : forall ss r n, Forall Q ss -> Q (TMesh ss r n).

  Fixpoint ty_ind' (t : ty P) : Q t :=
    match t with
    | TEnd => HEnd
    | TSend p s => HSend p s (ty_ind' s)
    | TRecv p s => HRecv p s (ty_ind' s)
    | TSendT p w s => HSendT p w s (ty_ind' s)
    | TRecvT p w s => HRecvT p w s (ty_ind' s)
    | TMesh ss r n =>
        HMesh ss r n
          ((fix go (l : list (ty P)) : Forall Q l :=
              match l with
              | [] => Forall_nil Q
              | s :: rest => Forall_cons s (ty_ind' s) (go rest)
              end) ss)
    end.
End TyInd.

Lemma dual_involutive : forall P (t : ty P), dual (dual t) = t.
Proof.
  intros P. apply ty_ind'; cbn; intros; try congruence.
  rewrite sdual_involutive, map_map. f_equal.
  induction H as [|s l Hs _ IH]; cbn; congruence.
Qed.

(** ** Specification of duality: the sequence of actions of a binary session. *)

Inductive dir := Out | In.
Definition flip (d : dir) : dir := match d with Out => In | In => Out end.

(** The actions of a binary (possibly timed) session type; [None] if a MeshedChannels occurs. *)
Fixpoint actions {P} (t : ty P) : option (list (dir * P * option window)) :=
  match t with
  | TEnd => Some []
  | TSend p s => option_map (cons (Out, p, None)) (actions s)
  | TRecv p s => option_map (cons (In, p, None)) (actions s)
  | TSendT p w s => option_map (cons (Out, p, Some w)) (actions s)
  | TRecvT p w s => option_map (cons (In, p, Some w)) (actions s)
  | TMesh _ _ _ => None
  end.

Lemma dual_actions : forall P (t : ty P) l, actions t = Some l ->
  actions (dual t) = Some (map (fun '(d, p, w) => (flip d, p, w)) l).
Proof.
  intros P t. induction t; cbn; intros l H; try discriminate;
    try (destruct (actions t); [|discriminate]; cbn in H; inversion H; subst;
         rewrite (IHt _ eq_refl); reflexivity).
  inversion H; reflexivity.
Qed.

(** A binary session type is determined by its actions. *)
Lemma actions_inj : forall P (t u : ty P) l, actions t = Some l -> actions u = Some l -> t = u.
Proof.
  intros P. induction t; intros u l Ht Hu; cbn in Ht; try discriminate;
    try (destruct (actions t) eqn:E; [|discriminate]; cbn in Ht; inversion Ht; subst;
         destruct u; cbn in Hu; try discriminate;
         destruct (actions u) eqn:E'; try discriminate; cbn in Hu; inversion Hu; subst;
         f_equal; eapply IHt; eauto; fail).
  inversion Ht; subst.
  destruct u; cbn in Hu; try discriminate; try reflexivity;
    destruct (actions u); discriminate.
Qed.

(** ** Specification of [new] *)

(** [fits t e]: the value e has the Rust type t. *)
Inductive fits {P} : ty P -> ep -> Prop :=
| fits_end : forall a b, fits TEnd (EEnd a b)
| fits_send : forall p s c, fits (TSend p s) (ESend c)
| fits_recv : forall p s c, fits (TRecv p s) (ERecv c)
| fits_sendt : forall p w s c, fits (TSendT p w s) (ESendT c w)
| fits_recvt : forall p w s c, fits (TRecvT p w s) (ERecvT c w)
| fits_mesh : forall ss es r n, Forall2 fits ss es -> fits (TMesh ss r n) (EMesh es r n).

(** [linked e e']: e and e' are the two opposite ends of the same channel(s). *)
Inductive linked : ep -> ep -> Prop :=
| linked_end : forall a b, a <> b -> linked (EEnd a b) (EEnd b a)
| linked_sr : forall c, linked (ESend c) (ERecv c)
| linked_rs : forall c, linked (ERecv c) (ESend c)
| linked_srt : forall c w, linked (ESendT c w) (ERecvT c w)
| linked_rst : forall c w, linked (ERecvT c w) (ESendT c w)
| linked_mesh : forall es es' r r' n, Forall2 linked es es' ->
    linked (EMesh es r n) (EMesh es' r' n).

(** Channels occurring in a value. *)
Fixpoint chans (e : ep) : list nat :=
  match e with
  | ESend c | ERecv c | ESendT c _ | ERecvT c _ => [c]
  | EEnd a b => [a; b]
  | EMesh es _ _ => flat_map chans es
  end.

Definition new_ok {P} (t : ty P) (c : nat) : Prop :=
  exists e1 e2 c', new t c = (e1, e2, c') /\ c <= c' /\
    fits t e1 /\ fits (dual t) e2 /\ linked e1 e2 /\
    NoDup (chans e1) /\ (forall x, List.In x (chans e1) <-> c <= x < c') /\
    (forall x, List.In x (chans e2) <-> c <= x < c').

Lemma new_list_ok : forall P (ss : list (ty P)),
  Forall (fun s => forall c, new_ok s c) ss -> forall c,
  exists l1 l2 c', new_list new ss c = (l1, l2, c') /\ c <= c' /\
    Forall2 fits ss l1 /\ Forall2 fits (map dual ss) l2 /\ Forall2 linked l1 l2 /\
    NoDup (flat_map chans l1) /\
    (forall x, List.In x (flat_map chans l1) <-> c <= x < c') /\
    (forall x, List.In x (flat_map chans l2) <-> c <= x < c').
Proof.
  intros P ss H. induction H as [|s rest Hs _ IH]; intros c; cbn.
  - exists [], [], c. cbn. repeat split; try constructor; try lia; try tauto.
  - destruct (Hs c) as (e1 & e2 & c1 & Hn & Hle & Hf1 & Hf2 & Hl & Hnd & Hc1 & Hc2).
    rewrite Hn. destruct (IH c1) as (l1 & l2 & c2 & Hn' & Hle' & Hg1 & Hg2 & Hl' & Hnd' & Hd1 & Hd2).
    rewrite Hn'. exists (e1 :: l1), (e2 :: l2), c2. split; [reflexivity|]. split; [lia|].
    split; [constructor; assumption|]. split; [constructor; assumption|].
    split; [constructor; assumption|]. cbn [flat_map]. split; [|split].
    + clear - Hnd Hnd' Hc1 Hd1.
      assert (Hdis : forall x, List.In x (chans e1) -> List.In x (flat_map chans l1) -> False).
      { intros x H1 H2. apply Hc1 in H1. apply Hd1 in H2. lia. }
      clear Hc1 Hd1. induction (chans e1) as [|a l IHl]; [exact Hnd'|]. cbn.
      inversion Hnd; subst. constructor.
      * rewrite in_app_iff. intros [Ha|Ha]; [tauto|]. eapply Hdis; [left; reflexivity|exact Ha].
      * apply IHl; [assumption|]. intros x Hx. apply Hdis. right. exact Hx.
    + intros x. rewrite in_app_iff, Hc1, Hd1. lia.
    + intros x. rewrite in_app_iff, Hc2, Hd2. lia.
Qed.

Lemma new_spec : forall P (t : ty P) c, new_ok t c.
Proof.
  intros P. apply (ty_ind' P (fun t => forall c, new_ok t c)).
  - intros c. exists (EEnd c (S c)), (EEnd (S c) c), (S (S c)). cbn.
    split; [reflexivity|]. split; [lia|]. split; [constructor|]. split; [constructor|].
    split; [constructor; lia|]. split; [|split; intros x; lia].
    constructor; [intros [H|[]]; lia|]. constructor; [intros []|constructor].
  - intros p s _ c. exists (ESend c), (ERecv c), (S c). cbn.
    split; [reflexivity|]. split; [lia|]. split; [constructor|]. split; [constructor|].
    split; [constructor|]. split; [|split; intros x; lia]. constructor; [intros []|constructor].
  - intros p s _ c. exists (ERecv c), (ESend c), (S c). cbn.
    split; [reflexivity|]. split; [lia|]. split; [constructor|]. split; [constructor|].
    split; [constructor|]. split; [|split; intros x; lia]. constructor; [intros []|constructor].
  - intros p w s _ c. exists (ESendT c w), (ERecvT c w), (S c). cbn.
    split; [reflexivity|]. split; [lia|]. split; [constructor|]. split; [constructor|].
    split; [constructor|]. split; [|split; intros x; lia]. constructor; [intros []|constructor].
  - intros p w s _ c. exists (ERecvT c w), (ESendT c w), (S c). cbn.
    split; [reflexivity|]. split; [lia|]. split; [constructor|]. split; [constructor|].
    split; [constructor|]. split; [|split; intros x; lia]. constructor; [intros []|constructor].
  - intros ss r n H c. destruct (new_list_ok P ss H c) as
      (l1 & l2 & c' & Hn & Hle & Hf1 & Hf2 & Hl & Hnd & Hc1 & Hc2).
    exists (EMesh l1 r n), (EMesh l2 (sdual r) n), c'. cbn. rewrite Hn.
    split; [reflexivity|]. split; [lia|]. split; [constructor; assumption|].
    split; [constructor; assumption|]. split; [constructor; assumption|]. auto.
Qed.
