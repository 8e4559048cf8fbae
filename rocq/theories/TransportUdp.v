(** A socket on which nothing is lost or overtaken behaves as a stream. Proofs for C53. *)
From Coq Require Import List Arith Bool Lia.
From Verif Require Import Types Wiring Session Mesh MeshSpec Global Binary Properties_Mesh Properties_Global Properties_Binary Transport
  TransportMirror TransportProofs TransportLive.
Import ListNotations.

Definition io_of (u : uio) : io := match u with UNone => IoNone | USend d => IoWrite d | URecv => IoRead [] end.

(** The state of the stream for a state of the socket. *)
Record same (u : ustate) (x : xstate) : Prop := Same {
  s_st : x_st x = u_st u;
  s_up : n_up (x_net x) = concat (u_up (u_net u));
  s_down : n_down (x_net x) = concat (u_down (u_net u));
  s_pos : n_pos (x_net x) = size * u_pos (u_net u);
  s_shut : n_shut (x_net x) = false;
  s_io : forall p, x_io x p = io_of (u_io u p);
  s_data : forall p, x_data x p = u_data u p;
  s_sizes : Forall (fun d => length d = size) (u_up (u_net u));
  s_left : forall p d, u_io u p = USend d -> length d = size;
  s_le : u_pos (u_net u) <= length (u_down (u_net u))
}.

Lemma sized_length (l : list bytes) : Forall (fun d => length d = size) l -> length (concat l) = size * length l.
Proof. induction 1 as [|d l H _ IH]; [reflexivity|]. cbn [concat length]. rewrite app_length, IH, H. lia. Qed.
Lemma nth_slice : forall (l : list bytes) k (d : bytes), Forall (fun d => length d = size) l -> nth_error l k = Some d ->
  firstn size (skipn (size * k) (concat l)) = d.
Proof.
  induction l as [|e l IH]; intros k d F H; [destruct k; discriminate|]. inversion F as [|? ? He Fl]; subst. destruct k as [|k]; cbn [nth_error] in H.
  - injection H as ->. rewrite Nat.mul_0_r. cbn [skipn concat]. rewrite firstn_app, He, Nat.sub_diag, firstn_O, app_nil_r. rewrite <- He. apply firstn_all.
  - cbn [concat]. rewrite skipn_app. rewrite skipn_all2 by lia. cbn [app]. replace (size * S k - length e) with (size * k) by lia. now apply IH.
Qed.
Lemma into_sized (d : bytes) : length d = size -> into_data d = d.
Proof. intros H. unfold into_data. rewrite H, Nat.sub_diag. cbn [repeat]. rewrite app_nil_r, <- H. apply firstn_all. Qed.

Section Sim.
  Variable branch : nat -> nat -> nat -> mty.
  Variable labels : nat -> nat.
  Variable udp : nat -> nat -> bool.
  Let xe := xexec branch labels udp (fun _ => false).

  (** Server steps with empty datagrams do not exist here: what comes back was sent, and has 128 bytes. *)
  Lemma usim a u u' x : same u x -> uexec branch labels udp a u = Some u' -> uecho (u_net u') ->
    exists a' x', xe a' x = Some x' /\ same u' x' /\ echo (x_net x').
  Proof.
    intros [S1 S2 S3 S4 S5 S6 S7 S8 S9 S10] E [rest Hr].
    assert (Sd : Forall (fun d => length d = size) (u_up (u_net u')) -> Forall (fun d => length d = size) (u_down (u_net u'))).
    { rewrite Hr. intros H. apply Forall_app in H. tauto. }
    destruct a as [p i d|p|p|dg]; cbn [uexec] in E.
    - destruct (u_io u p) eqn:Ei; try discriminate. destruct (step2 branch labels p i (u_st u)) as [st'|] eqn:Es; [|discriminate].
      assert (Ex : x_io x p = IoNone) by (rewrite S6, Ei; reflexivity).
      assert (Hecho : u_net u' = u_net u -> echo (x_net x)).
      { intros En. exists (concat rest). rewrite S2, S3, <- concat_app. f_equal. rewrite <- En. exact Hr. }
      assert (Hset : forall w q, set_at (x_io x) p (io_of w) q = io_of (set_at (u_io u) p w q)).
      { intros w q. unfold set_at. destruct (q =? p); auto. }
      assert (Hset' : forall w q, set_at (x_data x) p (x_data x p ++ [w]) q = set_at (u_data u) p (u_data u p ++ [w]) q).
      { intros w q. unfold set_at. rewrite S7. destruct (q =? p); auto. }
      unfold xe. exists (XDo p i d). cbn [xexec]. rewrite Ex, S1, Es. unfold begin_uio in E. unfold begin_io. rewrite S1. rewrite andb_false_r.
      destruct (skipn _ _) as [|[|] l].
      + injection E as <-. eexists. split; [reflexivity|]. split; [|apply Hecho; reflexivity]. constructor; cbn; auto.
      + destruct (length d =? size) eqn:El; [|discriminate]. injection E as <-. eexists. split; [reflexivity|].
        split; [|apply Hecho; reflexivity]. constructor; cbn [x_st x_net x_io x_data u_st u_net u_io u_data]; auto.
        * intros q. rewrite <- Hset. destruct (udp p _); reflexivity.
        * intros q d' Hq. unfold set_at in Hq. destruct (q =? p); [|eauto]. destruct (udp p _); [|discriminate]. injection Hq as <-. now apply Nat.eqb_eq.
      + destruct (udp p _); injection E as <-; (eexists; split; [reflexivity|]); (split; [|apply Hecho; reflexivity]);
          constructor; cbn [x_st x_net x_io x_data u_st u_net u_io u_data]; auto.
        * intros q. exact (Hset URecv q).
        * intros q d' Hq. unfold set_at in Hq. destruct (q =? p); [discriminate|eauto].
    - destruct (u_io u p) as [|d|] eqn:Ei; try discriminate. injection E as <-. pose proof (S9 p d Ei) as Ld.
      assert (En : echo (Net (n_up (x_net x) ++ d) (n_down (x_net x)) (n_pos (x_net x)) false)).
      { exists (concat rest). cbn in Hr |- *. rewrite S2, S3. apply (f_equal (@concat nat)) in Hr. rewrite !concat_app in Hr. cbn in Hr. rewrite app_nil_r in Hr. exact Hr. }
      unfold xe. exists (XWrite p size). cbn [xexec]. rewrite S6, Ei. cbn [io_of]. rewrite S5, Ld, Nat.leb_refl. cbn [negb andb].
      replace (1 <=? size) with true by reflexivity. cbn [andb].
      rewrite <- Ld, firstn_all, skipn_all. eexists. split; [reflexivity|]. split; [|exact En].
      constructor; cbn [x_st x_net x_io x_data u_st u_net u_io u_data n_up n_down n_pos n_shut u_up u_down u_pos]; auto.
      + rewrite S2, concat_app. cbn. now rewrite app_nil_r.
      + intros q. unfold set_at. destruct (q =? p); auto.
      + apply Forall_app. auto.
      + intros q d' Hq. unfold set_at in Hq. destruct (q =? p); [discriminate|eauto].
    - destruct (u_io u p) as [| |] eqn:Ei; try discriminate. destruct (nth_error (u_down (u_net u)) (u_pos (u_net u))) as [dg|] eqn:En; [|discriminate].
      injection E as <-. cbn [u_net u_up u_down] in *. specialize (Sd S8).
      assert (Ld : length dg = size) by (rewrite Forall_forall in Sd; apply Sd; eapply nth_error_In; eauto).
      assert (Hp : u_pos (u_net u) < length (u_down (u_net u))) by (apply nth_error_Some; congruence).
      assert (Hs : slice (n_pos (x_net x)) size (n_down (x_net x)) = dg) by (unfold slice; rewrite S4, S3; now apply nth_slice).
      unfold xe. exists (XRead p size). cbn [xexec]. rewrite S6, Ei. cbn [io_of app]. rewrite Hs, Ld, Nat.eqb_refl, S5.
      replace (1 <=? size) with true by reflexivity. replace (length (@nil nat) + size <=? size) with true by reflexivity.
      replace (n_pos (x_net x) + size <=? length (n_down (x_net x))) with true.
      2: { symmetry. apply Nat.leb_le. rewrite S4, S3, sized_length by exact Sd. unfold size in *. lia. }
      cbn [negb andb]. eexists. split; [reflexivity|]. split.
      2: { exists (concat rest). cbn. rewrite S2, S3. apply (f_equal (@concat nat)) in Hr. rewrite !concat_app in Hr. exact Hr. }
      constructor; cbn [x_st x_net x_io x_data u_st u_net u_io u_data n_up n_down n_pos n_shut u_up u_down u_pos]; auto.
      + rewrite S4. lia.
      + intros q. unfold set_at. destruct (q =? p); auto.
      + intros q. unfold set_at. rewrite S7, into_sized by exact Ld. destruct (q =? p); auto.
      + intros q d' Hq. unfold set_at in Hq. destruct (q =? p); [discriminate|eauto].
      + lia.
    - injection E as <-. cbn [u_net u_up u_down] in *. specialize (Sd S8). apply Forall_app in Sd. destruct Sd as [_ Sd]. inversion Sd as [|? ? Ld _]; subst.
      unfold xe. exists (XServer dg). cbn [xexec]. destruct dg as [|b dg]; [discriminate|]. eexists. split; [reflexivity|]. split.
      2: { exists (concat rest). cbn. rewrite S2, S3. apply (f_equal (@concat nat)) in Hr. rewrite !concat_app in Hr. cbn in Hr. rewrite app_nil_r in Hr. exact Hr. }
      constructor; cbn [x_st x_net x_io x_data u_st u_net u_io u_data n_up n_down n_pos n_shut u_up u_down u_pos]; auto.
      + rewrite S3, concat_app. cbn. now rewrite app_nil_r.
      + rewrite app_length. lia.
  Qed.

  Lemma usim_runs u tr u' x : uruns branch labels udp uecho u tr u' -> same u x ->
    exists tr' x', xruns branch labels udp (fun _ => false) echo x tr' x' /\ same u' x'.
  Proof.
    intros H. revert x. induction H as [u|u a u1 tr u2 E Hs H IH]; intros x S; [exists [], x; split; [constructor|exact S]|].
    destruct (usim a u u1 x S E Hs) as (a' & x1 & E1 & S1 & He). destruct (IH x1 S1) as (tr' & x2 & R & S2).
    exists (a' :: tr'), x2. split; [econstructor; eauto|exact S2].
  Qed.
  Lemma same_start T : same (ustart T) (xstart T).
  Proof. constructor; cbn; auto; discriminate. Qed.
End Sim.

Lemma uruns_last branch labels udp (srv : unet -> Prop) u tr u' : uruns branch labels udp srv u tr u' -> srv (u_net u) -> srv (u_net u').
Proof. induction 1; auto. Qed.

Lemma uprogress labels B udp tr u : (forall k, udp 1 k = udp 2 k) -> wf_binary labels B ->
  uruns (branches (two B) 2) labels udp uecho (ustart (proj 2 (first_round (two B)))) tr u ->
  (all_over 2 (u_st u) /\ forall p, u_io u p = UNone) \/
  exists a u', uexec (branches (two B) 2) labels udp a u = Some u' /\ uecho (u_net u') /\ match a with UDo _ i _ => i <> ICrash | _ => True end.
Proof.
  intros A W H. destruct (usim_runs _ _ _ _ _ _ _ H (same_start _)) as (tr' & x & R & S).
  pose proof (uruns_last _ _ _ _ _ _ _ H (ex_intro _ [] eq_refl)) as [rest Hr].
  destruct S as [S1 S2 S3 S4 S5 S6 S7 S8 S9 S10].
  assert (Sd : Forall (fun d => length d = size) (u_down (u_net u))) by (rewrite Hr in S8; apply Forall_app in S8; tauto).
  assert (Go : forall p, 1 <= p <= 2 -> x_io x p <> IoNone ->
    exists a u', uexec (branches (two B) 2) labels udp a u = Some u' /\ uecho (u_net u') /\ match a with UDo _ i _ => i <> ICrash | _ => True end).
  { intros p Hp Hn. destruct (io_progress labels B udp (fun _ => false) A tr' x R p Hp Hn) as (a & x' & E & [r He] & Ha).
    destruct a as [p' i d|q m|q m|q|bs|]; try contradiction; [| |congruence|]; cbn [xexec] in E.
    - destruct (x_io x q) as [|w|] eqn:Ex; try discriminate. rewrite S6 in Ex. destruct (u_io u q) as [|d|] eqn:Eu; try discriminate.
      exists (USent q). cbn [uexec]. rewrite Eu. eexists. split; [reflexivity|]. split; [|exact Logic.I]. exists (rest ++ [d]). cbn. rewrite Hr, app_assoc. reflexivity.
    - destruct (x_io x q) as [| |g] eqn:Ex; try discriminate. rewrite S6 in Ex. destruct (u_io u q) as [| |] eqn:Eu; try discriminate.
      destruct (negb (n_shut (x_net x)) && (1 <=? m) && (length g + m <=? size) && (n_pos (x_net x) + m <=? length (n_down (x_net x)))) eqn:C; [|discriminate].
      rewrite !andb_true_iff, !Nat.leb_le in C. rewrite S4, S3, sized_length in C by exact Sd.
      destruct (nth_error (u_down (u_net u)) (u_pos (u_net u))) as [dg|] eqn:En; [|apply nth_error_None in En; nia].
      exists (UTake q). cbn [uexec]. rewrite Eu, En. eexists. split; [reflexivity|]. split; [|exact Logic.I]. exists rest. exact Hr.
    - destruct bs as [|b bs]; [discriminate|]. injection E as <-. cbn [x_net n_up n_down] in He. rewrite S2, S3, Hr, concat_app, <- app_assoc in He.
      apply app_inv_head in He. destruct rest as [|dg rest]; [discriminate|].
      exists (UServer dg). cbn [uexec]. eexists. split; [reflexivity|]. split; [|exact Logic.I]. exists rest. cbn. rewrite Hr, <- app_assoc. reflexivity. }
  destruct (xprogress labels B udp (fun _ => false) A tr' x W R) as [[Ho Hi]|(a & x' & E & He & Ha)].
  { left. rewrite <- S1. split; [exact Ho|]. intros p. specialize (Hi p). rewrite S6 in Hi. destruct (u_io u p); [reflexivity|discriminate..]. }
  right. destruct (x_io x 1) eqn:I1; [|apply (Go 1); [lia|congruence]..]. destruct (x_io x 2) eqn:I2; [|apply (Go 2); [lia|congruence]..].
  destruct (calm_runs labels B udp (fun _ => false) _ _ _ _ false R (calm_start labels B)) as [[tr2 R2] _ Io _ _].
  assert (All : forall p, u_io u p = UNone).
  { intros p. destruct (x_io x p) eqn:Ei; [| |].
    - rewrite S6 in Ei. destruct (u_io u p); [reflexivity|discriminate..].
    - destruct (Io p) as [Hp _]; [congruence|]. assert (p = 1 \/ p = 2) as [-> | ->] by lia; congruence.
    - destruct (Io p) as [Hp _]; [congruence|]. assert (p = 1 \/ p = 2) as [-> | ->] by lia; congruence. }
  destruct (binary_no_deadlock labels true B tr2 (x_st x) W R2) as [Hx|(p & i & st' & Hp & Hi & En)].
  - (* all over: the step of the stream is the server's *)
    destruct a as [p i d|q m|q m|q|bs|]; cbn [xexec] in E.
    + destruct (x_io x p); try discriminate. destruct (step2 _ _ p i (x_st x)) as [st'|] eqn:Es; [|discriminate]. exfalso.
      destruct (step2_log _ _ _ _ _ _ Es) as (Hp & _ & _). destruct (Hx p Hp) as [[r Hr1] Ht]. unfold step2, exec in Es.
      destruct ((1 <=? p) && (p <=? 2)); [|discriminate]. unfold tstep in Es. rewrite Ht, Hr1 in Es. discriminate.
    + rewrite S6, All in E. discriminate.
    + rewrite S6, All in E. discriminate.
    + rewrite S6, All in E. discriminate.
    + destruct bs as [|b bs]; [discriminate|]. injection E as <-. destruct He as [r He]. cbn [x_net n_up n_down] in He. rewrite S2, S3, Hr, concat_app, <- app_assoc in He.
      apply app_inv_head in He. destruct rest as [|dg rest]; [discriminate|].
      exists (UServer dg). cbn [uexec]. eexists. split; [reflexivity|]. split; [|exact Logic.I]. exists rest. cbn. rewrite Hr, <- app_assoc. reflexivity.
    + contradiction.
  - unfold bnext, next in En. rewrite S1 in En. exists (UDo p i zeros). cbn [uexec]. rewrite All. unfold step2. rewrite En. unfold begin_uio.
    destruct (skipn _ _) as [|[|] l].
    + eexists. split; [reflexivity|]. split; [exists rest; exact Hr|exact Hi].
    + replace (length zeros =? size) with true by reflexivity. eexists. split; [reflexivity|]. split; [exists rest; exact Hr|exact Hi].
    + destruct (udp p _); eexists; (split; [reflexivity|]); (split; [exists rest; exact Hr|exact Hi]).
Qed.
