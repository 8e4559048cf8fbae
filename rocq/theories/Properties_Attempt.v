(** C26: [attempt!]. *)
From Coq Require Import List Lia.
From Verif Require Import Attempt.
Import ListNotations.

Lemma eval_recurse : forall W E (tail : list (block W E)) a w,
  eval (recurse a tail) w =
    match eval a w with
    | (w1, Ok) => match tail with [] => (w1, Ok) | b :: t => eval (recurse (Just b) t) w1 end
    | (w1, r) => (w1, r)
    end.
Proof.
  intros W E. induction tail as [|b tail IH]; intros a w; cbn.
  - destruct (eval a w) as [w1 [|e|]]; reflexivity.
  - rewrite IH. cbn. destruct (eval a w) as [w1 [|e|]]; try reflexivity.
    rewrite (IH (Just b)). reflexivity.
Qed.

(** What should happen: the blocks one after the other, up to the first that does not return Ok. *)
Inductive outcome {W E} : list (block W E) -> W -> list nat -> W -> res E -> Prop :=
| AllDone w : outcome [] w [] w Ok
| Next b bs w w1 ran w2 r : b w = (w1, Ok) -> outcome bs w1 ran w2 r ->
    outcome (b :: bs) w (0 :: map S ran) w2 r
| Stops b bs w w1 r : b w = (w1, r) -> r <> Ok -> outcome (b :: bs) w [0] w1 r.

(** For every non-empty list of blocks, every behaviour of the blocks (successes, errors, panics, effects
    on the state) and every handler: the blocks that run are exactly the first ones up to the first one that
    does not return Ok, in order, each once; the handler runs exactly when that one returned an error, with that
    error and the state it left; and after a panic neither later blocks nor the handler run. *)
Theorem attempt_in_order : forall W E (blocks : list (block W E)) handler w,
  blocks <> [] ->
  exists ran w1 r, outcome blocks w ran w1 r /\ ran = seq 0 (length ran) /\ 1 <= length ran <= length blocks /\
    (r = Ok -> length ran = length blocks) /\
    run_attempt blocks handler w =
      match r with Ok => Some (w1, false) | Err e => Some (handler e w1) | Fell => Some (w1, true) end.
Proof.
  intros W E [|b bs] handler w Hne; [contradiction|]. clear Hne. unfold run_attempt, expand.
  assert (G : forall (bs : list (block W E)) (b : block W E) (w : W), exists ran w1 r, outcome (b :: bs) w ran w1 r /\ ran = seq 0 (length ran) /\
            1 <= length ran <= length (b :: bs) /\ (r = Ok -> length ran = length (b :: bs)) /\
            eval (recurse (Just b) bs) w = (w1, r)).
  { clear. induction bs as [|b' bs IH]; intros b w.
    - destruct (b w) as [w1 r] eqn:Eb. destruct r as [|e|].
      + exists [0], w1, Ok. split; [apply (Next b [] w w1 [] w1 Ok Eb (AllDone w1))|]. cbn. rewrite Eb. auto.
      + exists [0], w1, (Err e). split; [apply (Stops b [] w w1 _ Eb); discriminate|]. cbn. rewrite Eb. auto.
      + exists [0], w1, Fell. split; [apply (Stops b [] w w1 _ Eb); discriminate|]. cbn. rewrite Eb. auto.
    - destruct (b w) as [w1 r] eqn:Eb. rewrite eval_recurse. cbn [eval]. rewrite Eb. destruct r as [|e|].
      + destruct (IH b' w1) as (ran & w2 & r & H1 & H2 & H3 & H4 & H5). exists (0 :: map S ran), w2, r.
        split; [apply (Next b _ w w1 ran w2 r Eb H1)|]. cbn [length]. rewrite map_length. split; [|split; [|split]].
        * cbn. f_equal. rewrite <- seq_shift, <- H2. reflexivity.
        * cbn [length] in *. lia.
        * intros Hr. specialize (H4 Hr). cbn [length] in *. lia.
        * exact H5.
      + exists [0], w1, (Err e). split; [apply (Stops b _ w w1 _ Eb); discriminate|]. cbn. repeat split; try lia. discriminate.
      + exists [0], w1, Fell. split; [apply (Stops b _ w w1 _ Eb); discriminate|]. cbn. repeat split; try lia. discriminate. }
  destruct (G bs b w) as (ran & w1 & r & H1 & H2 & H3 & H4 & H5). exists ran, w1, r.
  repeat (split; [assumption|]). rewrite H5. destruct r; reflexivity.
Qed.
Print Assumptions attempt_in_order.

(** The outcome is determined by the blocks, so the theorem fixes what [attempt!] does. *)
Lemma outcome_unique : forall W E (bs : list (block W E)) w ran w1 r, outcome bs w ran w1 r ->
  forall ran' w1' r', outcome bs w ran' w1' r' -> ran' = ran /\ w1' = w1 /\ r' = r.
Proof.
  intros W E bs w ran w1 r H. induction H as [w|b bs w w1 ran w2 r Hb H IH|b bs w w1 r Hb Hr]; intros ran' w' r' H'.
  - inversion H'; auto.
  - inversion H' as [|b0 bs0 w0 w10 ran0 w20 r0 Hb' H0|b0 bs0 w0 w10 r0 Hb' Hr']; subst; rewrite Hb in Hb'.
    + injection Hb' as <-. destruct (IH _ _ _ H0) as (-> & -> & ->). auto.
    + congruence.
  - inversion H' as [|b0 bs0 w0 w10 ran0 w20 r0 Hb' H0|b0 bs0 w0 w10 r0 Hb' Hr']; subst; rewrite Hb in Hb'.
    + congruence.
    + injection Hb' as <- <-. auto.
Qed.

(** The example of the documentation (attempt.rs:10-38): step 2 fails, step 3 is not run, the handler is. *)
Definition step (k : nat) (r : res nat) : block (list nat) nat := fun w => (w ++ [k], r).
Example attempt_doc :
  run_attempt [step 1 Ok; step 2 (Err 7); step 3 Ok] (fun e w => (w ++ [100 + e], false)) [] = Some ([1; 2; 107], false).
Proof. reflexivity. Qed.
Example attempt_all_ok :
  run_attempt [step 1 Ok; step 2 Ok; step 3 Ok] (fun e w => (w ++ [100 + e], false)) [] = Some ([1; 2; 3], false).
Proof. reflexivity. Qed.
Example attempt_panic :
  run_attempt [step 1 Ok; step 2 Fell; step 3 Ok] (fun e w => (w ++ [100 + e], false)) [] = Some ([1; 2], true).
Proof. reflexivity. Qed.
