(** Model of the hand-written code for three roles: fork, the eighteen functions that make a binary
    choice, send, recv and offer.  Model only; theorems are in Properties_Three.v.
    Roles A, B, C are 1, 2, 3. *)
From Coq Require Import List Arith Bool.
From Verif Require Import Types Wiring.
Import ListNotations.

(** ** Running a body

    A body creates channels by [let (x, y) = T::new()] and builds MeshedChannels out of the
    variables.  [session_1_2], [channel_ab] are the variable (1, 2); the k-th [new] has the type
    number k. *)

(** One [let (x, y) = <$session_k as Session>::new()] (src/functionmpst/fork.rs:150-152). *)
Definition binding : Type := (var * var)%type.

(** Environment after the bindings numbered from [k] (src/functionmpst/fork.rs:150-152). *)
Fixpoint bind_all (k : nat) (bs : list binding) (g : env) : env :=
  match bs with
  | [] => g
  | (x, y) :: rest => bind_all (S k) rest ((y, (k, false)) :: (x, (k, true)) :: g)
  end.

(** [MeshedChannels { session1: x, session2: y, .. }] (src/functionmpst/fork.rs:162-179). *)
Definition fields (g : env) (xs : list var) : option (list endp) := all_some (map (lookup g) xs).

(** The type of a channel end: [S] for the first component of [S::new()], [S::Dual] for the
    second (src/binary/struct_trait/session.rs:7-19). *)
Definition end_ty {P} (ts : list (ty P)) (e : endp) : option (ty P) :=
  match nth_error ts (fst e - 1) with
  | Some t => Some (if snd e then t else dual t)
  | None => None
  end.

(** ** fork: src/functionmpst/fork.rs:123-186 *)

(** fork.rs:150-152. *)
Definition fork3_bindings : list binding :=
  [((1, 2), (2, 1)); ((1, 3), (3, 1)); ((2, 3), (3, 2))].

(** fork.rs:162-179: session1, session2 of a, b, c. *)
Definition fork3_vars : list (list var) :=
  [[(1, 2); (1, 3)]; [(2, 1); (2, 3)]; [(3, 1); (3, 2)]].

(** fork.rs:181-185: a is given to f0, b to f1, c to f2. *)
Definition fork3_threads : option (list (list endp)) :=
  all_some (map (fields (bind_all 1 fork3_bindings [])) fork3_vars).

(** fork.rs:138-148: the declared sessions of the arguments of F0, F1, F2 (S0, S1, S2 are the types
    1, 2, 3). *)
Definition fork3_decl {P} (s0 s1 s2 : ty P) : list (list (ty P)) :=
  [[s0; s1]; [dual s0; s2]; [dual s1; dual s2]].

(** ** Binary choice *)

(** The macro behind a choice: the bindings, which component of [R::new()] is kept for the three
    stacks ([true]: the first, of type R; [false]: the second, of type R::Dual), and the variables
    in choice_1, choice_2 and in the returned MeshedChannels (src/functionmpst/choose.rs:58-117). *)
Record choose_body := ChooseBody {
  cb_new : list binding;
  cb_stacks : list bool;
  cb_choice_1 : list var;
  cb_choice_2 : list var;
  cb_own : list var
}.

(** The three hand-written families
    (src/functionmpst/choose.rs, src/macros_simple/choose.rs, src/meshedchannels/impl_a.rs). *)
Inductive family := FunctionMpst | MacrosSimple | MeshedImpl.

(** src/functionmpst/choose.rs:58-117 (a), 119-178 (b), 180-239 (c);
    src/macros_simple/choose.rs:11-73 (1), 75-137 (2), 139-201 (3);
    src/meshedchannels/impl_a.rs:128-187, impl_b.rs:127-186, impl_c.rs:127-186. *)
Definition body_of (fam : family) (e : nat) : choose_body :=
  match fam, e with
  | FunctionMpst, 1 => ChooseBody
      [((1, 2), (2, 1)); ((1, 3), (3, 1)); ((3, 2), (2, 3))] [false; false; true]
      [(2, 1); (2, 3)] [(3, 1); (3, 2)] [(1, 2); (1, 3)]
  | FunctionMpst, 2 => ChooseBody
      [((2, 1), (1, 2)); ((3, 1), (1, 3)); ((2, 3), (3, 2))] [false; false; true]
      [(1, 2); (1, 3)] [(3, 1); (3, 2)] [(2, 1); (2, 3)]
  | FunctionMpst, _ => ChooseBody
      [((2, 1), (1, 2)); ((3, 1), (1, 3)); ((3, 2), (2, 3))] [false; false; true]
      [(1, 2); (1, 3)] [(2, 1); (2, 3)] [(3, 1); (3, 2)]
  | MacrosSimple, 1 => ChooseBody
      [((1, 2), (2, 1)); ((1, 3), (3, 1)); ((3, 2), (2, 3))] [false; false; true]
      [(2, 1); (2, 3)] [(3, 1); (3, 2)] [(1, 2); (1, 3)]
  | MacrosSimple, 2 => ChooseBody
      [((2, 1), (1, 2)); ((2, 3), (3, 2)); ((3, 1), (1, 3))] [false; false; true]
      [(1, 2); (1, 3)] [(3, 1); (3, 2)] [(2, 1); (2, 3)]
  | MacrosSimple, _ => ChooseBody
      [((3, 1), (1, 3)); ((3, 2), (2, 3)); ((2, 1), (1, 2))] [false; false; true]
      [(1, 2); (1, 3)] [(2, 1); (2, 3)] [(3, 1); (3, 2)]
  | MeshedImpl, 1 => ChooseBody
      [((2, 1), (1, 2)); ((3, 1), (1, 3)); ((3, 2), (2, 3))] [true; true; true]
      [(2, 1); (2, 3)] [(3, 1); (3, 2)] [(1, 2); (1, 3)]
  | MeshedImpl, 2 => ChooseBody
      [((1, 2), (2, 1)); ((3, 1), (1, 3)); ((3, 2), (2, 3))] [true; true; true]
      [(1, 2); (1, 3)] [(3, 1); (3, 2)] [(2, 1); (2, 3)]
  | MeshedImpl, _ => ChooseBody
      [((2, 1), (1, 2)); ((1, 3), (3, 1)); ((2, 3), (3, 2))] [true; true; true]
      [(1, 2); (1, 3)] [(2, 1); (2, 3)] [(3, 1); (3, 2)]
  end.

(** The arguments of the macro in the function for one branch: numbers of the session parameters
    S_k for $session_1..3, and of the role parameters R_k for $stack_1..3.
    src/functionmpst/choose.rs:287,338-350 (a), 400,450-462 (b), 512,562-574 (c);
    src/macros_simple/choose.rs:501-513,606-618 (1), 711-723,816-828 (2), 396-408,291-303 (3);
    src/meshedchannels/impl_a.rs:219-231,238-250, impl_b.rs:218-230,237-249,
    impl_c.rs:218-230,237-249.  [right] is false for Either::Left. *)
Definition session_args (fam : family) (e : nat) (right : bool) : list nat :=
  match fam, e, right with
  | FunctionMpst, 1, false => [2; 3; 0]
  | FunctionMpst, 1, true => [4; 5; 1]
  | FunctionMpst, 2, false => [2; 0; 3]
  | FunctionMpst, 2, true => [4; 1; 5]
  | FunctionMpst, _, false => [0; 2; 3]
  | FunctionMpst, _, true => [1; 4; 5]
  | MacrosSimple, 1, false => [2; 3; 0]
  | MacrosSimple, 1, true => [4; 5; 1]
  | MacrosSimple, 2, false => [2; 3; 0]
  | MacrosSimple, 2, true => [4; 5; 1]
  | MacrosSimple, _, false => [2; 3; 0]
  | MacrosSimple, _, true => [4; 5; 1]
  | MeshedImpl, 1, false => [2; 3; 0]
  | MeshedImpl, 1, true => [4; 5; 1]
  | MeshedImpl, 2, false => [2; 0; 3]
  | MeshedImpl, 2, true => [4; 1; 5]
  | MeshedImpl, _, false => [0; 2; 3]
  | MeshedImpl, _, true => [1; 4; 5]
  end.

(** src/functionmpst/choose.rs:338-350 and the other lines cited above: R0, R2, R4 for the left branch and R1, R3, R5 for the right one, everywhere. *)
Definition stack_args (right : bool) : list nat := if right then [1; 3; 5] else [0; 2; 4].

(** Same lines: $receiver_1, $receiver_2, $sender.  In src/macros_simple/choose.rs the names are
    arguments of the macro ($name_receiver_1, $name_receiver_2, $name_sender); [body_names] numbers
    the roles they stand for. *)
Definition body_names (e : nat) : list nat :=
  match e with 1 => [2; 3; 1] | 2 => [1; 3; 2] | _ => [1; 2; 3] end.

(** [Send<Either<l, r>, End>] is given by l and r (src/functionmpst/mod.rs:47-54). *)
Definition choice_ty (P : Type) : Type := (ty P * ty P)%type.

(** src/functionmpst/mod.rs:47-54. *)
Definition ChooseMpst {P} (s0 s1 s2 s3 : ty P) (r0 r1 : stack) (n : nat) : choice_ty P :=
  (TMesh [dual s0; dual s1] (sdual r0) n, TMesh [dual s2; dual s3] (sdual r1) n).

(** src/functionmpst/mod.rs:34-35 ([Recv<Either<..>, End>], also given by the two types). *)
Definition OfferMpst {P} (s0 s1 s2 s3 : ty P) (r0 r1 : stack) (n : nat) : choice_ty P :=
  (TMesh [s0; s1] r0 n, TMesh [s2; s3] r1 n).

(** src/functionmpst/choose.rs:18. *)
Definition ShortChooseMpstOne {P} (s0 s1 s2 s4 : ty P) (r0 r1 : stack) (n : nat) : choice_ty P :=
  ChooseMpst s2 s0 s4 s1 r0 r1 n.

(** src/functionmpst/choose.rs:19-20. *)
Definition ShortChooseMpstTwo {P} (s0 s1 s3 s5 : ty P) (r0 r1 : stack) (n : nat) : choice_ty P :=
  ChooseMpst s3 (dual s0) s5 (dual s1) r0 r1 n.

(** The declared types of session1 and session2 of the argument, for session parameters [s 0..5],
    role parameters [r 0..5] and the names [nm 1..3] of the roles.
    src/functionmpst/choose.rs:22-27 (a), 28-41 (b), 42-55 (c);
    src/macros_simple/choose.rs:472-485,577-590 (1), 682-695,787-800 (2), 262-275,367-380 (3);
    src/meshedchannels/impl_a.rs:201-212, impl_b.rs:201-211, impl_c.rs:201-211. *)
Definition arg_decl {P} (fam : family) (e : nat) (s : nat -> ty P) (r : nat -> stack)
    (nm : nat -> nat) : choice_ty P * choice_ty P :=
  match fam, e with
  | FunctionMpst, 1 =>
      (ShortChooseMpstOne (s 0) (s 1) (s 2) (s 4) (r 0) (r 1) (nm 2),
       ShortChooseMpstTwo (s 0) (s 1) (s 3) (s 5) (r 2) (r 3) (nm 3))
  | FunctionMpst, 2 =>
      (ShortChooseMpstOne (s 0) (s 1) (s 2) (s 4) (r 0) (r 1) (nm 1),
       ShortChooseMpstTwo (dual (s 3)) (dual (s 5)) (dual (s 0)) (dual (s 1)) (r 2) (r 3) (nm 3))
  | FunctionMpst, _ =>
      (ShortChooseMpstOne (s 2) (s 4) (s 0) (s 1) (r 0) (r 1) (nm 1),
       ShortChooseMpstTwo (dual (s 3)) (dual (s 5)) (dual (s 0)) (dual (s 1)) (r 2) (r 3) (nm 2))
  | MacrosSimple, 1 =>
      (ChooseMpst (s 2) (s 0) (s 4) (s 1) (r 0) (r 1) (nm 2),
       ChooseMpst (s 3) (dual (s 0)) (s 5) (dual (s 1)) (r 2) (r 3) (nm 3))
  | MacrosSimple, 2 =>
      (ChooseMpst (s 2) (s 0) (s 4) (s 1) (r 0) (r 1) (nm 1),
       ChooseMpst (dual (s 0)) (s 3) (dual (s 1)) (s 5) (r 2) (r 3) (nm 3))
  | MacrosSimple, _ =>
      (ChooseMpst (s 0) (s 2) (s 1) (s 4) (r 0) (r 1) (nm 1),
       ChooseMpst (dual (s 0)) (s 3) (dual (s 1)) (s 5) (r 2) (r 3) (nm 2))
  | MeshedImpl, 1 =>
      ((TMesh [s 2; dual (s 0)] (r 0) (nm 2), TMesh [s 4; dual (s 1)] (r 1) (nm 2)),
       (TMesh [s 3; s 0] (r 2) (nm 3), TMesh [s 5; s 1] (r 3) (nm 3)))
  | MeshedImpl, 2 =>
      ((TMesh [s 2; dual (s 0)] (r 0) (nm 1), TMesh [s 4; dual (s 1)] (r 1) (nm 1)),
       (TMesh [s 0; s 3] (r 2) (nm 3), TMesh [s 1; s 5] (r 3) (nm 3)))
  | MeshedImpl, _ =>
      ((TMesh [dual (s 0); s 2] (r 0) (nm 1), TMesh [dual (s 1); s 4] (r 1) (nm 1)),
       (TMesh [s 0; s 3] (r 2) (nm 2), TMesh [s 1; s 5] (r 3) (nm 2)))
  end.

(** The declared type of the result.
    src/functionmpst/choose.rs:272,322 (a), 385,435 (b), 497,547 (c);
    src/macros_simple/choose.rs:486,591 (1), 696,801 (2), 381,276 (3);
    src/meshedchannels/impl_a.rs:216-218,235-237, impl_b.rs:215-217,234-236, impl_c.rs:215-217,
    234-236. *)
Definition result_decl {P} (fam : family) (e : nat) (right : bool) (s : nat -> ty P)
    (r : nat -> stack) (nm : nat -> nat) : ty P :=
  match fam, right with
  | MeshedImpl, false => TMesh [dual (s 2); dual (s 3)] (r 4) (nm e)
  | MeshedImpl, true => TMesh [dual (s 4); dual (s 5)] (r 5) (nm e)
  | _, false => TMesh [s 2; s 3] (r 4) (nm e)
  | _, true => TMesh [s 4; s 5] (r 5) (nm e)
  end.

(** What a choice function does: the channel ends of choice_1 (sent on session1), of choice_2 (sent
    on session2) and of the result, and the types of the three MeshedChannels built.
    [None]: an unbound variable (src/functionmpst/choose.rs:58-117). *)
Record chosen (P : Type) := Chosen {
  ch_sent_1 : list endp;
  ch_sent_2 : list endp;
  ch_own : list endp;
  ch_ty_1 : ty P;
  ch_ty_2 : ty P;
  ch_ty_own : ty P
}.
Arguments Chosen {P}.
Arguments ch_sent_1 {P}.
Arguments ch_sent_2 {P}.
Arguments ch_own {P}.
Arguments ch_ty_1 {P}.
Arguments ch_ty_2 {P}.
Arguments ch_ty_own {P}.

(** The type of a MeshedChannels built from the fields [es], the k-th stack and the k-th name
    (src/functionmpst/choose.rs:58-117). *)
Definition built_ty {P} (ts : list (ty P)) (rs : list stack) (sides : list bool) (ns : list nat)
    (k : nat) (es : list endp) : option (ty P) :=
  match all_some (map (end_ty ts) es), nth_error rs k, nth_error sides k, nth_error ns k with
  | Some l, Some r, Some b, Some n => Some (TMesh l (if b then r else sdual r) n)
  | _, _, _, _ => None
  end.

(** The bodies cited at [body_of], with the arguments cited at [session_args]
    (src/functionmpst/choose.rs:58-239 and the other files cited there). *)
Definition run_choose {P} (fam : family) (e : nat) (right : bool) (s : nat -> ty P)
    (r : nat -> stack) (nm : nat -> nat) : option (chosen P) :=
  let b := body_of fam e in
  let g := bind_all 1 (cb_new b) [] in
  let ts := map s (session_args fam e right) in
  let rs := map r (stack_args right) in
  let ns := map nm (body_names e) in
  match fields g (cb_choice_1 b), fields g (cb_choice_2 b), fields g (cb_own b) with
  | Some e1, Some e2, Some eo =>
      match built_ty ts rs (cb_stacks b) ns 0 e1, built_ty ts rs (cb_stacks b) ns 1 e2,
            built_ty ts rs (cb_stacks b) ns 2 eo with
      | Some t1, Some t2, Some t3 => Some (Chosen e1 e2 eo t1 t2 t3)
      | _, _, _ => None
      end
  | _, _, _ => None
  end.

(** ** send, recv, offer *)

(** The literal given to [send_aux_simple!] in send_mpst_{s}_to_{r}
    (src/functionmpst/send.rs:77,136,195,254,313,372; impl_a.rs:36,45, impl_b.rs:35,44,
    impl_c.rs:35,44), to [recv_aux_simple!] in recv_mpst_{s}_from_{r} (src/functionmpst/recv.rs:107,
    180,253,326,399,472; impl_a.rs:54,63, impl_b.rs:53,62, impl_c.rs:53,62) and to
    [recv_all_aux_simple!] in recv_mpst_{s}_all_from_{r} (recv.rs:490,508,526,544,562,580;
    impl_a.rs:72,81, impl_b.rs:71,80, impl_c.rs:71,80). *)
Definition literal3 (me peer : nat) : nat :=
  match me, peer with
  | 1, 2 => 1
  | 2, 1 => 1
  | 3, 1 => 1
  | 1, 3 => 2
  | 2, 3 => 2
  | 3, 2 => 2
  | _, _ => 0
  end.

(** mpst_seq_proc/src/functionmpst/send_aux_simple.rs:56-88, recv_aux_simple.rs:47-82,
    recv_all_aux_simple.rs:49-84: field [literal] is replaced by the new session, the other one is
    kept; [for i in 1..3]. *)
Definition aux_simple {A} (literal : nat) (new_session : A) (old : list A) : option (list A) :=
  all_some (map (fun i => if i =? literal then Some new_session else nth_error old (i - 1))
                (seq 1 2)).

(** The declared sessions of the argument: the field wrapped in Send, Recv or OfferMpst.
    send.rs:69,128,187,246,305,364; recv.rs:99,172,245,318,391,464,483,501,519,537,555,573;
    offer.rs:21-56; impl_a.rs:31-123 and the same impls of impl_b.rs, impl_c.rs.
    [wrap] is the wrapping of the field that faces the peer. *)
Definition decl3 {A} (me peer : nat) (wrap : A -> A) (s1 s2 : A) : list A :=
  match me, peer with
  | 1, 2 => [wrap s1; s2]
  | 2, 1 => [wrap s1; s2]
  | 3, 1 => [wrap s1; s2]
  | 1, 3 => [s1; wrap s2]
  | 2, 3 => [s1; wrap s2]
  | 3, 2 => [s1; wrap s2]
  | _, _ => [s1; s2]
  end.

(** The numbers of the roles whose methods are defined for the stack at the head: the receiver of
    the type RoleX<R> (and RoleAlltoX for the recv of a choice) in the same declarations
    (src/functionmpst/send.rs, recv.rs, offer.rs). *)
Definition head3 (me peer : nat) : nat :=
  match me, peer with
  | 1, 2 => 2 | 2, 1 => 1 | 3, 1 => 1 | 1, 3 => 3 | 2, 3 => 3 | 3, 2 => 2
  | _, _ => 0
  end.
