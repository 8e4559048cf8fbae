(** Model of the code produced by the fork and choice generators (procedural macros).
    A generator is a function of the number of roles (and of the chooser); its output is the list
    of channel ends stored in each MeshedChannels.  [None] is a panic of the macro or a use of an
    unbound variable in the produced code. *)
From Coq Require Import List Arith Bool Lia.
From Verif Require Import Diag.
Import ListNotations.

(** A variable [channel_{a}_{b}] of the generated code
    (mpst_seq_proc/src/common_functions/expand/aux_fork.rs:151-158, mpst_seq_proc/src/choose_mpst_multi_to_all.rs:74-81). *)
Definition var : Type := (nat * nat)%type.

(** An end of a channel: the number of the [Session::new()] call in the generated code (which is
    also the number k of the type parameter [S_k] when it is given) and [true] for the first component
    (type [S_k]), [false] for the second (type [Dual S_k])
    (mpst_seq_proc/src/common_functions/expand/aux_fork.rs:142-162). *)
Definition endp : Type := (nat * bool)%type.

Definition env : Type := list (var * endp).

Definition var_eqb (x y : var) : bool := (fst x =? fst y) && (snd x =? snd y).

(** Rust scoping: a later [let] shadows an earlier one; environments grow at the head
    (mpst_seq_proc/src/common_functions/expand/aux_fork.rs:164-206). *)
Fixpoint lookup (g : env) (x : var) : option endp :=
  match g with
  | [] => None
  | (y, e) :: g' => if var_eqb x y then Some e else lookup g' x
  end.

(** [let (x, y) = S_k::new();] for the successive k of a list; [f k] gives (x, y)
    (mpst_seq_proc/src/common_functions/expand/aux_fork.rs:142-162). *)
Fixpoint let_new (f : nat -> option (var * var)) (ks : list nat) (g : env) : option env :=
  match ks with
  | [] => Some g
  | k :: ks' =>
      match f k with
      | Some (x, y) => let_new f ks' ((y, (k, false)) :: (x, (k, true)) :: g)
      | None => None
      end
  end.

Fixpoint all_some {A : Type} (l : list (option A)) : option (list A) :=
  match l with
  | [] => Some []
  | Some a :: l' => match all_some l' with Some r => Some (a :: r) | None => None end
  | None :: _ => None
  end.

Definition npairs (n : nat) : nat := (n - 1) * n / 2.

(** ** fork *)

(** aux_fork.rs:142-161 [create_new_channels] (same text in fork.rs:522-536 and
    fork_mpst_multi_solo.rs:151-164): left and right variable of call number i. *)
Definition fork_vars (n i : nat) : option (var * var) :=
  match get_tuple_diag (diag_w_offset n) i with
  | Some (line, column, _) => Some ((line, column), (column, line))
  | None => None
  end.

(** fork.rs:82-83 / fork_mpst_multi.rs:108-112: the channels 1 ..= (n-1)*n/2. *)
Definition fork_env (n : nat) : option env := let_new (fork_vars n) (seq 1 (npairs n)) [].

(** aux_fork.rs:164-203 [create_new_meshedchannels], fields session1..session{n-1} of
    [meshedchannels_i]. *)
Definition fork_mesh (n i : nat) : option (list endp) :=
  match fork_env n with
  | None => None
  | Some g =>
      all_some (map (fun j =>
        match get_tuple_matrix (matrix n) i j with
        | Some (line, column, _) =>
            lookup g (if line =? i then (line, column) else (column, line))
        | None => None
        end) (seq 1 (n - 1)))
  end.

(** fork.rs:41-78 [functions_struct]: the declared types of the sessions given to F_i:
    (m, true) is [S_m] and (m, false) is [<S_m as Session>::Dual]. *)
Definition fork_decl (n i : nat) : option (list endp) :=
  all_some (map (fun j =>
    match get_tuple_matrix (matrix_w_offset n) i j with
    | Some (k, _, m) => Some (m, k =? i)
    | None => None
    end) (seq 1 (n - 1))).

(** fork.rs:85-107 / fork_mpst_multi.rs:117-137: thread i runs f_i on meshedchannels_i. *)
Definition fork_threads (n : nat) : option (list (list endp)) :=
  all_some (map (fork_mesh n) (seq 1 n)).

(** ** send / recv / offer methods *)

(** expand/send.rs:28-54 (send_basic), same arithmetic in send_canceled, send_atmp_canceled,
    recv_basic (recv.rs:28-54), recv, recv_atmp, offer_basic: is the declared type of field k wrapped
    in [Send]/[Recv]? *)
Definition comm_wrapped (sender receiver k : nat) : bool :=
  let cond := if sender <=? k then receiver - 1 else receiver in
  k =? cond.

(** expand/send.rs:56-62: the field on which the body acts. *)
Definition comm_field (sender receiver : nat) : nat :=
  if sender <=? receiver then receiver - 1 else receiver.

(** ** enum choice: choose_mpst_multi_to_all *)

(** choose_mpst_multi_to_all.rs:71-83. *)
Definition choose_vars (n i : nat) : option (var * var) :=
  match get_tuple_diag (diag n) i with
  | Some (line, column, _) => Some ((line, column), (column, line))
  | None => None
  end.

(** choose_mpst_multi_to_all.rs:71: 1 ..= diff*(diff+1)/2. *)
Definition choose_env (n : nat) : option env :=
  let diff := n - 1 in
  let_new (choose_vars n) (seq 1 (diff * (diff + 1) / 2)) [].

(** choose_mpst_multi_to_all.rs:107-155 [all_send] for one i: the field of the old session used
    for sending, and the fields of the MeshedChannels sent on it. *)
Definition choose_send (n exclusion i : nat) : option (nat * list endp) :=
  match choose_env n with
  | None => None
  | Some g =>
      let temp := if exclusion <=? i then i + 1 else i in
      match all_some (map (fun j =>
              lookup g (if j <? temp then (temp, j) else (temp, j + 1))) (seq 1 (n - 1))) with
      | Some fields => Some (i, fields)
      | None => None
      end
  end.

(** choose_mpst_multi_to_all.rs:107-155: the sends in program order. *)
Definition choose_sends (n exclusion : nat) : option (list (nat * list endp)) :=
  all_some (map (choose_send n exclusion) (seq 1 (n - 1))).

(** choose_mpst_multi_to_all.rs:157-175, 208-215: the MeshedChannels kept by the chooser. *)
Definition choose_own (n exclusion : nat) : option (list endp) :=
  match choose_env n with
  | None => None
  | Some g =>
      all_some (map (fun i =>
        lookup g (if i <? exclusion then (exclusion, i) else (exclusion, i + 1))) (seq 1 (n - 1)))
  end.

(** ** choose_left / choose_right methods (expand/choose.rs) *)

(** choose.rs:221-242 [choose_left_channels] (and 244-268 for the right branch, where the type is
    [S_{diff*(diff+1)/2 + j}]; the variables are the same). *)
Definition bchoose_vars (n sender j : nat) : option (var * var) :=
  match get_line_column_from_diag (diag n) j with
  | Some (line, column) =>
      if negb (sender =? line) then Some ((line, column), (column, line))
      else Some ((column, line), (line, column))
  | None => None
  end.

Definition bchoose_env (n sender : nat) : option env :=
  let_new (bchoose_vars n sender) (seq 1 (npairs n)) [].

(** choose.rs:312-374 [new_meshedchannels_receivers]: [choice_*] of receiver j. *)
Definition bchoose_receiver (n sender j : nat) : option (list endp) :=
  match bchoose_env n sender with
  | None => None
  | Some g =>
      all_some (map (fun k => lookup g (if k <? j then (j, k) else (j, k + 1))) (seq 1 (n - 1)))
  end.

(** choose.rs:337-342: the number of the variable [choice_*] of receiver j; choose.rs:376-392 sends
    [choice_j] on field j, so this is also the field of the chooser used for receiver j. *)
Definition bchoose_choice (sender j : nat) : nat := if sender <? j then j - 1 else j.

(** choose.rs:344-349: the stack variable of receiver j; choose.rs:270-276: its role parameter
    (left branch), [stack_x : R_{2(x-1)+1}]. *)
Definition bchoose_stack_body (sender j : nat) : nat :=
  let x := if sender <? j then j - 1 else j in 2 * (x - 1) + 1.

(** choose.rs:112-124 [stack_left]: the declared role parameter. *)
Definition bchoose_stack_decl (sender j : nat) : nat :=
  if sender <? j then 2 * (j - 1) - 1 else 2 * (j - 1) + 1.

(** choose.rs:48-77 [left_sessions]: declared type of field k of receiver j. *)
Definition bchoose_receiver_decl (n sender j : nat) : option (list endp) :=
  all_some (map (fun k =>
    match get_tuple_matrix (matrix n) j k,
          (if sender <? j then get_tuple_matrix (matrix n) sender (j - 1)
           else get_tuple_matrix (matrix n) sender j) with
    | Some (l, _, m), Some (_, _, m1) => Some (m, (l =? j) || (m1 =? m))
    | _, _ => None
    end) (seq 1 (n - 1))).

(** choose.rs:425-446 [new_meshedchannels_sender]: (field, end), in the order of the text. *)
Definition bchoose_sender (n sender : nat) : option (list (nat * endp)) :=
  match bchoose_env n sender with
  | None => None
  | Some g =>
      all_some (map (fun j =>
        match lookup g (sender, j) with
        | Some e => Some (if j <? sender then j else j - 1, e)
        | None => None
        end) (filter (fun j => negb (sender =? j)) (seq 1 n)))
  end.

(** choose.rs:181-198 [choose_left_session]: declared types of the returned fields, in order. *)
Definition bchoose_sender_decl (n sender : nat) : option (list endp) :=
  all_some (map (fun j =>
    match (if sender <? j then get_tuple_matrix (matrix n) sender (j - 1)
           else get_tuple_matrix (matrix n) sender j) with
    | Some (_, _, m) => Some (m, false)
    | None => None
    end) (filter (fun j => negb (sender =? j)) (seq 1 n))).

(** ** create_choose_mpst_session_multi_left / _right (function form, the chooser is role n) *)

(** create_choose_mpst_session_multi_left.rs:222-234 (right: 225-240). *)
Definition cchoose_env (n : nat) : option env := choose_env n.

(** create_choose_mpst_session_multi_left.rs:256-293 [new_choices]: fields of choice_i. *)
Definition cchoose_receiver (n i : nat) : option (list endp) :=
  match cchoose_env n with
  | None => None
  | Some g =>
      all_some (map (fun j =>
        match get_tuple_matrix (matrix n) i j with
        | Some (line, column, _) =>
            lookup g (if line =? i then (line, column) else (column, line))
        | None => None
        end) (seq 1 (n - 1)))
  end.

(** create_choose_mpst_session_multi_left.rs:114-133: the argument given to the choice type for field j of receiver i,
    [(m, false)] when it is [Dual S_m]. *)
Definition cchoose_type_arg (n i j : nat) : option endp :=
  match get_tuple_matrix (matrix n) i j with
  | Some (k, _, m) => Some (m, negb (k =? i))
  | None => None
  end.

(** create_choose_type_multi.rs: the choice type is [Send<Either<MeshedChannels<Dual of each
    argument, ..>, ..>, End>]: declared type of field j of receiver i. *)
Definition cchoose_receiver_decl (n i : nat) : option (list endp) :=
  all_some (map (fun j =>
    match cchoose_type_arg n i j with
    | Some (m, b) => Some (m, negb b)
    | None => None
    end) (seq 1 (n - 1))).

(** create_choose_mpst_session_multi_left.rs:320-334 [new_session_meshedchannels]. *)
Definition cchoose_sender (n : nat) : option (list endp) :=
  match cchoose_env n with
  | None => None
  | Some g =>
      all_some (map (fun i =>
        match get_tuple_matrix (matrix n) n i with
        | Some (line, column, _) =>
            lookup g (if line =? i then (column, line) else (line, column))
        | None => None
        end) (seq 1 (n - 1)))
  end.

(** create_choose_mpst_session_multi_left.rs:206-214 [sessions_struct]: [sum = (0..i).map(|j| n - 1 - j).sum()]. *)
Definition cchoose_sender_decl (n : nat) : list endp :=
  map (fun i => (fold_right (fun j acc => (n - 1 - j) + acc) 0 (seq 0 i), false)) (seq 1 (n - 1)).

(** ** choice with broadcaster: choose_mpst_multi_cancel_to_all *)

(** choose_mpst_multi_cancel_to_all.rs:92-114: pairs with number i < n are pushed on [temp]
    (the broadcaster's ends channel_1_2, channel_1_3, ...). *)
Fixpoint cancel_pushes (n : nat) (ks : list nat) : option (list var) :=
  match ks with
  | [] => Some []
  | i :: ks' =>
      match get_tuple_diag (diag n) i, cancel_pushes n ks' with
      | Some (line, column, _), Some r => Some (if i <? n then (line, column) :: r else r)
      | _, _ => None
      end
  end.

(** choose_mpst_multi_cancel_to_all.rs:138-192 and 255-259: for i in 2..n, [temp.pop()] gives the End sent, together with
    its new MeshedChannels, to role [temp]; the last pop is offered by the chooser itself.
    Result: list of (carrier role, broadcaster end carried), in program order. *)
Fixpoint cancel_carry (exclusion : nat) (is : list nat) (stack : list var) : option (list (nat * var)) :=
  match is with
  | [] =>
      match stack with
      | v :: _ => Some [(exclusion, v)]
      | [] => None
      end
  | i :: is' =>
      match stack with
      | v :: stack' =>
          match cancel_carry exclusion is' stack' with
          | Some r => Some ((if exclusion <=? i then i + 1 else i, v) :: r)
          | None => None
          end
      | [] => None
      end
  end.

(** [temp] is a Vec: pushes at the end, [pop] from the end (choose_mpst_multi_cancel_to_all.rs:105, 172, 255). *)
Definition cancel_carriers (n exclusion : nat) : option (list (nat * var)) :=
  let diff := n - 1 in
  match cancel_pushes n (seq 1 (diff * (diff + 1) / 2)) with
  | Some l => cancel_carry exclusion (seq 2 (n - 2)) (rev l)
  | None => None
  end.

(** Each carrier forwards its End to the broadcaster on its old session1
    (src/macros_multiple/offer.rs [offer_cancel_mpst], choose_mpst_multi_cancel_to_all.rs:259), and
    the broadcaster stores it in the field of the carrier (broadcast_cancel.rs, [Signal::Offer]):
    the role at the other side of the broadcaster's field for role r. *)
Definition broadcaster_peer (carriers : list (nat * var)) (r : nat) : option nat :=
  match find (fun c => fst c =? r) carriers with
  | Some (_, (_, column)) => Some column
  | None => None
  end.

(** ** interleaved fork *)

(** fork.rs:414-417: index of the function argument declared with the type of role i of protocol one. *)
Definition il_fun_one (idx1 i : nat) : nat := if i <? idx1 then i else i - 1.

(** fork.rs:467-470: same for role i of protocol two. *)
Definition il_fun_two (n1 idx2 i : nat) : nat := n1 + (if i <? idx2 then i - 1 else i - 2).

(** fork.rs:654-665: number of the MeshedChannels variable thread i runs on. *)
Definition il_thread (n1 idx1 idx2 i : nat) : nat :=
  if i <? idx1 then i
  else if (idx1 <=? i) && (i <? n1 - 1 + idx2) then i + 1
  else i + 2.

(** fork.rs:683-691: the two variables of the interleaved thread. *)
Definition il_interleaved (n1 idx1 idx2 : nat) : nat * nat := (idx1, n1 + idx2).

(** fork.rs:587 and 633-636: variable number of role i of protocol one / two. *)
Definition il_mesh_one (i : nat) : nat := i.
Definition il_mesh_two (n1 i : nat) : nat := n1 + i.

(** fork.rs:538-567: channels of protocol two, variables shifted by n1, types by n1(n1-1)/2. *)
Definition il_vars (n1 n2 i : nat) : option (var * var) :=
  if i <=? npairs n1 then
    match get_tuple_diag (diag_w_offset n1) i with
    | Some (line, column, _) => Some ((line, column), (column, line))
    | None => None
    end
  else
    match get_tuple_diag (diag_w_offset n2) (i - npairs n1) with
    | Some (line, column, _) => Some ((n1 + line, n1 + column), (n1 + column, n1 + line))
    | None => None
    end.

Definition il_env (n1 n2 : nat) : option env :=
  let_new (il_vars n1 n2) (seq 1 (npairs n1 + npairs n2)) [].

(** fork.rs:569-652: the fields of MeshedChannels variable number v. *)
Definition il_mesh (n1 n2 v : nat) : option (list endp) :=
  match il_env n1 n2 with
  | None => None
  | Some g =>
      if v <=? n1 then
        all_some (map (fun j =>
          match get_tuple_matrix (matrix n1) v j with
          | Some (line, column, _) =>
              lookup g (if line =? v then (line, column) else (column, line))
          | None => None
          end) (seq 1 (n1 - 1)))
      else
        all_some (map (fun j =>
          match get_tuple_matrix (matrix n2) (v - n1) j with
          | Some (line, column, _) =>
              lookup g (if line =? v - n1 then (n1 + line, n1 + column) else (n1 + column, n1 + line))
          | None => None
          end) (seq 1 (n2 - 1)))
  end.

(** fork.rs:392-443 and 445-496: declared session types of role i of protocol one / two. *)
Definition il_decl_one (n1 i : nat) : option (list endp) := fork_decl n1 i.
Definition il_decl_two (n1 n2 i : nat) : option (list endp) :=
  all_some (map (fun j =>
    match get_tuple_matrix (matrix_w_offset n2) i j with
    | Some (k, _, m) => Some (npairs n1 + m, k =? i)
    | None => None
    end) (seq 1 (n2 - 1))).

(** The declared sessions of function argument number f: those of the role whose
    [functions_struct] entry carries the name F_f (fork.rs:414-430, 467-483). *)
Definition il_decl_fun (n1 n2 idx1 idx2 f : nat) : list (option (list endp)) :=
  map (il_decl_one n1) (filter (fun i => negb (i =? idx1) && (il_fun_one idx1 i =? f)) (seq 1 n1))
  ++ map (il_decl_two n1 n2) (filter (fun i => negb (i =? idx2) && (il_fun_two n1 idx2 i =? f)) (seq 1 n2)).
