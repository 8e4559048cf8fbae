(** The three hand-written families of Three.v as code that runs: the binary choices of roles A = 1, B = 2, C = 3 on the
    machine of BinMesh.v. Model only. Fork, send, recv, close and cancel are those of BinMesh.v for three roles:
    src/functionmpst/fork.rs:123-186 is [fork_mpst] of the macros (three_fork_generated in Properties_Three.v), send and recv
    replace the same fields (three_comm), src/functionmpst/close.rs:58-77 sends Stop on session1 and session2 and then waits for both, cancel drops
    (src/binary/cancel.rs:22-24). *)
From Coq Require Import List Arith Bool.
From Verif Require Import Types Wiring Session Mesh Three BinMesh.
Import ListNotations.

(** The type of the first component of every [new]: that of the session of the first role with the second one
    in the MeshedChannels types of the branch (C41, three_choice_typed: those are the types the functions declare;
    src/functionmpst/choose.rs:72-74, src/macros_simple/choose.rs:25-30, src/meshedchannels/impl_a.rs:141-143). *)
Definition new_types (T : nat -> mty) (bs : list binding) : list sty :=
  map (fun x : binding => nth (literal3 (fst (fst x)) (snd (fst x)) - 1) (fst (T (fst (fst x)))) End) bs.

(** What a choice does before it sends: the channels in the order of the bindings, choice_1 for session1 and choice_2
    for session2, the MeshedChannels that is returned (src/functionmpst/choose.rs:72-117,
    src/macros_simple/choose.rs:25-73, src/meshedchannels/impl_a.rs:141-186, and the other bodies cited at [body_of]).
    [None]: a variable that is not bound. *)
Definition tmake {S H} (O : ops S H) (branch : nat -> nat -> nat -> mty) (fam : family) (p b l : nat) (hs : list H) (s : S)
    : option (@prog H * S) :=
  let body := body_of fam p in
  let '(pairs, s1) := alloc O (new_types (branch b l) (cb_new body)) s in
  let g := bind_all 1 (cb_new body) [] in
  match fields g (cb_choice_1 body), fields g (cb_choice_2 body), fields g (cb_own body), body_names p with
  | Some e1, Some e2, Some eo, x1 :: x2 :: _ =>
      match pick_all pairs e1, pick_all pairs e2, pick_all pairs eo, nth_error hs 0, nth_error hs 1 with
      | Some m1, Some m2, Some mine, Some h1, Some h2 => Some (PChoose b l [(x1, h1, m1); (x2, h2, m2)] mine, s1)
      | _, _, _, _, _ => None
      end
  | _, _, _, _ => None
  end.

(** The functions [offer_mpst_session_to_x_from_y] take any other session (src/functionmpst/offer.rs:21-56); the methods
    [offer] and the macros want [End] (src/meshedchannels/impl_a.rs:85-123,
    mpst_seq_proc/src/macros_simple/offer/create_offer_mpst_session_multi.rs:83-112). *)
Definition any_rest3 (fam : family) : bool := match fam with FunctionMpst => true | _ => false end.
