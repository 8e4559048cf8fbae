(** The functions made by create_choose_mpst_session_multi_left and _right, for n roles, as code that runs on the machine of
    BinMesh.v. Model only. The chooser is role n; the other roles, and role n if it wants, have the methods of BinMesh.v.
    The offers are those of BinMesh.v: mpst_seq_proc/src/macros_simple/offer/create_offer_mpst_session_multi.rs:83-112 asks for [End] in all
    other fields, receives, cancels, and goes on with the side received. *)
From Coq Require Import List Arith Bool.
From Verif Require Import Types Wiring Session Mesh BinMesh.
Import ListNotations.

(** create_choose_mpst_session_multi_left.rs (mpst_seq_proc/src/macros_multiple/multiple/choose) 222-234: the channels, S_i is the session
    of the first variable; 256-293: [choice_i]; 295-308: it goes by [session_i]; 320-334: the MeshedChannels returned; create_choose_mpst_session_multi_right.rs:
    225-240, 262-299, 301-314, 326-340. [None]: a variable that is not bound. The function
    does not know which role p calls it: its [session_i] leads to the role [other p i], and the S_i are what makes the types of
    the Either's of the caller fit. *)
Definition cmake_choice {S H} (O : ops S H) (n : nat) (branch : nat -> nat -> nat -> mty) (p b l : nat) (hs : list H) (s : S)
    : option (@prog H * S) :=
  let '(pairs, s1) := alloc O (pair_types n (choose_vars n) (fun i => branch b l (other p i))) s in
  match all_some (map (fun i => match nth_error hs (i - 1), cchoose_receiver n i with
                                | Some h, Some es => option_map (fun m => (other p i, h, m)) (pick_all pairs es)
                                | _, _ => None
                                end) (seq 1 (n - 1))),
        cchoose_sender n with
  | Some pend, Some es =>
      match pick_all pairs es with
      | Some mine => Some (PChoose b l pend mine, s1)
      | None => None
      end
  | _, _ => None
  end.

(** Which code a choice uses: [by_function b] if role n calls the function for the choice b (create_choose_mpst_session_multi_left.rs:336-367,
    the generated [fn]; src/macros_multiple/choose.rs:209-237, [create_choose_mpst_session_multi_both]). *)
Definition fmake {S H} (O : ops S H) (n : nat) (branch : nat -> nat -> nat -> mty) (by_function : nat -> bool) (p b l : nat)
    (hs : list H) (s : S) : option (@prog H * S) :=
  if (p =? n) && by_function b then cmake_choice O n branch p b l hs s else bmake_choice O n branch p b l hs s.
