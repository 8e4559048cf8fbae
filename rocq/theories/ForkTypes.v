(** What the generated fork functions and choice macros ask of the types they are used with: the signature and the body of
    the fork functions, the types of the MeshedChannels built by a choice.
    Model only: types as in Methods.v; the variables of the bodies and the calls of [Session::new()] are those of Wiring.v;
    [Result], [Send + 'static], thread names and the values of stacks and names are left out. *)
From Coq Require Import List Arith Bool String.
From Verif Require Import Diag Wiring Methods.
Import ListNotations.
Open Scope nat_scope.
Open Scope list_scope.

(** The MeshedChannels with stack [R{i}] and name [N{i}]; session k is [S{k}] or its dual
    (mpst_seq_proc/src/macros_multiple/multiple/fork_mpst_multi.rs:68-103, common_functions/expand/aux_fork.rs:54-66, 91-103,
    142-206). *)
Definition role_mesh (mesh : string) (i : nat) (es : list endp) : rty :=
  mesh_t mesh (map (session_of 0) es) (RVar (PR i)) (RVar (PN i)).

(** A fork function: its type parameters, the types that the functions f1.. must take, the types of the MeshedChannels that
    the threads give to them (fork_mpst_multi.rs:139-183). *)
Record forked := Forked { fk_params : list param; fk_args : list rty; fk_given : list rty }.

(** fork_mpst_multi.rs:40-183 (also written by [generate!]: mpst_seq_proc/src/common_functions/expand/fork.rs:17-169);
    [n_sessions - 1] underflows for 0. *)
Definition fork_fn (mesh : string) (n : nat) : option forked :=
  if n =? 0 then None
  else
    match all_some (map (fork_decl n) (seq 1 n)), fork_threads n with
    | Some decls, Some meshes =>
        Some (Forked (map PS (seq 1 (npairs n)) ++ map PR (seq 1 n) ++ map PN (seq 1 n))
                (map (fun x => role_mesh mesh (fst x) (snd x)) (combine (seq 1 n) decls))
                (map (fun x => role_mesh mesh (fst x) (snd x)) (combine (seq 1 n) meshes)))
    | _, _ => None
    end.

(** [fork_mpst] for three roles (src/functionmpst/fork.rs:121-181): [S0], [S1], [S2] are written [PS 1], [PS 2], [PS 3]. *)
Definition fork_fn_3 (mesh : string) : forked :=
  let s1 := RVar (PS 1) in let s2 := RVar (PS 2) in let s3 := RVar (PS 3) in
  let m i a b := mesh_t mesh [a; b] (RVar (PR i)) (RVar (PN i)) in
  let l := [m 1 s1 s2; m 2 (RDual s1) s3; m 3 (RDual s2) (RDual s3)] in
  Forked (map PS (seq 1 3) ++ map PR (seq 1 3) ++ map PN (seq 1 3)) l l.

(** A choice by enum: the unknown types ([<_ as Session>::new()], [<_ as Role>::new()], [<_ as Name>::new()]), for each send
    the field of the old session and the type of the MeshedChannels in the message, the type of the result. *)
Record choice := Choice { ch_unknowns : list param; ch_sends : list (nat * rty); ch_result : rty }.

(** [choose_mpst_multi_to_all!] (mpst_seq_proc/src/choose_mpst_multi_to_all.rs:64-219), [choose_atmp_mpst_multi_to_all!]
    (choose_atmp_mpst_multi_to_all.rs:70-240) and each function of [create_fn_choose_mpst_multi_to_all_bundle!]
    (macros_multiple/multiple/choose/create_fn_choose_mpst_multi_to_all_bundle.rs:116-346): the MeshedChannels are the same. *)
Definition choose_code (mesh : string) (n exclusion : nat) (sender : string) : option choice :=
  match choose_sends n exclusion, choose_own n exclusion with
  | Some sends, Some own =>
      let diff := n - 1 in
      Some (Choice (map PS (seq 1 (diff * (diff + 1) / 2)) ++ map PR (seq 1 n) ++ map PN (seq 1 (n - 1)))
              (map (fun x => (fst x, role_mesh mesh (fst x) (snd x))) sends)
              (mesh_t mesh (map (session_of 0) own) (RVar (PR n)) (name_t sender)))
  | _, _ => None
  end.

(** The channels of [choose_mpst_multi_cancel_to_all!]: those with number below [n_sessions] have type [End]
    (macros_multiple/multiple/choose/choose_mpst_multi_cancel_to_all.rs:92-115). *)
Definition cancel_session (n : nat) (e : endp) : rty :=
  if fst e <? n then (if snd e then end_t else RDual end_t) else session_of 0 e.

(** [choose_mpst_multi_cancel_to_all!] (choose_mpst_multi_cancel_to_all.rs:85-270) and each function of
    [create_fn_choose_mpst_cancel_multi_to_all_bundle!] (create_fn_choose_mpst_cancel_multi_to_all_bundle.rs:126-376): sends
    to the roles after the broadcaster. *)
Definition choose_cancel_code (mesh : string) (n exclusion : nat) (sender : string) : option choice :=
  match all_some (map (choose_send n exclusion) (seq 2 (n - 2))), choose_own n exclusion with
  | Some sends, Some own =>
      let diff := n - 1 in
      Some (Choice (map PS (seq n (diff * (diff + 1) / 2 - diff)) ++ map PR (seq 2 (n - 1)) ++ map PN (seq 2 (n - 2)))
              (map (fun x => (fst x, mesh_t mesh (map (cancel_session n) (snd x)) (RVar (PR (fst x))) (RVar (PN (fst x))))) sends)
              (mesh_t mesh (map (cancel_session n) own) (RVar (PR n)) (name_t sender)))
  | _, _ => None
  end.
