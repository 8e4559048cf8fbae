(** The fork functions for two protocols with one shared thread, and for one thread that plays all roles: what they ask of
    the types. Model only, as ForkTypes.v; the timed form (mpst_seq_proc/src/common_functions/expand/fork.rs:792-1259) is the
    same but for a map of clocks beside each MeshedChannels, which is left out. *)
From Coq Require Import List Arith Bool String.
From Verif Require Import Diag Wiring Methods ForkTypes.
Import ListNotations.
Open Scope nat_scope.
Open Scope list_scope.

(** A fork function for two protocols: type parameters of sessions, stacks and names; numbers of the parameters F{f}; numbers
    of the arguments f{f}; the bounds [F{f}: FnOnce(type)] and that of [FInterleaved]; the calls [f{f}(value)] in the threads
    and that of [f_interleaved] (fork.rs:710-789). *)
Record il_forked := ILForked {
  il_params : list param;
  il_funs : list nat;
  il_inputs : list nat;
  il_bounds : list (nat * rty);
  il_shared : rty * rty;
  il_calls : list (nat * rty);
  il_call : rty * rty }.

(** The bounds of one protocol, without that of the shared role, which is removed from the list (fork.rs:392-443, 445-496,
    498-502); [num] is the number of the function of a role, [v] that of its stack and name. *)
Definition il_bound (mesh : string) (num v : nat -> nat) (decl : nat -> option (list endp)) (i : nat) : option (nat * rty) :=
  match decl i with Some es => Some (num i, role_mesh mesh (v i) es) | None => None end.

(** The type of variable [meshedchannels_{v}] (fork.rs:569-652). *)
Definition il_variable (mesh1 mesh2 : string) (n1 n2 v : nat) : option rty :=
  match il_mesh n1 n2 v with Some es => Some (role_mesh (if v <=? n1 then mesh1 else mesh2) v es) | None => None end.

(** fork.rs:331-790. The subtractions underflow for 0 roles; [remove] panics if the index is not that of a role (498-502). *)
Definition fork_il (mesh1 mesh2 : string) (n1 n2 idx1 idx2 : nat) : option il_forked :=
  if (n1 =? 0) || (n2 =? 0) || (idx1 =? 0) || (idx2 =? 0) || (n1 <? idx1) || (n2 <? idx2) then None
  else
    let one := il_bound mesh1 (il_fun_one idx1) il_mesh_one (il_decl_one n1) in
    let two := il_bound mesh2 (il_fun_two n1 idx2) (il_mesh_two n1) (il_decl_two n1 n2) in
    match all_some (map one (filter (fun i => negb (i =? idx1)) (seq 1 n1))),
          all_some (map two (filter (fun i => negb (i =? idx2)) (seq 1 n2))), one idx1, two idx2,
          all_some (map (fun f => match il_variable mesh1 mesh2 n1 n2 (il_thread n1 idx1 idx2 f) with Some t => Some (f, t) | None => None end)
                      (seq 1 (n1 + n2 - 2))),
          il_variable mesh1 mesh2 n1 n2 (fst (il_interleaved n1 idx1 idx2)), il_variable mesh1 mesh2 n1 n2 (snd (il_interleaved n1 idx1 idx2)) with
    | Some b1, Some b2, Some (_, s1), Some (_, s2), Some calls, Some c1, Some c2 =>
        Some (ILForked (map PS (seq 1 (npairs n1 + npairs n2)) ++ map PR (seq 1 (n1 + n2)) ++ map PN (seq 1 (n1 + n2)))
                (seq 1 (n1 + n2 - 2)) (seq 1 (n1 - 1) ++ map (fun i => n1 - 1 + i) (seq 1 (n2 - 1)))
                (b1 ++ b2) (s1, s2) calls (c1, c2))
    | _, _, _, _, _, _, _ => None
    end.

(** [fork_mpst_solo]: one function that takes all MeshedChannels (mpst_seq_proc/src/interleaved/fork_mpst_multi_solo.rs:38-266);
    here the arguments and what they are given are the lists of its parameters and of the values in its call. *)
Definition fork_solo (mesh : string) (n : nat) : option forked :=
  if n =? 0 then None
  else
    match all_some (map (fork_decl n) (seq 1 n)), all_some (map (fork_mesh n) (seq 1 n)) with
    | Some decls, Some meshes =>
        Some (Forked (map PS (seq 1 (npairs n)) ++ map PR (seq 1 n) ++ map PN (seq 1 n))
                (map (fun x => role_mesh mesh (fst x) (snd x)) (combine (seq 1 n) decls))
                (map (fun x => role_mesh mesh (fst x) (snd x)) (combine (seq 1 n) meshes)))
    | _, _ => None
    end.
