(** * The items of the generated file and the names they use

    Model of the names written by src/top_down_nuscr/auxiliary_objects/code_generate
    (imports.rs, fn_endpoints.rs, fn_main.rs) and by the expansion of
    [generate_atmp!] (mpst_seq_proc/src/baking_atmp/baking_atmp_with_enum_and_cancel.rs),
    and specification of C47: a name is declared once, a name in use is declared. *)

From Coq Require Import Ascii String ZArith Bool List.
From Verif Require Import Checker CheckerText CheckerAll Nuscr NuscrSpec NuscrStructs.
Import ListNotations.

(** ** Model *)

(** [to_lowercase], on ASCII (fn_endpoints.rs:33, fn_main.rs:17, 23). *)
Definition lower_char (c : ascii) : ascii :=
  let n := nat_of_ascii c in
  if ((65 <=? n) && (n <=? 90))%nat then ascii_of_nat (n + 32) else c.
Definition lower (s : str) : str := map lower_char s.

(** The functions (fn_endpoints.rs:30-37), the arguments of [fork_mpst] and the
    variables of the threads (fn_main.rs:16-24), the macros of the choices
    (mpst_seq_proc/src/common_functions/expand/choose.rs:1801-1804). *)
Definition function_name (r : str) (ix : list nat) (n : nat) : str :=
  lit "endpoint_" ++ lower r ++ lit "_" ++ index_text ix ++ lit "_v_" ++ num n.
Definition function_names (f : rust_file) : list str :=
  map (fun x => let '(r, ix, n, _, _) := x in function_name r ix n) (functions f).
Definition main_functions (f : rust_file) : list str :=
  map (fun r => lit "endpoint_" ++ lower r ++ lit "_0_v_0") (meshed_roles f).
Definition main_threads (f : rust_file) : list str :=
  map (fun r => lit "thread_" ++ lower r) (meshed_roles f).
Definition choice_macros (f : rust_file) : list str :=
  map (fun r => lit "choose_mpst_" ++ lower r ++ lit "_to_all") (meshed_roles f).

(** The types imported (imports.rs:18-36).  The main tree has sub trees when
    functions are written for an index of two numbers (fn_endpoints.rs:56-58). *)
Definition has_sub_trees (f : rust_file) : bool :=
  existsb (fun x => let '(_, ix, _, _, _) := x in (1 <? length ix)%nat) (functions f).
Definition imports (f : rust_file) : list str :=
  [lit "End"; lit "RecvTimed"; lit "SendTimed"] ++
  (if has_sub_trees f then [lit "RoleBroadcast"] else []) ++
  [lit "RoleEnd"; lit "HashMap"; lit "Error"; lit "Instant"].
(** The types made by [generate_atmp!] (imports.rs:38-42): for each role
    (expand/role_atmp.rs:8-14, expand/name.rs:8), and the mesh
    (expand/meshedchannels.rs:106). *)
Definition baked_for (r : str) : list str :=
  [lit "Role" ++ r; lit "Role" ++ r ++ lit "Dual"; lit "Role" ++ r ++ lit "toAll"; lit "RoleAllto" ++ r;
   lit "Name" ++ r].
Definition baked (f : rust_file) : list str :=
  lit "MeshedChannels" :: flat_map baked_for (meshed_roles f).
(** The types of the prelude in the signature of the functions (fn_endpoints.rs:32). *)
Definition prelude : list str := [lit "Result"; lit "Box"].
Definition given (f : rust_file) : list str := imports f ++ prelude ++ baked f.

(** The types declared by the file
    (sessions.rs:23-40, stacks.rs:23-33, enums.rs:34-38, endpoints.rs:27, structs.rs:22-61). *)
Definition type_names (f : rust_file) : list str :=
  map fst (structs f) ++ map fst (types f) ++ map fst (enum_types f) ++ map ep_name (endpoint_types f).

(** The types used: by the fields of the structs (structs.rs:48-61), by the
    declarations (sender_messages.rs:16-35, receiver_messages.rs:15-34,
    process_line.rs:256-288, sender_stacks.rs:14-23, sessions.rs:36,
    stacks.rs:30), by the enums (enums.rs:41-46), by the endpoints
    (endpoints.rs:26-48), by the functions (fn_endpoints.rs:32). *)
Definition body_uses (b : body) : list str :=
  match b with
  | Timed send pay _ _ _ _ _ _ next => [if send then lit "SendTimed" else lit "RecvTimed"; pay; next]
  | RoleOf r next => [lit "Role" ++ r; next]
  | Broadcast => [lit "RoleBroadcast"]
  | Alias n => [n]
  end.
Definition uses (f : rust_file) : list str :=
  flat_map (fun s : str * option str => match snd s with Some p => [p] | None => [] end) (structs f) ++
  flat_map (fun d : decl => body_uses (snd d)) (types f) ++
  flat_map (fun e : str * list str => snd e) (enum_types f) ++
  flat_map (fun e => lit "MeshedChannels" :: ep_sessions e ++ [ep_stack e; lit "Name" ++ ep_role e])
    (endpoint_types f) ++
  flat_map (fun x : str * list nat * nat * str * list str => let '(_, _, _, ty, _) := x in
    [ty; lit "HashMap"; lit "Instant"; lit "Result"; lit "Box"; lit "Error"]) (functions f).

(** ** Specification *)

(** Role names that the macro can turn into types: no role is called like the
    end or the broadcast, no name has a beginning or an end that the macro
    adds itself (specification only; expand/role_atmp.rs:8-14, expand/name.rs:8). *)
Definition starts (u w : str) : Prop := exists v, w = u ++ v.
Definition ends (u w : str) : Prop := exists v, w = v ++ u.
Definition bakeable (r : str) : Prop :=
  r <> lit "End" /\ r <> lit "Broadcast" /\ ~ starts (lit "All") r /\
  ~ ends (lit "Dual") r /\ ~ ends (lit "toAll") r.
(** Roles that differ in lower case, without "_" (specification only; fn_endpoints.rs:33). *)
Definition apart (p : proto) : Prop :=
  (forall r, In r (p_roles p) -> ~ In "_"%char r) /\
  (forall r r', In r (p_roles p) -> In r' (p_roles p) -> lower r = lower r' -> r = r').
(** Labels and payloads have no "_" once in title case, and are not types
    that the file gets from elsewhere (specification only; structs.rs:22-61, line_is_message.rs:79-83). *)
Definition fresh_titles (title : str -> str) (p : proto) (f : rust_file) : Prop :=
  forall m, spoken p m ->
    (~ In "_"%char (title (label m)) /\ ~ In (title (label m)) (given f)) /\
    (forall q, payload m = Some q -> ~ In "_"%char (title q) /\ ~ In (title q) (given f)).
