(** The printed form of a type: [head_str] and [tail_str] of sessions, stacks, names and MeshedChannels. Model only. The
    methods [self_head_str] and [self_tail_str] have the same bodies and ignore the value.
    Simplified: a role [x] has the structs Role{x}, Role{x}Dual, Role{x}toAll, RoleAllto{x} and Name{x}, as in the library and in
    [generate!]; the macros [create_normal_role] and alike take any five names. *)
From Coq Require Import List Arith Bool String Ascii.
From Verif Require Import Types.
Import ListNotations.
Open Scope list_scope.

(** The line feed in the formats (src/meshedchannels/mod.rs:123). *)
Definition nl : string := String (ascii_of_nat 10) EmptyString.

(** The four structs of a role and their names (mpst_seq_proc/src/common_functions/expand/role.rs:6-14). *)
Inductive kind := KRole | KDual | KToAll | KAllTo.
Definition struct_name (nm : nat -> string) (k : kind) (x : nat) : string :=
  match k with
  | KRole => "Role" ++ nm x
  | KDual => "Role" ++ nm x ++ "Dual"
  | KToAll => "Role" ++ nm x ++ "toAll"
  | KAllTo => "RoleAllto" ++ nm x
  end%string.

Section Names.
  Variable nm : nat -> string.

  (** src/role/end.rs:48-50, broadcast.rs:48-50, a.rs:56-58, a_dual.rs:56-58, a_to_all.rs:67-69, all_to_a.rs:62-64 (b, c alike);
      expand/role.rs:57-60, src/macros_simple/role.rs:79-82. *)
  Definition rhead (r : stack) : string :=
    match r with
    | SEnd => "RoleEnd"
    | SBroadcast => "RoleBroadcast"
    | SRole x _ => struct_name nm KRole x
    | SRoleDual x _ => struct_name nm KDual x
    | SToAll x _ _ => struct_name nm KToAll x
    | SAllTo x _ _ => struct_name nm KAllTo x
    end.

  (** src/role/end.rs:52-54, broadcast.rs:52-54, a.rs:60-62, a_dual.rs:60-62, a_to_all.rs:71-79, all_to_a.rs:66-74 (b, c alike);
      expand/role.rs:62-66, 210-224, src/macros_simple/role.rs:84-88, 304-314. *)
  Fixpoint rtail (r : stack) : string :=
    match r with
    | SEnd | SBroadcast => ""
    | SRole _ r | SRoleDual _ r => rhead r ++ "<" ++ rtail r ++ ">"
    | SToAll _ r1 r2 | SAllTo _ r1 r2 => rhead r1 ++ "<" ++ rtail r1 ++ "> + " ++ rhead r2 ++ "<" ++ rtail r2 ++ ">"
    end%string.

  (** src/name/a.rs:49-55 (b, c alike), expand/name.rs:45-53. *)
  Definition nhead (x : nat) : string := ("Name" ++ nm x)%string.
  Definition ntail (x : nat) : string := "".

  (** The variable [result], filled session by session (expand/meshedchannels.rs:59-100,
      mpst_seq_proc/src/macros_multiple/multiple/create_meshedchannels.rs:106-147). *)
  Definition add_line (result h : string) : string :=
    if String.eqb result "" then h else (result ++ nl ++ h)%string.
  Definition lines (hs : list string) : string := fold_left add_line hs ""%string.

  Section Payload.
    Context {P : Type}.

    (** src/binary/struct_trait/end.rs:48-50, send.rs:32-34, recv.rs:31-33, src/binary_atmp/struct_trait/send.rs:133-135,
        recv.rs:113-115, expand/meshedchannels.rs:159-169. *)
    Fixpoint head (t : ty P) : string :=
      match t with
      | TEnd => "End"
      | TSend _ _ | TSendT _ _ _ => "Send"
      | TRecv _ _ | TRecvT _ _ _ => "Recv"
      | TMesh ss r n => lines (map head ss) ++ nl ++ rhead r ++ nl ++ nhead n
      end%string.

    (** end.rs:52-54, send.rs:36-38, recv.rs:35-37, src/binary_atmp/struct_trait/send.rs:137-139, recv.rs:117-119,
        expand/meshedchannels.rs:171-183. *)
    Fixpoint tail (t : ty P) : string :=
      match t with
      | TEnd => ""
      | TSend _ s | TSendT _ _ s | TRecv _ s | TRecvT _ _ s => head s ++ "<" ++ tail s ++ ">"
      | TMesh ss r n =>
          lines (map (fun s => head s ++ "<" ++ tail s ++ ">") ss) ++ nl ++ rhead r ++ "<" ++ rtail r ++ ">" ++ nl ++
          nhead n ++ "<" ++ ntail n ++ ">"
      end%string.

    (** The MeshedChannels of three roles in the library (src/meshedchannels/mod.rs:121-129, 131-143). *)
    Definition head3 (s1 s2 : ty P) (r : stack) (n : nat) : string :=
      (head s1 ++ nl ++ head s2 ++ nl ++ rhead r ++ nl ++ nhead n)%string.
    Definition tail3 (s1 s2 : ty P) (r : stack) (n : nat) : string :=
      (head s1 ++ "<" ++ tail s1 ++ ">" ++ nl ++ head s2 ++ "<" ++ tail s2 ++ ">" ++ nl ++ rhead r ++ "<" ++ rtail r ++ ">" ++ nl ++
       nhead n ++ "<" ++ ntail n ++ ">")%string.
  End Payload.
End Names.
