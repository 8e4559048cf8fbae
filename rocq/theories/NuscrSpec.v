(** * What the generated types should say

    A reading of the declarations of a Rust file as session types and stacks,
    and the types a protocol asks for, both written without the generator. *)

From Coq Require Import Ascii String ZArith QArith Bool List.
From Verif Require Import Checker Nuscr.
Import ListNotations.
Open Scope nat_scope.
Open Scope list_scope.

(** A timed binary session type: what [SendTimed], [RecvTimed] and [End] are
    (src/binary_atmp/struct_trait/send.rs:24-52, recv.rs:24-51, src/binary/struct_trait/end.rs:11-13). *)
Inductive styp : Type :=
| SEnd
| STimed (send : bool) (pay clk lo : str) (loi : bool) (hi : str) (hii : bool) (rst : str) (k : styp).

(** [Session::Dual] (src/binary_atmp/struct_trait/send.rs:107, recv.rs:106, src/binary/struct_trait/end.rs:30). *)
Fixpoint sdual (s : styp) : styp :=
  match s with
  | SEnd => SEnd
  | STimed d p c lo loi hi hii r k => STimed (negb d) p c lo loi hi hii r (sdual k)
  end.

(** A stack: [RoleX<..>], [RoleEnd], [RoleBroadcast] (src/role/a.rs, end.rs:22, broadcast.rs:22). *)
Inductive ktyp : Type :=
| KEnd
| KBroadcast
| KRole (r : str) (k : ktyp).

(** What a name stands for in a list of [type] declarations. *)
Inductive session_is (env : list decl) : str -> styp -> Prop :=
| si_end : session_is env (lit "End") SEnd
| si_alias n n' s : In (n, Alias n') env -> session_is env n' s -> session_is env n s
| si_timed n d p c lo loi hi hii r n' s :
    In (n, Timed d p c lo loi hi hii r n') env -> session_is env n' s ->
    session_is env n (STimed d p c lo loi hi hii r s).

Inductive stack_is (env : list decl) : str -> ktyp -> Prop :=
| ki_end : stack_is env (lit "RoleEnd") KEnd
| ki_broadcast n : In (n, Broadcast) env -> stack_is env n KBroadcast
| ki_alias n n' s : In (n, Alias n') env -> stack_is env n' s -> stack_is env n s
| ki_role n r n' s : In (n, RoleOf r n') env -> stack_is env n' s -> stack_is env n (KRole r s).

(** ** Protocols *)

(** A branch of a choice: its messages, and whether it goes back to the loop. *)
Record branch : Type := Branch { said : list msg; again : bool }.

(** A protocol: messages, the loop started there if any, messages, and a
    choice with its branches if any.  This is all that the generator supports
    (process_line.rs:134-136 refuses nested choices); [rec] is only given a
    meaning when the choice follows it (process_line.rs:496). *)
Record proto : Type := Proto {
  p_roles : list str;
  before : list msg;
  loop : option str;
  inside : list msg;
  ending : option (str * branch * list branch)
}.

(** The lines of a protocol, as in tests/nuscr_mod/correct/*.nuscr, once read:
    empty lines may stand among the messages; [lt] is the text of the line
    that starts the loop; [safe] is asked of the texts that [REC] matches.
    The texts themselves are in NuscrTextSpec.v. *)
Definition plain (k : kind) : line := Line 0 0 false k None.
Definition open_line : line := Line 1 0 false KOther None.
Definition or_line : line := Line 1 1 false KOr None.
Definition close_line : line := Line 0 1 false KOther None.
Inductive messages_as (safe : option str -> Prop) : list msg -> list line -> Prop :=
| ma_nil : messages_as safe [] []
| ma_message m rt ms ls : safe rt -> messages_as safe ms ls ->
    messages_as safe (m :: ms) (Line 0 0 false (KMessage m) rt :: ls)
| ma_empty b ms ls : messages_as safe ms ls -> messages_as safe ms (Line 0 0 b KOther None :: ls).
Definition continue_as (x : option str) (b : branch) : list line :=
  match x with
  | Some x => if again b then [plain (KContinue x)] else []
  | None => []
  end.
Inductive branch_as (x : option str) (b : branch) : list line -> Prop :=
| ba ls : messages_as (fun _ => True) (said b) ls -> branch_as x b (ls ++ continue_as x b).
Inductive branches_as (x : option str) : list branch -> list line -> Prop :=
| bsa_nil : branches_as x [] []
| bsa_cons b bs ls ls' : branch_as x b ls -> branches_as x bs ls' ->
    branches_as x (b :: bs) (or_line :: ls ++ ls').
Inductive ending_as (x : option str) : option (str * branch * list branch) -> list line -> Prop :=
| ea_none : ending_as x None []
| ea_choice s b bs ls ls' : branch_as x b ls -> branches_as x bs ls' ->
    ending_as x (Some (s, b, bs)) (plain (KChoice s) :: open_line :: ls ++ ls' ++ [close_line]).
Definition loop_open (lt : str) (x : option str) : list line :=
  match x with Some x => [Line 1 0 false (KRec x) (Some lt)] | None => [] end.
Definition loop_close (x : option str) : list line :=
  match x with Some _ => [close_line] | None => [] end.
(** A line of the loop is not taken for the start of the loop. *)
Definition not_start (x : option str) (rt : option str) : Prop :=
  match x, rt with Some x, Some t => contains x t = false | _, _ => True end.
Inductive proto_as (lt name : str) (p : proto) : list line -> Prop :=
| pa ht ls1 ls2 ls3 : messages_as (fun _ => True) (before p) ls1 ->
    messages_as (not_start (loop p)) (inside p) ls2 ->
    ending_as (loop p) (ending p) ls3 ->
    match loop p with Some x => contains x lt = true | None => True end ->
    proto_as lt name p
      (Line 1 0 false (KGlobal name (p_roles p)) ht :: ls1 ++ loop_open lt (loop p) ++ ls2 ++ ls3 ++
       loop_close (loop p) ++ [close_line]).

(** A part of a protocol that becomes one type per pair of roles: messages,
    then the choice by a role or nothing.  Part [None] is the start, part
    [Some i] the branch [i]. *)
Definition part_messages (p : proto) (i : option nat) : list msg :=
  match i with
  | None => before p ++ inside p
  | Some i =>
      match ending p with
      | Some (_, b, bs) =>
          match nth_error (b :: bs) i with
          | Some b =>
              said b ++ match loop p with Some _ => if again b then inside p else [] | None => [] end
          | None => []
          end
      | None => []
      end
  end.
Definition part_choice (p : proto) (i : option nat) : option str :=
  match i, ending p with
  | None, Some (s, _, _) => Some s
  | Some i, Some (s, b, bs) =>
      match nth_error (b :: bs) i, loop p with
      | Some b, Some _ => if again b then Some s else None
      | _, _ => None
      end
  | _, None => None
  end.
(** The parts that exist. *)
Definition part (p : proto) (i : option nat) : Prop :=
  match i with
  | None => True
  | Some i => match ending p with Some (_, _, bs) => i <= length bs | None => False end
  end.

Section Wanted.
  Variable title : str -> str.

  (** The session of role [a] with role [b]: the messages between them, in
      order, then the choice if one of them makes it. *)
  Fixpoint wanted_session (a b : str) (ms : list msg) (choice : option str) : styp :=
    match ms with
    | [] =>
        match choice with
        | Some s =>
            if seqb a s then
              STimed true (choice_name (lit "0") s b) (lit " ") (lit "-2") false (lit "-1") false
                (lit " ") SEnd
            else if seqb b s then
              STimed false (choice_name (lit "0") s a) (lit " ") (lit "-2") false (lit "-1") false
                (lit " ") SEnd
            else SEnd
        | None => SEnd
        end
    | m :: ms' =>
        let k := wanted_session a b ms' choice in
        let r := match reset m with Some c => c | None => lit " " end in
        if seqb (sender m) a && seqb (receiver m) b then
          STimed true (title (label m)) (clock m) (lb m) (li m) (rb m) (ri m) r k
        else if seqb (sender m) b && seqb (receiver m) a then
          STimed false (title (label m)) (clock m) (lb m) (li m) (rb m) (ri m) r k
        else k
    end.

  (** The stack of role [a]: its partners in the order of its messages. *)
  Fixpoint wanted_stack (a : str) (ms : list msg) (choice : option str) : ktyp :=
    match ms with
    | [] =>
        match choice with
        | Some s => if seqb a s then KBroadcast else KRole s KEnd
        | None => KEnd
        end
    | m :: ms' =>
        let k := wanted_stack a ms' choice in
        if seqb (sender m) a then KRole (receiver m) k
        else if seqb (receiver m) a then KRole (sender m) k
        else k
    end.
End Wanted.

(** The name of a part in the names of the types. *)
Definition part_text (i : option nat) : str :=
  match i with None => lit "0" | Some i => lit "0_" ++ num i end.

(** ** Time *)

Open Scope Q_scope.

(** A window as a set of rational times. *)
Definition in_window (v : Q) (m : msg) : Prop :=
  match number (lb m), number (rb m) with
  | Some lo, Some hi =>
      (if li m then inject_Z lo <= v else inject_Z lo < v) /\
      (if ri m then v <= inject_Z hi else v < inject_Z hi)
  | _, _ => False
  end.

Definition involves (r : str) (m : msg) : bool := seqb (sender m) r || seqb (receiver m) r.
Definition resets (c : str) (m : msg) : bool :=
  match reset m with Some c' => seqb c' c | None => false end.

(** The messages of role [r] can be made in time as far as its clock [c] is
    concerned: the clock shows at least [least] now, only grows, and starts
    again from 0 when a message resets it. *)
Fixpoint feasible (r c : str) (least : Q) (ms : list msg) : Prop :=
  match ms with
  | [] => True
  | m :: ms' =>
      if involves r m then
        if seqb (clock m) c then
          exists v, least <= v /\ in_window v m /\ feasible r c (if resets c m then 0 else v) ms'
        else feasible r c (if resets c m then 0 else least) ms'
      else feasible r c least ms'
  end.

(** A window with natural bounds that is not empty. *)
Definition sound_window (m : msg) : Prop := exists v, in_window v m.

(** No role uses the same clock twice. *)
Definition clocks_once (ms : list msg) : Prop :=
  forall r, NoDup (map clock (filter (involves r) ms)).
