(** * What the bottom-up checker should do

    Specification of C31-C33, independent of the parser: types are trees, their
    text is what [std::any::type_name] prints, and the behaviours of a role
    are read from the trees. *)

From Coq Require Import Ascii String ZArith Lia Bool List.
From Verif Require Import Checker.
Import ListNotations.

(** A type: the path of the module, the name, the parameters
    ([std::any::type_name], used in src/checking/mod.rs:94, 139, 156). *)
Inductive ty : Type := Node (path : list str) (name : str) (args : list ty).

(** The text of a type: [head] prints a path and a name, [sp] says whether a
    space follows the commas. *)
Fixpoint join (sep : str) (l : list str) : str :=
  match l with
  | [] => []
  | [a] => a
  | a :: l' => a ++ sep ++ join sep l'
  end.

Definition comma (sp : bool) : str := if sp then lit ", " else lit ",".

Fixpoint show_with (head : list str -> str -> str) (sp : bool) (t : ty) : str :=
  match t with
  | Node path name args =>
      head path name ++
      match args with
      | [] => []
      | _ => lit "<" ++ join (comma sp) (map (show_with head sp) args) ++ lit ">"
      end
  end.

(** "a::b::" *)
Definition path_text (path : list str) : str := concat (map (fun s => s ++ lit "::") path).

(** What [type_name] prints: full paths, a space after the commas. *)
Definition full_head (path : list str) (name : str) : str := path_text path ++ name.
Definition type_name (t : ty) : str := show_with full_head true t.

(** The short text: no paths, no spaces. *)
Definition short_head (path : list str) (name : str) : str := name.
Definition short (t : ty) : str := show_with short_head false t.

(** A name has no separator, no space, no [&], no colon, and is not empty. *)
Definition word (s : str) : Prop :=
  s <> [] /\ Forall (fun c => is_sep c = false /\ c <> "&"%char /\ c <> ":"%char) s.

(** All the (path, name) of a type, from left to right. *)
Fixpoint heads (t : ty) : list (list str * str) :=
  match t with Node path name args => (path, name) :: flat_map heads args end.

(** Names and paths of a type are words. *)
Definition wordy (t : ty) : Prop :=
  Forall (fun h => Forall word (fst h) /\ word (snd h)) (heads t).

(** A text inside another one. *)
Definition inside (p s : str) : Prop := exists a b, s = a ++ p ++ b.

(** A qualified name may occur in another qualified name of the type only as
    its beginning, the rest being the end of its last component. *)
Definition paths_apart (t : ty) : Prop :=
  forall p q,
    In p (heads t) -> In q (heads t) -> fst p <> [] ->
    inside (full_head (fst p) (snd p)) (full_head (fst q) (snd q)) ->
    exists rest, full_head (fst q) (snd q) = full_head (fst p) (snd p) ++ rest /\
                 ~ In ":"%char rest.

(** "Name" followed by a letter. *)
Definition named (s : str) : Prop :=
  exists c, is_alpha c = true /\ inside (lit "Name" ++ [c]) s.

(** The names [NameX] of a type, [X] made of letters, are leaves; no other
    name of the type contains "Name" followed by a letter, nor does any [X],
    and no [X] is the beginning of another one. *)
Definition name_of (x : str) : str := lit "Name" ++ x.
Definition role_of (x : str) : str := lit "Role" ++ x.

Inductive names_in (N : list str) : ty -> Prop :=
| ni_name : forall path x, In x N -> names_in N (Node path (name_of x) [])
| ni_node : forall path name args,
    ~ named name -> Forall (names_in N) args -> names_in N (Node path name args).

Definition names_fit (N : list str) : Prop :=
  (forall x, In x N -> x <> [] /\ Forall (fun c => is_alpha c = true) x /\ ~ named x) /\
  (forall x y r, In x N -> In y N -> y = x ++ r -> r = []).

(** A type without its paths, each [NameX] replaced by [RoleX<RoleEnd>]. *)
Inductive plain (N : list str) : ty -> ty -> Prop :=
| pl_name : forall path x,
    In x N ->
    plain N (Node path (name_of x) []) (Node [] (role_of x) [Node [] (lit "RoleEnd") []])
| pl_node : forall path name args args',
    ~ named name -> Forall2 (plain N) args args' ->
    plain N (Node path name args) (Node [] name args').

(** Binary session types (src/binary/struct_trait.rs) and their duals. *)
Definition tEnd : ty := Node [] (lit "End") [].
Definition tSend (p s : ty) : ty := Node [] (lit "Send") [p; s].
Definition tRecv (p s : ty) : ty := Node [] (lit "Recv") [p; s].
Definition tEither (l r : ty) : ty := Node [] (lit "Either") [l; r].
Definition tRoleEnd : ty := Node [] (lit "RoleEnd") [].

Inductive dual_of : ty -> ty -> Prop :=
| du_end : dual_of tEnd tEnd
| du_send : forall p s s', dual_of s s' -> dual_of (tSend p s) (tRecv p s')
| du_recv : forall p s s', dual_of s s' -> dual_of (tRecv p s) (tSend p s').

(** ** Behaviours of a role *)

(** What a role does: send or receive a payload to or from role number [i],
    or finish. *)
Inductive label : Type :=
| Out (i : nat) (p : ty)
| In_ (i : nat) (p : ty)
| Finish.

(** The place of role [i] among the sessions of role [me]. *)
Definition slot (me i : nat) : nat := if (i <? me)%nat then i else pred i.

(** [v] with [x] at place [i]. *)
Definition put {A} (v : list A) (i : nat) (x : A) : list A :=
  firstn i v ++ x :: skipn (S i) v.

(** The finite behaviours allowed by the sessions [ss] and the stack [st] of
    role [me], in stack order.  [MeshedChannels<ss.., st, name>] is the tree
    [Node _ _ (ss ++ [st; name])].  A choice is silent: the one who offers
    goes on with one of the two types received, the one who chooses with the
    duals of the sessions it gave away and the chosen stack. *)
Inductive does (roles : list str) (me : nat) : list ty -> ty -> list label -> Prop :=
| do_nothing : forall ss st, does roles me ss st []
| do_finish : forall ss,
    Forall (eq tEnd) ss -> does roles me ss tRoleEnd [Finish]
| do_send : forall ss st i r p s tr,
    nth_error roles i = Some r -> i <> me ->
    nth_error ss (slot me i) = Some (tSend p s) ->
    does roles me (put ss (slot me i) s) st tr ->
    does roles me ss (Node [] r [st]) (Out i p :: tr)
| do_recv : forall ss st i r p s tr,
    nth_error roles i = Some r -> i <> me ->
    nth_error ss (slot me i) = Some (tRecv p s) ->
    does roles me (put ss (slot me i) s) st tr ->
    does roles me ss (Node [] r [st]) (In_ i p :: tr)
| do_offer : forall ss r stl str k l ls lst ln rgt rs rst rn tr,
    nth_error ss k = Some (tRecv (tEither (Node [] l (ls ++ [lst; ln]))
                                          (Node [] rgt (rs ++ [rst; rn]))) tEnd) ->
    does roles me ls lst tr \/ does roles me rs rst tr ->
    does roles me ss (Node [] r [stl; str]) tr
| do_choose : forall ss r stl str dl dr tr,
    Forall2 (fun i_s d => exists l ls lst ln rgt,
               snd i_s = tSend (tEither (Node [] l (ls ++ [lst; ln])) rgt) tEnd /\
               exists s, nth_error ls (slot (fst i_s) me) = Some s /\ dual_of s d)
      (combine (filter (fun i => negb (i =? me)%nat) (seq 0 (length roles))) ss) dl ->
    Forall2 (fun i_s d => exists lft r' rs rst rn,
               snd i_s = tSend (tEither lft (Node [] r' (rs ++ [rst; rn]))) tEnd /\
               exists s, nth_error rs (slot (fst i_s) me) = Some s /\ dual_of s d)
      (combine (filter (fun i => negb (i =? me)%nat) (seq 0 (length roles))) ss) dr ->
    does roles me dl stl tr \/ does roles me dr str tr ->
    does roles me ss (Node [] r [stl; str]) tr.

(** The types of messages and binary choices of role [me], with [plain_payload]
    the payloads that are not enums of branches. *)
Inductive local_type (roles : list str) (me : nat) (plain_payload : ty -> Prop)
  : list ty -> ty -> Prop :=
| lt_end : forall ss,
    Forall (eq tEnd) ss -> S (length ss) = length roles ->
    local_type roles me plain_payload ss tRoleEnd
| lt_send : forall ss st i r p s,
    nth_error roles i = Some r -> i <> me ->
    nth_error ss (slot me i) = Some (tSend p s) ->
    local_type roles me plain_payload (put ss (slot me i) s) st ->
    local_type roles me plain_payload ss (Node [] r [st])
| lt_recv : forall ss st i r p s,
    nth_error roles i = Some r -> i <> me ->
    nth_error ss (slot me i) = Some (tRecv p s) ->
    plain_payload p ->
    local_type roles me plain_payload (put ss (slot me i) s) st ->
    local_type roles me plain_payload ss (Node [] r [st])
| lt_offer : forall ss r stl str k l ls lst ln rgt rs rst rn,
    S (length ss) = length roles ->
    nth_error ss k = Some (tRecv (tEither (Node [] l (ls ++ [lst; ln]))
                                          (Node [] rgt (rs ++ [rst; rn]))) tEnd) ->
    (forall j, j <> k -> forall s, nth_error ss j = Some s -> s = tEnd) ->
    local_type roles me plain_payload ls lst ->
    local_type roles me plain_payload rs rst ->
    local_type roles me plain_payload ss (Node [] r [stl; str])
| lt_choose : forall ss r stl str dl dr,
    ss <> [] -> S (length ss) = length roles ->
    Forall2 (fun i_s d => exists l ls lst nm a rgt,
               snd i_s = tSend (tEither (Node [] l (ls ++ [lst; Node [] nm a])) rgt) tEnd /\
               nth_error roles (fst i_s) = Some nm /\
               exists s, nth_error ls (slot (fst i_s) me) = Some s /\ dual_of s d)
      (combine (filter (fun i => negb (i =? me)%nat) (seq 0 (length roles))) ss) dl ->
    Forall2 (fun i_s d => exists lft r' rs rst rn,
               snd i_s = tSend (tEither lft (Node [] r' (rs ++ [rst; rn]))) tEnd /\
               exists s, nth_error rs (slot (fst i_s) me) = Some s /\ dual_of s d)
      (combine (filter (fun i => negb (i =? me)%nat) (seq 0 (length roles))) ss) dr ->
    local_type roles me plain_payload dl stl ->
    local_type roles me plain_payload dr str ->
    local_type roles me plain_payload ss (Node [] r [stl; str]).

(** A type already without paths, and without [NameX]. *)
Definition tidy (t : ty) : Prop :=
  Forall (fun h => fst h = [] /\ word (snd h) /\ ~ named (snd h)) (heads t).

(** ** Graphs and machines *)

(** The sequences of labels of a labelled graph, from a node. *)
Inductive walk {L : Type} (E : list (nat * L * nat)) : nat -> list L -> Prop :=
| w_stop : forall a, walk E a []
| w_step : forall a l b ls, In (a, l, b) E -> walk E b ls -> walk E a (l :: ls).

(** The labels of the graph of role [role] (aux_checker.rs:279, 490, 611). *)
Definition edge_text (role : str) (roles : list str) (l : label) : str :=
  match l with
  | Out i p => role ++ lit "!" ++ nth i roles [] ++ lit ": " ++ short p
  | In_ i p => role ++ lit "?" ++ nth i roles [] ++ lit ": " ++ short p
  | Finish => lit "0"
  end.

(** A line of the machine given to KMC: source, number of the other role,
    direction, message, target (aux_checker.rs:494-502, 842). *)
Definition machine_line (role : str) (e : nat * label * nat) : str :=
  let '(a, l, b) := e in
  match l with
  | Out i p => role ++ num a ++ lit " " ++ num i ++ lit " ! " ++ short p ++ lit " "
                 ++ role ++ num b
  | In_ i p => role ++ num a ++ lit " " ++ num i ++ lit " ? " ++ short p ++ lit " "
                 ++ role ++ num b
  | Finish => []
  end.

(** The text of the machine with these transitions. *)
Definition machine_text (role : str) (T : list (nat * label * nat)) : list str :=
  [lit ".outputs"; lit ".state graph"] ++ map (machine_line role) T
    ++ [lit ".marking " ++ role ++ lit "0"; lit ".end"].
