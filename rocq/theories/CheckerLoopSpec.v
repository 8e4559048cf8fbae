(** * What the bottom-up checker should do with enums of branches

    Specification of C45, independent of the construction of the graph.  The
    trees and the texts are those of CheckerSpec.v. *)

From Coq Require Import Ascii String ZArith Lia Bool Permutation List.
From Verif Require Import Checker CheckerSpec.
Import ListNotations.

(** The sessions and the stack of an endpoint. *)
Definition config : Type := (list ty * ty)%type.

(** The enums of branches: the name of the enum, and for each variant its name
    and the endpoint it carries (e.g. tests/checking_mod/basics/checking_recursion.rs:39-46). *)
Definition enum_table : Type := list (str * list (str * config)).

(** The lines given to [checker_concat] (src/checking/mod.rs:56-72): what the
    role that broadcasts goes on with, and the variants that it sends. *)
Definition line_table : Type := list (config * list (str * str)).

(** "Enum::Variant" (src/checking/mod.rs:159-163). *)
Definition variant_name (e b : str) : str := e ++ lit "::" ++ b.
Definition names_of (vs : list (str * str)) : list str :=
  map (fun v => variant_name (fst v) (snd v)) vs.

Definition tBroadcast : ty := Node [] (lit "RoleBroadcast") [].

(** The alternatives of a choice with enums: the names of the variants and
    what follows.  A role that receives an enum goes on with the endpoint of
    the variant; a role that broadcasts sends an enum to every other role and
    goes on with the endpoint of the line of the variant. *)
Definition alternatives : Type := list (str * config).

Inductive unfolds (E : enum_table) (G : line_table) (roles : list str) (me : nat)
  : config -> alternatives -> Prop :=
| un_enum : forall ss st i r p s vs,
    nth_error roles i = Some r -> i <> me ->
    nth_error ss (slot me i) = Some (tRecv p s) ->
    In (short p, vs) E ->
    unfolds E G roles me (ss, Node [] r [st])
      (map (fun b => (variant_name (short p) (fst b), snd b)) vs)
| un_broadcast : forall ss alls,
    Forall2 (fun s alts => exists p s' vs, s = tSend p s' /\ In (short p, vs) E /\
      Forall2 (fun b a => fst a = variant_name (short p) (fst b) /\
                 exists names, In (snd a, names) G /\ In (short p, fst b) names) vs alts) ss alls ->
    unfolds E G roles me (ss, tBroadcast) (concat alls).

(** The finite behaviours of role [me]: as in CheckerSpec.v, and with enums one
    of the alternatives.  Choices are silent. *)
Inductive performs (E : enum_table) (G : line_table) (roles : list str) (me : nat)
  : list ty -> ty -> list label -> Prop :=
| pf_nothing : forall ss st, performs E G roles me ss st []
| pf_finish : forall ss,
    Forall (eq tEnd) ss -> performs E G roles me ss tRoleEnd [Finish]
| pf_send : forall ss st i r p s tr,
    nth_error roles i = Some r -> i <> me ->
    nth_error ss (slot me i) = Some (tSend p s) ->
    performs E G roles me (put ss (slot me i) s) st tr ->
    performs E G roles me ss (Node [] r [st]) (Out i p :: tr)
| pf_recv : forall ss st i r p s tr,
    nth_error roles i = Some r -> i <> me ->
    nth_error ss (slot me i) = Some (tRecv p s) ->
    ~ In (short p) (map fst E) ->
    performs E G roles me (put ss (slot me i) s) st tr ->
    performs E G roles me ss (Node [] r [st]) (In_ i p :: tr)
| pf_offer : forall ss r stl str k l ls lst ln rgt rs rst rn c tr,
    nth_error ss k = Some (tRecv (tEither (Node [] l (ls ++ [lst; ln]))
                                          (Node [] rgt (rs ++ [rst; rn]))) tEnd) ->
    c = (ls, lst) \/ c = (rs, rst) ->
    performs E G roles me (fst c) (snd c) tr ->
    performs E G roles me ss (Node [] r [stl; str]) tr
| pf_choose : forall ss r stl str dl dr c tr,
    Forall2 (fun i_s d => exists l ls lst ln rgt,
               snd i_s = tSend (tEither (Node [] l (ls ++ [lst; ln])) rgt) tEnd /\
               exists s, nth_error ls (slot (fst i_s) me) = Some s /\ dual_of s d)
      (combine (filter (fun i => negb (i =? me)%nat) (seq 0 (length roles))) ss) dl ->
    Forall2 (fun i_s d => exists lft r' rs rst rn,
               snd i_s = tSend (tEither lft (Node [] r' (rs ++ [rst; rn]))) tEnd /\
               exists s, nth_error rs (slot (fst i_s) me) = Some s /\ dual_of s d)
      (combine (filter (fun i => negb (i =? me)%nat) (seq 0 (length roles))) ss) dr ->
    c = (dl, stl) \/ c = (dr, str) ->
    performs E G roles me (fst c) (snd c) tr ->
    performs E G roles me ss (Node [] r [stl; str]) tr
| pf_enum : forall ss st alts k ls lst tr,
    unfolds E G roles me (ss, st) alts -> In (k, (ls, lst)) alts ->
    performs E G roles me ls lst tr ->
    performs E G roles me ss st tr.

(** Two variants of the same line. *)
Definition together (G : line_table) (k k' : str) : Prop :=
  exists c vs, In (c, vs) G /\ In k (names_of vs) /\ In k' (names_of vs).

(** Where the choices with enums are.  [old] are the choices entered before,
    [top] is [None] right after a message (or at the start), and otherwise the
    choice entered after the last message, if it is one with enums.  A choice
    with enums comes at the start or right after a message, unless it is the
    very choice entered after the last message.  Its variants are on other
    lines than those of the choices entered before, and variants of the same
    line go on in the same way. *)
Inductive guarded (E : enum_table) (G : line_table) (roles : list str) (me : nat)
  : list alternatives -> option (option alternatives) -> config -> Prop :=
| gd_end : forall old top ss,
    Forall (eq tEnd) ss -> S (length ss) = length roles ->
    guarded E G roles me old top (ss, tRoleEnd)
| gd_send : forall old top ss st i r p s,
    nth_error roles i = Some r -> i <> me ->
    nth_error ss (slot me i) = Some (tSend p s) ->
    guarded E G roles me old None (put ss (slot me i) s, st) ->
    guarded E G roles me old top (ss, Node [] r [st])
| gd_recv : forall old top ss st i r p s,
    nth_error roles i = Some r -> i <> me ->
    nth_error ss (slot me i) = Some (tRecv p s) ->
    ~ In (short p) (map fst E) ->
    guarded E G roles me old None (put ss (slot me i) s, st) ->
    guarded E G roles me old top (ss, Node [] r [st])
| gd_offer : forall old top ss r stl str k l ls lst ln rgt rs rst rn,
    S (length ss) = length roles ->
    nth_error ss k = Some (tRecv (tEither (Node [] l (ls ++ [lst; ln]))
                                          (Node [] rgt (rs ++ [rst; rn]))) tEnd) ->
    (forall j, j <> k -> forall s, nth_error ss j = Some s -> s = tEnd) ->
    guarded E G roles me old (Some match top with Some k => k | None => None end) (ls, lst) ->
    guarded E G roles me old (Some match top with Some k => k | None => None end) (rs, rst) ->
    guarded E G roles me old top (ss, Node [] r [stl; str])
| gd_choose : forall old top ss r stl str dl dr,
    ss <> [] -> S (length ss) = length roles ->
    Forall2 (fun i_s d => exists l ls lst nm a rgt,
               snd i_s = tSend (tEither (Node [] l (ls ++ [lst; Node [] nm a])) rgt) tEnd /\
               nth_error roles (fst i_s) = Some nm /\
               exists s, nth_error ls (slot (fst i_s) me) = Some s /\ dual_of s d)
      (combine (filter (fun i => negb (i =? me)%nat) (seq 0 (length roles))) ss) dl ->
    Forall2 (fun i_s d => exists lft r' rs rst rn,
               snd i_s = tSend (tEither lft (Node [] r' (rs ++ [rst; rn]))) tEnd /\
               exists s, nth_error rs (slot (fst i_s) me) = Some s /\ dual_of s d)
      (combine (filter (fun i => negb (i =? me)%nat) (seq 0 (length roles))) ss) dr ->
    guarded E G roles me old (Some match top with Some k => k | None => None end) (dl, stl) ->
    guarded E G roles me old (Some match top with Some k => k | None => None end) (dr, str) ->
    guarded E G roles me old top (ss, Node [] r [stl; str])
| gd_new : forall old c alts,
    unfolds E G roles me c alts ->
    (forall o a b, In o old -> In a alts -> In b o -> ~ together G (fst a) (fst b)) ->
    (forall a b, In a alts -> In b alts -> together G (fst a) (fst b) -> snd a = snd b) ->
    (forall a, In a alts -> guarded E G roles me (alts :: old) (Some (Some alts)) (snd a)) ->
    guarded E G roles me old None c
| gd_again : forall old top c alts,
    unfolds E G roles me c alts -> alts <> [] ->
    (top = None /\ In alts old \/ top = Some (Some alts)) ->
    guarded E G roles me old top c.

(** Every enum is given once, every variant is on one line, every name once. *)
Record well_listed (E : enum_table) (G : line_table) : Prop := {
  wl_enums : NoDup (map fst E);
  wl_lines : NoDup (names_of (concat (map snd G)));
  wl_all : forall e vs b v, In (e, vs) E -> In (b, v) vs -> In (e, b) (concat (map snd G))
}.

(** ** Graphs with silent edges *)

Inductive silent_walk {L : Type} (mu : L) (T : list (nat * L * nat)) : nat -> list L -> Prop :=
| sw_stop : forall a, silent_walk mu T a []
| sw_step : forall a l b ls, In (a, l, b) T -> l <> mu ->
    silent_walk mu T b ls -> silent_walk mu T a (l :: ls)
| sw_skip : forall a b ls, In (a, mu, b) T -> silent_walk mu T b ls -> silent_walk mu T a ls.

(** The texts seen along a graph from its first node, without the marks
    "µ" of the loops. *)
Definition shows (g : graph) (l : list str) : Prop :=
  silent_walk (lit "µ") (map (fun e => (fst (fst e), snd e, snd (fst e))) (edges g)) 0 l.

(** ** What the checker is given *)

(** The texts of a configuration, followed by [k] others (the name of the
    role). *)
Definition written (c : config) (k : nat) (l : list str) : Prop :=
  exists extra, length extra = k /\ l = map short (fst c) ++ [short (snd c)] ++ extra.

(** The tables of enums and lines as the maps of aux_checker.rs:268-272. *)
Record given (E : enum_table) (G : line_table) (branches_receivers : hmap (hmap (list str)))
    (branching_sessions : hmap (list str)) (group_branches : hmap Z) : Prop := {
  gv_enums : forall e vs, In (e, vs) E -> exists m vs', hget branches_receivers e = Some m /\
    Permutation vs vs' /\
    Forall2 (fun b y => fst y = fst b /\ written (snd b) 2 (snd y)) vs' m;
  gv_only : forall e, ~ In e (map fst E) -> hget branches_receivers e = None;
  gv_lines : forall c vs v, In (c, vs) G -> In v (names_of vs) ->
    exists l, hget branching_sessions v = Some l /\ written c 1 l;
  gv_groups : forall k i, In (k, i) group_branches <->
    exists n c vs, i = Z.of_nat n /\ nth_error G n = Some (c, vs) /\ In k (names_of vs)
}.

(** All the types are without paths and without [NameX]. *)
Definition tidy_config (c : config) : Prop := Forall tidy (fst c) /\ tidy (snd c).
Definition tidy_tables (E : enum_table) (G : line_table) : Prop :=
  (forall e vs b v, In (e, vs) E -> In (b, v) vs -> tidy_config v) /\
  (forall c vs, In (c, vs) G -> tidy_config c).

(** ** The lines of the macro *)

(** Type [t] is an endpoint with these sessions and this stack. *)
Definition endpoint (N : list str) (t : ty) (c : config) : Prop :=
  wordy t /\ paths_apart t /\
  exists mc r a, plain N t (Node [] mc (fst c ++ [snd c; Node [] r a])).

(** The enums and the lines of the tables are those given to the macro:
    [carried e b] is the type carried by variant [b] of enum [e]. *)
Record declared (N : list str) (carried : str -> str -> ty) (lines : list (ty * list (str * str)))
    (E : enum_table) (G : line_table) : Prop := {
  dc_lines : Forall2 (fun l e => snd l = snd e /\ endpoint N (fst l) (fst e)) lines G;
  dc_enums : forall e, In e (map fst E) <-> In e (map fst (concat (map snd lines)));
  dc_branches : forall e vs, In (e, vs) E ->
    NoDup (map fst vs) /\
    forall b, In b (map fst vs) <-> In (e, b) (concat (map snd lines));
  dc_carried : forall e vs b c, In (e, vs) E -> In (b, c) vs ->
    endpoint N (carried e b) c /\
    ~ named (match carried e b with Node path name _ => full_head path name end)
}.
