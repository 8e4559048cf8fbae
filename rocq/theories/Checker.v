(** * The bottom-up checker

    Model of src/checking/aux_checker.rs and of [checker] and [kmc_cli] in
    src/checking/mod.rs.  Everything works on text, as the code does: a text
    is a list of (ASCII) characters.  Not modelled: the files themselves (the
    lines written to [cfsm/NAME.txt] are part of the result), the KMC program
    (an argument that answers for every bound), characters outside ASCII. *)

From Coq Require Import Ascii String DecimalString ZArith Lia Bool List.
Import ListNotations.

(** A Rust [String] restricted to ASCII (aux_checker.rs:15-16). *)
Definition str := list ascii.

(** A literal (aux_checker.rs:47, 66). *)
Definition lit (s : string) : str := list_ascii_of_string s.

(** What a function that may panic gives: a value, a panic (index out of
    range, [panic!]), or no answer within the given number of recursive
    calls (aux_checker.rs:340-341). *)
Inductive res (A : Type) : Type :=
| Ok (a : A)
| Panics
| Unfinished.
Arguments Ok {A} a.
Arguments Panics {A}.
Arguments Unfinished {A}.

(** The [?] operator and the implicit unwinding of a panic (aux_checker.rs:340-341). *)
Definition bind {A B} (m : res A) (f : A -> res B) : res B :=
  match m with Ok a => f a | Panics => Panics | Unfinished => Unfinished end.

Notation "x <- m ;; k" := (bind m (fun x => k))
  (at level 61, m at next level, right associativity).
Notation "' p <- m ;; k" := (bind m (fun p => k))
  (at level 61, p pattern, m at next level, right associativity).

(** [v[i]]: a panic when out of range (aux_checker.rs:47). *)
Definition at_ {A} (v : list A) (i : nat) : res A :=
  match nth_error v i with Some a => Ok a | None => Panics end.

(** Equality of texts (aux_checker.rs:328). *)
Definition seqb (a b : str) : bool :=
  if list_eq_dec ascii_dec a b then true else false.

(** [char::is_whitespace] and the regular expression class [\s], on ASCII (aux_checker.rs:47, 66). *)
Definition is_space (c : ascii) : bool :=
  let n := nat_of_ascii c in (n =? 32)%nat || ((9 <=? n)%nat && (n <=? 13)%nat).

(** [[:alpha:]], on ASCII (aux_checker.rs:55). *)
Definition is_alpha (c : ascii) : bool :=
  let n := nat_of_ascii c in
  ((65 <=? n)%nat && (n <=? 90)%nat) || ((97 <=? n)%nat && (n <=? 122)%nat).

(** The characters outside of [[^<,>\s]] (aux_checker.rs:47). *)
Definition is_sep (c : ascii) : bool :=
  Ascii.eqb c "<" || Ascii.eqb c "," || Ascii.eqb c ">" || is_space c.

(** [s] starts with [p]; the rest (aux_checker.rs:47). *)
Fixpoint strip (p s : str) : option str :=
  match p, s with
  | [], _ => Some s
  | a :: p', b :: s' => if Ascii.eqb a b then strip p' s' else None
  | _ :: _, [] => None
  end.

(** [str::replace]: every occurrence, from left to right, without overlap
    (aux_checker.rs:51, 62).  [fuel] is the length of the text.  The pattern
    is never empty in the code. *)
Fixpoint replace_fuel (fuel : nat) (p r s : str) : str :=
  match fuel with
  | O => s
  | S fuel' =>
      match s with
      | [] => []
      | c :: s' =>
          match strip p s with
          | Some rest => r ++ replace_fuel fuel' p r rest
          | None => c :: replace_fuel fuel' p r s'
          end
      end
  end.
Definition replace (p r s : str) : str := replace_fuel (S (length s)) p r s.

(** The maximal runs of characters accepted by [f], in order (aux_checker.rs:47, 66). *)
Fixpoint runs (f : ascii -> bool) (cur s : str) : list str :=
  match s with
  | [] => match cur with [] => [] | _ => [rev cur] end
  | c :: s' =>
      if f c then runs f (c :: cur) s'
      else match cur with [] => runs f [] s' | _ => rev cur :: runs f [] s' end
  end.

(** What follows the last "::" that has something before it and something
    after it: the second group of [([^<,>\s]+)::([^<,>\s]+)] when the
    expression is matched at the start of a maximal run.  [first] is true on
    the first character of the run (aux_checker.rs:47). *)
Fixpoint after_colons (first : bool) (s : str) : option str :=
  match s with
  | [] => None
  | c :: s' =>
      match after_colons false s' with
      | Some r => Some r
      | None =>
          if first then None
          else match s with
               | a :: b :: (d :: r) =>
                   if Ascii.eqb a ":" && Ascii.eqb b ":" then Some (d :: r) else None
               | _ => None
               end
      end
  end.

(** The matches of the first regular expression (aux_checker.rs:47-50): the
    whole match and its last group.  A match is always a whole maximal run of
    non separators, because both groups are greedy. *)
Definition colon_captures (s : str) : list (str * str) :=
  flat_map
    (fun t => match after_colons true t with Some r => [(t, r)] | None => [] end)
    (runs (fun c => negb (is_sep c)) [] s).

(** The longest prefix of letters (aux_checker.rs:55). *)
Fixpoint letters (s : str) : str :=
  match s with
  | c :: s' => if is_alpha c then c :: letters s' else []
  | [] => []
  end.

(** The matches of [Name([[:alpha:]]+)] (aux_checker.rs:55-60): the group.
    [fuel] is the length of the text. *)
Fixpoint name_captures (fuel : nat) (s : str) : list str :=
  match fuel with
  | O => []
  | S fuel' =>
      match s with
      | [] => []
      | _ :: s' =>
          match strip (lit "Name") s with
          | Some rest =>
              match letters rest with
              | [] => name_captures fuel' s'
              | l => l :: name_captures fuel' (skipn (length l) rest)
              end
          | None => name_captures fuel' s'
          end
      end
  end.

(** The state of the loop of [get_blocks]: the fields found, the current
    field, the depth (aux_checker.rs:155-159). *)
Record bstate : Type := BState { b_result : list str; b_temp : str; b_index : Z }.

(** One character (aux_checker.rs:161-182). *)
Definition block_char (st : bstate) (i : ascii) : bstate :=
  let 'BState result temp index := st in
  if Ascii.eqb i "&" || is_space i then st
  else if Ascii.eqb i ">" && Z.eqb index 0 then BState (result ++ [temp]) [] index
  else if Ascii.eqb i "<" && Z.leb 0 index then BState result (temp ++ [i]) (index + 1)
  else if Ascii.eqb i ">" && Z.leb 0 index then BState result (temp ++ [i]) (index - 1)
  else if Ascii.eqb i "," && Z.eqb index 0 then BState (result ++ [temp]) [] index
  else if Z.leb 0 index then BState result (temp ++ [i]) index
  else if Ascii.eqb i "<" then BState result temp (index + 1)
  else if Ascii.eqb i ">" then BState result temp (index - 1)
  else st.

(** [get_blocks] (aux_checker.rs:154-192). *)
Definition get_blocks (full_block : str) : list str :=
  let 'BState result temp _ := fold_left block_char full_block (BState [] [] (-1)) in
  match temp with
  | [] => result
  | _ => result ++ [removelast temp]
  end.

(** [full_block.split('<').collect()[0]] (aux_checker.rs:204). *)
Fixpoint before_angle (s : str) : str :=
  match s with
  | c :: s' => if Ascii.eqb c "<" then [] else c :: before_angle s'
  | [] => []
  end.

(** [get_head_payload_continuation] (aux_checker.rs:196-209). *)
Definition get_hpc (full_block : str) : list str :=
  if seqb full_block (lit "End") then [lit "End"]
  else if seqb full_block (lit "RoleEnd") then [lit "RoleEnd"]
  else before_angle full_block :: get_blocks full_block.

(** [clean_session] (aux_checker.rs:43-82). *)
Definition clean_session (session : str) : res (list str) :=
  let double_colon_less :=
    fold_left (fun d cap => replace (fst cap) (snd cap) d)
      (colon_captures session)
      (filter (fun c => negb (Ascii.eqb c "&")) session) in
  let name_to_role :=
    fold_left
      (fun d cap => replace (lit "Name" ++ cap) (lit "Role" ++ cap ++ lit "<RoleEnd>") d)
      (name_captures (length double_colon_less) double_colon_less)
      double_colon_less in
  let full_block := get_blocks (filter (fun c => negb (is_space c)) name_to_role) in
  match rev full_block with
  | [] => Panics
  | name :: _ =>
      match runs (fun c => negb (Ascii.eqb c "<" || Ascii.eqb c ">")) [] name with
      | [] => Panics
      | n :: _ => Ok (full_block ++ [n])
      end
  end.

(** [v[..(v.len() - k)]] (aux_checker.rs:120, 299, 374, 396, 565, 716). *)
Definition upto {A} (k : nat) (v : list A) : res (list A) :=
  if (k <=? length v)%nat then Ok (firstn (length v - k) v) else Panics.

(** Decimal digits of a [usize] (aux_checker.rs:278, 483). *)
Definition num (n : nat) : str :=
  lit (DecimalString.NilEmpty.string_of_uint (Nat.to_uint n)).

(** [extract_index_node] (aux_checker.rs:215-233). *)
Definition extract_index_node (index_node : list nat) (depth_level : nat) : res str :=
  if (length index_node <? depth_level)%nat then Panics
  else
    match index_node with
    | [] => Panics
    | [a] => Ok (num a)
    | a :: rest =>
        if (length rest <? depth_level)%nat then Panics
        else Ok (fold_left (fun s n => s ++ lit "." ++ num n) (firstn depth_level rest) (num a))
    end.

(** [build_dual] (aux_checker.rs:237-256).  [fuel] bounds the recursion; the
    length of the text is enough. *)
Fixpoint build_dual (fuel : nat) (session : str) : res str :=
  match fuel with
  | O => Unfinished
  | S fuel' =>
      if seqb session (lit "End") then Ok session
      else
        let all_fields := get_hpc session in
        h <- at_ all_fields 0;;
        if seqb h (lit "Recv") then
          p <- at_ all_fields 1;;
          c <- at_ all_fields 2;;
          d <- build_dual fuel' c;;
          Ok (lit "Send<" ++ p ++ lit "," ++ d ++ lit ">")
        else if seqb h (lit "Send") then
          p <- at_ all_fields 1;;
          c <- at_ all_fields 2;;
          d <- build_dual fuel' c;;
          Ok (lit "Recv<" ++ p ++ lit "," ++ d ++ lit ">")
        else Panics
  end.

(** A petgraph [Graph<String, String>]: node weights (a node index is its
    position), and edges with source, target and weight, in the order of
    insertion (aux_checker.rs:16). *)
Record graph : Type := Graph { nodes : list str; edges : list (nat * nat * str) }.

(** [add_node]: the new graph and the index of the node (aux_checker.rs:278, 483, 606, 792). *)
Definition add_node (g : graph) (w : str) : graph * nat :=
  (Graph (nodes g ++ [w]) (edges g), length (nodes g)).

(** [add_edge] (aux_checker.rs:279, 487, 538, 608, 697). *)
Definition add_edge (g : graph) (a b : nat) (w : str) : graph :=
  Graph (nodes g) (edges g ++ [(a, b, w)]).

(** [contains_edge] (aux_checker.rs:535, 696). *)
Definition contains_edge (g : graph) (a b : nat) : bool :=
  existsb (fun e => (fst (fst e) =? a)%nat && (snd (fst e) =? b)%nat) (edges g).

(** [VecOfTuple]: the text of a transition and its target
    (aux_checker.rs:17). *)
Definition cfsm := list (str * nat).

(** A [HashMap<String, _>]: the first binding of a key counts, [insert] puts a
    binding in front (aux_checker.rs:15, 270-273). *)
Definition hmap (A : Type) := list (str * A).

Fixpoint hget {A} (m : hmap A) (k : str) : option A :=
  match m with
  | (k', a) :: m' => if seqb k' k then Some a else hget m' k
  | [] => None
  end.

(** The order of [String]: by bytes, then by length (aux_checker.rs:130, 528-529, 692). *)
Fixpoint str_le (a b : str) : bool :=
  match a, b with
  | [], _ => true
  | _ :: _, [] => false
  | x :: a', y :: b' =>
      if (nat_of_ascii x <? nat_of_ascii y)%nat then true
      else if (nat_of_ascii y <? nat_of_ascii x)%nat then false
      else str_le a' b'
  end.

(** [sort] on texts, or on pairs with distinct first components (aux_checker.rs:130, 528-529, 692). *)
Fixpoint insert_by {A} (key : A -> str) (x : A) (l : list A) : list A :=
  match l with
  | [] => [x]
  | y :: l' => if str_le (key x) (key y) then x :: l else y :: insert_by key x l'
  end.
Definition sort_by {A} (key : A -> str) (l : list A) : list A :=
  fold_right (insert_by key) [] l.

(** [roles.iter().position(|r| r == x)] (aux_checker.rs:328, 459, 800, mod.rs:368). *)
Fixpoint position (roles : list str) (x : str) : option nat :=
  match roles with
  | [] => None
  | r :: roles' => if seqb r x then Some O else option_map S (position roles' x)
  end.

(** [v[i] = x]: a panic when out of range (aux_checker.rs:459, 800). *)
Fixpoint set_at {A} (v : list A) (i : nat) (x : A) : res (list A) :=
  match v, i with
  | [], _ => Panics
  | _ :: v', O => Ok (x :: v')
  | a :: v', S i' => v'' <- set_at v' i' x;; Ok (a :: v'')
  end.

(** The payload's two sessions: [payload_either], then [choices]
    (aux_checker.rs:314-317, 364-367): [Either], left, right. *)
Definition either_of (session : str) : res (str * str) :=
  payload_either <- at_ (get_hpc session) 1;;
  l <- at_ (get_hpc payload_either) 1;;
  r <- at_ (get_hpc payload_either) 2;;
  Ok (l, r).

(** What the first loop of a simple choice has found
    (aux_checker.rs:292-297). *)
Record found : Type := Found
  { number_of_send : nat; number_of_recv : nat; pos_recv : nat;
    choice_left : list str; choice_right : list str }.

(** The loop over the sessions of a simple choice (aux_checker.rs:299-348),
    [pos] is the position of the first of [sessions]. *)
Fixpoint scan_choice (roles : list str) (index_current_role : nat)
    (pos : nat) (sessions : list str) (f : found) : res found :=
  match sessions with
  | [] => Ok f
  | session :: rest =>
      h <- at_ (get_hpc session) 0;;
      if seqb h (lit "Send") && (number_of_recv f =? 0)%nat && (number_of_send f =? pos)%nat then
        '(l, r) <- either_of session;;
        let blocks_left := get_blocks l in
        let blocks_right := get_blocks r in
        last_left <- match rev blocks_left with [] => Panics | x :: _ => Ok x end;;
        receiver <- at_ (get_hpc last_left) 0;;
        match position roles receiver with
        | None => Panics
        | Some index_receiver =>
            let i := if (index_receiver <? index_current_role)%nat
                     then (index_current_role - 1)%nat else index_current_role in
            bl <- at_ blocks_left i;;
            dl <- build_dual (S (length bl)) bl;;
            br <- at_ blocks_right i;;
            dr <- build_dual (S (length br)) br;;
            scan_choice roles index_current_role (S pos) rest
              (Found (S (number_of_send f)) (number_of_recv f) (pos_recv f)
                 (choice_left f ++ [dl]) (choice_right f ++ [dr]))
        end
      else if seqb h (lit "Recv") && (number_of_send f =? 0)%nat && (number_of_recv f =? 0)%nat then
        scan_choice roles index_current_role (S pos) rest
          (Found (number_of_send f) (S (number_of_recv f)) pos (choice_left f) (choice_right f))
      else if seqb h (lit "End") && (number_of_send f =? 0)%nat then
        scan_choice roles index_current_role (S pos) rest f
      else Panics
  end.

(** The loop over the sessions of a broadcast (aux_checker.rs:661-688). *)
Fixpoint scan_broadcast (branches_receivers : hmap (hmap (list str)))
    (pos number_of_send : nat) (sessions : list str) (all : list str) : res (list str) :=
  match sessions with
  | [] => Ok all
  | session :: rest =>
      h <- at_ (get_hpc session) 0;;
      if seqb h (lit "Send") && (number_of_send =? pos)%nat then
        payload <- at_ (get_hpc session) 1;;
        match hget branches_receivers payload with
        | None => Panics
        | Some choice =>
            scan_broadcast branches_receivers (S pos) (S number_of_send) rest
              (all ++ map (fun b => payload ++ lit "::" ++ fst b) choice)
        end
      else Panics
  end.

(** The last transition now leads to [n] (aux_checker.rs:540-542). *)
Definition redirect (c : cfsm) (n : nat) : cfsm :=
  match rev c with
  | [] => []
  | e :: c' => rev c' ++ [(fst e, n)]
  end.

(** A branch already seen (aux_checker.rs:534-543, 695-702). *)
Definition seen_branch (g : graph) (c : cfsm) (previous_node new_node : nat) : graph * cfsm :=
  if negb (contains_edge g previous_node new_node) && negb (previous_node =? new_node)%nat
  then (add_edge g previous_node new_node (lit "µ"), redirect c new_node)
  else (g, c).

(** The branches of the group of [b] now lead to [n] (aux_checker.rs:584-596,
    749-760). *)
Definition mark_group (group_branches : hmap Z) (seen : hmap nat) (b : str) (n : nat)
  : res (hmap nat) :=
  match hget group_branches b with
  | None => Panics
  | Some index =>
      Ok (map (fun e => (fst e, n)) (filter (fun e => Z.eqb (snd e) index) group_branches)
            ++ seen)
  end.

Section Graph.
  (** The arguments that never change (aux_checker.rs:261-273). *)
  Variable current_role : str.
  Variable roles : list str.
  Variable compare_end : list str.
  Variable index_current_role : nat.
  Variable branches_receivers : hmap (hmap (list str)).
  Variable branching_sessions : hmap (list str).
  Variable group_branches : hmap Z.

  (** The loop over the branches of an enum, received (aux_checker.rs:533-598)
      or broadcast (aux_checker.rs:694-762).  [rec] is the recursive call. *)
  Fixpoint branch_loop
      (rec : list str -> list nat -> nat -> hmap nat -> graph -> cfsm -> res (graph * cfsm))
      (names : list str)
      (previous_node : nat)
      (all : list (str * res (list str)))
      (index_node : list nat) (depth_level : nat) (node_added : bool)
      (seen : hmap nat) (g : graph) (c : cfsm) : res (graph * cfsm) :=
    match all with
    | [] => Ok (g, c)
    | (current_branch, session) :: rest =>
        match hget seen current_branch with
        | Some new_node =>
            let '(g', c') := seen_branch g c previous_node new_node in
            branch_loop rec names previous_node rest index_node depth_level node_added seen g' c'
        | None =>
            let index_node' := if node_added then index_node else index_node ++ [0%nat] in
            let depth_level' := if node_added then depth_level else S depth_level in
            session' <- session;;
            '(g', c') <- rec session' index_node' depth_level'
                           (map (fun b => (b, previous_node)) names ++ seen) g c;;
            seen' <- mark_group group_branches seen current_branch previous_node;;
            branch_loop rec names previous_node rest index_node' depth_level' true seen' g' c'
        end
    end.

  (** [aux_get_graph] (aux_checker.rs:260-773). *)
  Fixpoint aux_get_graph (fuel : nat) (full_session : list str) (index_node : list nat)
      (previous_node : nat) (depth_level : nat) (seen : hmap nat) (g : graph) (c : cfsm)
      : res (graph * cfsm) :=
    match fuel with
    | O => Unfinished
    | S fuel' =>
        if (if list_eq_dec (list_eq_dec ascii_dec) compare_end full_session
            then true else false) then
          (* 277-281 *)
          k <- at_ index_node depth_level;;
          index_node' <- set_at index_node depth_level (S k);;
          w <- extract_index_node index_node' depth_level;;
          let '(g1, new_node) := add_node g w in
          Ok (add_edge g1 previous_node new_node (lit "0"), c)
        else
          match rev full_session with
          | [] => Panics
          | full_stack :: rev_sessions =>
              let sessions := rev rev_sessions in
              let stack := get_hpc full_stack in
              match stack with
              | [_; stack_left; stack_right] =>
                  (* a simple choice: 289-453 *)
                  f <- scan_choice roles index_current_role 0 sessions (Found 0 0 0 [] []);;
                  if (number_of_recv f =? 0)%nat && (number_of_send f =? 0)%nat then Panics
                  else
                    let index_node' := index_node ++ [0%nat] in
                    let depth_level' := S depth_level in
                    if (number_of_recv f =? 1)%nat then
                      (* the passive role: 360-409 *)
                      s <- at_ sessions (pos_recv f);;
                      '(l, r) <- either_of s;;
                      offer_left <- clean_session l;;
                      left <- upto 2 offer_left;;
                      '(g', c') <- aux_get_graph fuel' left index_node' previous_node
                                     depth_level' seen g c;;
                      offer_right <- clean_session r;;
                      right <- upto 2 offer_right;;
                      aux_get_graph fuel' right index_node' previous_node depth_level' seen g' c'
                    else
                      (* the active role: 410-453 *)
                      '(g', c') <- aux_get_graph fuel' (choice_left f ++ [stack_left]) index_node'
                                     previous_node depth_level' seen g c;;
                      aux_get_graph fuel' (choice_right f ++ [stack_right]) index_node'
                        previous_node depth_level' seen g' c'
              | [head_stack; next_stack] =>
                  (* a simple interaction: 454-652 *)
                  match position roles head_stack with
                  | None => Panics
                  | Some index_head =>
                      let i := if (index_current_role <? index_head)%nat
                               then (index_head - 1)%nat else index_head in
                      running <- at_ full_session i;;
                      let running_session := get_hpc running in
                      h <- at_ running_session 0;;
                      let message (mark : str) (sign : str) :=
                        p <- at_ running_session 1;;
                        k <- at_ index_node depth_level;;
                        index_node' <- set_at index_node depth_level (S k);;
                        w <- extract_index_node index_node' depth_level;;
                        let '(g1, new_node) := add_node g w in
                        let g2 := add_edge g1 previous_node new_node
                                    (current_role ++ sign ++ head_stack ++ lit ": " ++ p) in
                        let c' := c ++ [(current_role ++ num previous_node ++ lit " "
                                          ++ num index_head ++ mark ++ p ++ lit " "
                                          ++ current_role, new_node)] in
                        next <- at_ running_session 2;;
                        full1 <- set_at full_session i next;;
                        full2 <- set_at full1 (length full_session - 1) next_stack;;
                        aux_get_graph fuel' full2 index_node' new_node depth_level seen g2 c' in
                      if seqb h (lit "Send") then message (lit " ! ") (lit "!")
                      else if seqb h (lit "Recv") then
                        p <- at_ running_session 1;;
                        match hget branches_receivers p with
                        | Some choice =>
                            (* receive a recursive choice: 514-600 *)
                            let all := sort_by fst
                              (map (fun b => (p ++ lit "::" ++ fst b, upto 2 (snd b))) choice) in
                            branch_loop
                              (fun s ix d seen' g' c' =>
                                 aux_get_graph fuel' s ix previous_node d seen' g' c')
                              (map fst all) previous_node all index_node depth_level false seen g c
                        | None => message (lit " ? ") (lit "?")
                        end
                      else Panics
                  end
              | [b] =>
                  if seqb b (lit "RoleBroadcast") then
                    (* a broadcasting role: 653-764 *)
                    all <- scan_broadcast branches_receivers 0 0 sessions [];;
                    let names := sort_by (fun b => b) all in
                    branch_loop
                      (fun s ix d seen' g' c' =>
                         aux_get_graph fuel' s ix previous_node d seen' g' c')
                      names previous_node
                      (map (fun b => (b, match hget branching_sessions b with
                                         | Some s => upto 1 s
                                         | None => Panics
                                         end)) names)
                      index_node depth_level false seen g c
                  else Panics
              | _ => Panics
              end
          end
    end.
End Graph.

(** [get_graph_session] (aux_checker.rs:777-852). *)
Definition get_graph_session (fuel : nat) (current_role : str) (full_session : list str)
    (roles : list str) (branches_receivers : hmap (hmap (list str)))
    (branching_sessions : hmap (list str)) (group_branches : hmap Z)
    : res (graph * list str) :=
  match position roles current_role with
  | None => Panics
  | Some index_current_role =>
      let '(g, previous_node) := add_node (Graph [] []) (num 0) in
      let compare_end := repeat (lit "End") (length full_session - 1) ++ [lit "RoleEnd"] in
      '(result, c) <- aux_get_graph current_role roles compare_end index_current_role
                        branches_receivers branching_sessions group_branches
                        fuel full_session [0%nat] previous_node 0 [] g [];;
      Ok (result,
          [lit ".outputs"; lit ".state graph"]
            ++ map (fun e => fst e ++ num (snd e)) c
            ++ [lit ".marking " ++ current_role ++ lit "0"; lit ".end"])
  end.

(** [dedup] on a sorted list (aux_checker.rs:133). *)
Fixpoint dedup (l : list str) : list str :=
  match l with
  | a :: l' => match dedup l' with
               | b :: r => if seqb a b then b :: r else a :: b :: r
               | [] => [a]
               end
  | [] => []
  end.

(** The loop of [clean_sessions] (aux_checker.rs:105-122): the sessions found,
    the roles, the number of fields of the last one. *)
Fixpoint clean_loop (sessions : list str) (all : hmap (list str)) (roles : list str)
    (size : nat) : res (hmap (list str) * list str * nat) :=
  match sessions with
  | [] => Ok (all, roles, size)
  | session :: rest =>
      full_block <- clean_session session;;
      match rev full_block with
      | [] => Panics
      | name :: _ =>
          fields <- upto 2 full_block;;
          clean_loop rest ((name, fields) :: all) (roles ++ [name]) (length full_block - 2)
      end
  end.

(** [clean_sessions] (aux_checker.rs:91-136). *)
Definition clean_sessions (sessions : list str) : res (hmap (list str) * list str) :=
  '(all, roles, size) <- clean_loop sessions [] [] 0;;
  if negb (length roles =? size)%nat then Panics
  else Ok (all, dedup (sort_by (fun r => r) roles)).

(** What the KMC program answers for a bound: [kmc_cli] (mod.rs:258-295) gives
    an error, or says whether the output contains "False". *)
Inductive kmc_answer : Type := Accepts | Rejects | Fails.

(** The loop on the bound (mod.rs:386-389); [fuel] counts down from 50. *)
Fixpoint kmc_loop (kmc : nat -> kmc_answer) (fuel : nat) (kmc_number : nat)
    (accepted : bool) : option nat :=
  match fuel with
  | O => Some kmc_number
  | S fuel' =>
      if negb accepted && (kmc_number <? 50)%nat then
        match kmc (S kmc_number) with
        | Fails => None
        | Accepts => kmc_loop kmc fuel' (S kmc_number) true
        | Rejects => kmc_loop kmc fuel' (S kmc_number) false
        end
      else Some kmc_number
  end.

(** The bound returned by [checker] (mod.rs:383-399); [None]: an error is
    returned by [?]. *)
Definition kmc_bound (kmc : nat -> kmc_answer) : option (option nat) :=
  match kmc 1%nat with
  | Fails => None
  | first =>
      match kmc_loop kmc 50 1 (match first with Accepts => true | _ => false end) with
      | None => None
      | Some k => Some (if (k =? 50)%nat then None else Some k)
      end
  end.

(** The graphs of all the roles (mod.rs:354-371, 402-415): the graph and the
    lines written for the role.  A [HashMap] holds one session per role. *)
Fixpoint all_graphs (fuel : nat) (roles : list str) (todo : list str)
    (sessions : hmap (list str)) (branches_receivers : hmap (hmap (list str)))
    (branching_sessions : hmap (list str)) (group_branches : hmap Z)
    : res (list (str * (graph * list str))) :=
  match todo with
  | [] => Ok []
  | role :: rest =>
      match hget sessions role with
      | None => Panics
      | Some full_session =>
          gc <- get_graph_session fuel role full_session roles branches_receivers
                  branching_sessions group_branches;;
          others <- all_graphs fuel roles rest sessions branches_receivers
                      branching_sessions group_branches;;
          Ok ((role, gc) :: others)
      end
  end.

(** Every value of a map through [f] (src/checking/mod.rs:311-337). *)
Fixpoint hmapM {A B} (f : A -> res B) (m : hmap A) : res (hmap B) :=
  match m with
  | [] => Ok []
  | (k, a) :: m' => b <- f a;; r <- hmapM f m';; Ok ((k, b) :: r)
  end.

(** [checker] (mod.rs:299-418): the graphs, the lines of the file given to
    KMC (empty when there is no file name), the bound.  Simplified: the roles
    are treated in the order of their names, not in the order of the
    [HashMap]; the lines are sorted by role in the code as well, and the
    graphs are independent of each other. *)
Definition checker (fuel : nat) (with_file : bool) (sessions : list str)
    (branches_receivers : hmap (hmap str)) (branching_sessions : hmap str)
    (group_branches : hmap Z) (kmc : nat -> kmc_answer)
    : res (hmap graph * list str * option (option nat)) :=
  '(all, roles) <- clean_sessions sessions;;
  receivers <- hmapM (hmapM clean_session) branches_receivers;;
  branching <- hmapM (fun s => b <- clean_session s;; upto 1 b) branching_sessions;;
  graphs <- all_graphs fuel roles roles all receivers branching group_branches;;
  let result := map (fun e => (fst e, fst (snd e))) graphs in
  if with_file then
    Ok (result, flat_map (fun e => snd (snd e) ++ [[]]) graphs, kmc_bound kmc)
  else Ok (result, [], Some None).
