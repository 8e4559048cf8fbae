(** * Generation of Rust types from timed nuscr protocols

    Model of src/top_down_nuscr: generator.rs, auxiliary_objects/process_line.rs,
    line_is_message.rs, messages_and_stacks_update/*.rs, code_generate/*.rs.

    Here a line of the protocol comes already read by the regular expressions
    of regex_nuscr.rs (which of them matches, the captured fields, the number
    of opening and closing brackets); NuscrText.v reads the text of the lines.
    Simplified: [to_title_case] of the inflector crate is a parameter; the text written in the Rust file is kept
    as declarations (a name and what it stands for), names being texts. *)

From Coq Require Import Ascii String ZArith Bool List.
From Verif Require Import Checker.
Import ListNotations.

(** The result of a function: a value, [Err(..)], a panic, or no fuel left (process_line.rs:110-521). *)
Inductive gres (A : Type) : Type :=
| Fine (a : A)
| Error
| Panic
| More.
Arguments Fine {A} a. Arguments Error {A}. Arguments Panic {A}. Arguments More {A}.

Definition gbind {A B} (m : gres A) (k : A -> gres B) : gres B :=
  match m with Fine a => k a | Error => Error | Panic => Panic | More => More end.
Notation "'let*' p := m 'in' k" := (gbind m (fun p => k))
  (at level 200, p strict pattern, m at level 200, k at level 200, right associativity).

(** [Option::unwrap] (process_line.rs:396-398, sender_messages.rs:12-13). *)
Definition unwrap {A} (o : option A) : gres A :=
  match o with Some a => Fine a | None => Panic end.

(** [HashMap::insert] and [remove]; the order of the entries is never
    meaningful (previous_message_wrt_clocks.rs:13, 23). *)
Fixpoint hset {A} (k : str) (a : A) (m : hmap A) : hmap A :=
  match m with
  | (k', a') :: m' => if seqb k' k then (k', a) :: m' else (k', a') :: hset k a m'
  | [] => [(k, a)]
  end.
Definition hdel {A} (k : str) (m : hmap A) : hmap A := filter (fun e => negb (seqb (fst e) k)) m.

(** [HashSet::insert] (line_is_message.rs:62, 69, 98). *)
Definition sadd (x : str) (s : list str) : list str := if existsb (seqb x) s then s else s ++ [x].

(** A message line as read by [MESSAGE] and its variants
    (regex_nuscr.rs:15-29): the label, the payload, the roles, the window, the
    clock, the clock reset.  [li]: the left bracket is "[", [ri]: the right
    bracket is "]". *)
Record msg : Type := Msg {
  label : str;
  payload : option str;
  sender : str;
  receiver : str;
  li : bool;
  lb : str;
  rb : str;
  ri : bool;
  clock : str;
  reset : option str
}.

(** What a line is, in the order of the tests of process_line.rs:159-507. *)
Inductive kind : Type :=
| KGlobal (name : str) (roles : list str)
| KMessage (m : msg)
| KChoice (at_role : str)
| KOr
| KRec (loop : str)
| KContinue (loop : str)
| KOther.

(** A line: its brackets (process_line.rs:123-124), whether it is empty, what
    it is, and its text if [REC] matches it (regex_nuscr.rs:31): this test is
    made again, and first, when the saved lines are read
    (process_line.rs:396-398). *)
Record line : Type := Line {
  opens : nat;
  closes : nat;
  blank : bool;
  what : kind;
  rec_text : option str
}.

(** The right hand side of a type declaration: a timed session
    (sender_messages.rs:16-35, receiver_messages.rs:15-34,
    process_line.rs:256-288), a role of a stack (sender_stacks.rs:14-23), the
    broadcast (process_line.rs:310-311), or another name (sessions.rs:36,
    stacks.rs:30). *)
Inductive body : Type :=
| Timed (send : bool) (pay clk lo : str) (loi : bool) (hi : str) (hii : bool) (rst : str) (next : str)
| RoleOf (role : str) (next : str)
| Broadcast
| Alias (next : str).

Definition decl : Type := (str * body)%type.

(** [Tree] (auxiliary_objects/mod.rs:36-49). *)
Inductive tree : Type := Tree {
  index : list nat;
  messages_with_payloads : hmap str;
  messages : hmap (hmap (list decl));
  first_message : hmap (hmap str);
  previous : hmap (hmap (str * bool));
  last_message : hmap (hmap str);
  stacks : hmap (list decl);
  first_stack : hmap str;
  last_stack : hmap str;
  enums : hmap (str * nat);
  endpoints : hmap (list str);
  sub_trees : list tree
}.

(** Assignments to the fields of a tree
    (sender_messages.rs:16-46, sender_stacks.rs:14-32, process_line.rs:244-315, line_is_message.rs:99-101). *)
Definition set_payloads (t : tree) x := Tree (index t) x (messages t) (first_message t) (previous t)
  (last_message t) (stacks t) (first_stack t) (last_stack t) (enums t) (endpoints t) (sub_trees t).
Definition set_messages (t : tree) x := Tree (index t) (messages_with_payloads t) x (first_message t)
  (previous t) (last_message t) (stacks t) (first_stack t) (last_stack t) (enums t) (endpoints t)
  (sub_trees t).
Definition set_first_message (t : tree) x := Tree (index t) (messages_with_payloads t) (messages t) x
  (previous t) (last_message t) (stacks t) (first_stack t) (last_stack t) (enums t) (endpoints t)
  (sub_trees t).
Definition set_previous (t : tree) x := Tree (index t) (messages_with_payloads t) (messages t)
  (first_message t) x (last_message t) (stacks t) (first_stack t) (last_stack t) (enums t)
  (endpoints t) (sub_trees t).
Definition set_last_message (t : tree) x := Tree (index t) (messages_with_payloads t) (messages t)
  (first_message t) (previous t) x (stacks t) (first_stack t) (last_stack t) (enums t)
  (endpoints t) (sub_trees t).
Definition set_stacks (t : tree) x := Tree (index t) (messages_with_payloads t) (messages t)
  (first_message t) (previous t) (last_message t) x (first_stack t) (last_stack t) (enums t)
  (endpoints t) (sub_trees t).
Definition set_first_stack (t : tree) x := Tree (index t) (messages_with_payloads t) (messages t)
  (first_message t) (previous t) (last_message t) (stacks t) x (last_stack t) (enums t)
  (endpoints t) (sub_trees t).
Definition set_last_stack (t : tree) x := Tree (index t) (messages_with_payloads t) (messages t)
  (first_message t) (previous t) (last_message t) (stacks t) (first_stack t) x (enums t)
  (endpoints t) (sub_trees t).
Definition set_enums (t : tree) x := Tree (index t) (messages_with_payloads t) (messages t)
  (first_message t) (previous t) (last_message t) (stacks t) (first_stack t) (last_stack t) x
  (endpoints t) (sub_trees t).
Definition set_endpoints (t : tree) x := Tree (index t) (messages_with_payloads t) (messages t)
  (first_message t) (previous t) (last_message t) (stacks t) (first_stack t) (last_stack t) (enums t)
  x (sub_trees t).
Definition push_sub_tree (t : tree) x := Tree (index t) (messages_with_payloads t) (messages t)
  (first_message t) (previous t) (last_message t) (stacks t) (first_stack t) (last_stack t) (enums t)
  (endpoints t) (sub_trees t ++ [x]).

(** The trees of generator.rs:38-51, 69-82. *)
Definition empty_tree (ix : list nat) : tree := Tree ix [] [] [] [] [] [] [] [] [] [] [].

(** The indices joined by "_" (mod.rs:21-25 of messages_and_stacks_update,
    process_line.rs:224-235). *)
Fixpoint index_text (ix : list nat) : str :=
  match ix with
  | [] => []
  | [i] => num i
  | i :: ix' => num i ++ lit "_" ++ index_text ix'
  end.

(** "Message_{}_v_{}_From{}To{}" (sender_messages.rs:40-46, process_line.rs:29, 43). *)
Definition message_name (ix : str) (k : nat) (a b : str) : str :=
  lit "Message_" ++ ix ++ lit "_v_" ++ num k ++ lit "_From" ++ a ++ lit "To" ++ b.
(** "Ordering_{}_v_{}_For{}" (sender_stacks.rs:27-32, process_line.rs:93, 97). *)
Definition ordering_name (ix : str) (k : nat) (a : str) : str :=
  lit "Ordering_" ++ ix ++ lit "_v_" ++ num k ++ lit "_For" ++ a.
(** "Endpoint_{}_For{}" (process_line.rs:101). *)
Definition endpoint_name (ix : str) (a : str) : str := lit "Endpoint_" ++ ix ++ lit "_For" ++ a.
(** "Choice_{}_From{}To{}" (process_line.rs:258, enums.rs:36). *)
Definition choice_name (ix : str) (a b : str) : str :=
  lit "Choice_" ++ ix ++ lit "_From" ++ a ++ lit "To" ++ b.

(** [str::parse::<i32>] on digits (previous_message_wrt_clocks.rs:14-19). *)
Definition digit (c : ascii) : option Z :=
  let n := Z.of_nat (nat_of_ascii c) in
  if ((48 <=? n) && (n <=? 57))%Z then Some (n - 48)%Z else None.
Fixpoint digits (acc : Z) (s : str) : option Z :=
  match s with
  | [] => Some acc
  | c :: s' => match digit c with Some d => digits (10 * acc + d)%Z s' | None => None end
  end.
Definition number (s : str) : option Z := match s with [] => None | _ => digits 0 s end.
Definition parse_i32 (s : str) : gres Z :=
  match number s with
  | Some n => if (n <=? 2147483647)%Z then Fine n else Panic
  | None => Panic
  end.
(** [a + b as i32], which panics on overflow in debug builds (previous_message_wrt_clocks.rs:14-19). *)
Definition add_flag (n : Z) (b : bool) : gres Z :=
  let r := (n + (if b then 1 else 0))%Z in if (r <=? 2147483647)%Z then Fine r else Panic.

(** One half of [fn_previous_message_wrt_clocks]
    (previous_message_wrt_clocks.rs:12-52 for the sender, 54-94 for the
    receiver). *)
Definition previous_of (prev : hmap (hmap (str * bool))) (role : str) (m : msg)
  : gres (hmap (hmap (str * bool))) :=
  let new := (rb m, ri m) in
  match hget prev role with
  | None => Fine (hset role [(clock m, new)] prev)
  | Some bounds =>
      match hget bounds (clock m) with
      | None => Fine (hset role (hset (clock m) new bounds) prev)
      | Some old =>
          let* l0 := parse_i32 (lb m) in
          let* l := add_flag l0 (li m) in
          let* p0 := parse_i32 (fst old) in
          let* p := add_flag p0 (snd old) in
          let* bad :=
            if (l <? p)%Z then
              let* r0 := parse_i32 (rb m) in
              let* r := add_flag r0 (ri m) in
              Fine (r <? p)%Z
            else Fine false in
          if bad : bool then Error
          else
            let bounds' := hdel (clock m) bounds in
            Fine (hset role
                    (if seqb (match reset m with Some c => c | None => lit " " end) (clock m)
                     then bounds' else hset (clock m) new bounds') prev)
      end
  end.

(** [fn_previous_message_wrt_clocks] (previous_message_wrt_clocks.rs:4-97). *)
Definition previous_message_wrt_clocks (prev : hmap (hmap (str * bool))) (m : msg)
  : gres (hmap (hmap (str * bool))) :=
  if negb (str_le (lb m) (rb m)) then Error
  else let* p := previous_of prev (sender m) m in previous_of p (receiver m) m.

Section Title.
  (** [to_title_case] then the removal of the spaces (line_is_message.rs:79-83). *)
  Variable title : str -> str.

  (** The declaration pushed for one side of a message
      (sender_messages.rs:16-35, receiver_messages.rs:15-34). *)
  Definition message_decl (ix : str) (k : nat) (send : bool) (me other : str) (m : msg) : decl :=
    (message_name ix k me other,
     Timed send (title (label m)) (clock m) (lb m) (li m) (rb m) (ri m)
       (match reset m with Some c => c | None => lit " " end) (message_name ix (S k) me other)).

  (** [sender_messages] without the test of the clocks, and
      [receiver_messages] (sender_messages.rs:12-46, receiver_messages.rs:11-45). *)
  Definition side_messages (ix : str) (send : bool) (me other : str) (m : msg) (t : tree)
    : gres tree :=
    let* channels := unwrap (hget (messages t) me) in
    let* own := unwrap (hget channels other) in
    let size := length own in
    let t1 := set_messages t
                (hset me (hset other (own ++ [message_decl ix size send me other m]) channels)
                   (messages t)) in
    let* lasts := unwrap (hget (last_message t1) me) in
    let* _ := unwrap (hget lasts other) in
    Fine (set_last_message t1
            (hset me (hset other (message_name ix (S size) me other) lasts) (last_message t1))).

  (** [sender_stacks] and [receiver_stacks] (sender_stacks.rs:5-35,
      receiver_stacks.rs:5-35). *)
  Definition side_stacks (ix : str) (me other : str) (t : tree) : gres tree :=
    let* own := unwrap (hget (stacks t) me) in
    let size := length own in
    let t1 := set_stacks t
                (hset me (own ++ [(ordering_name ix size me,
                                   RoleOf other (ordering_name ix (S size) me))]) (stacks t)) in
    let* _ := unwrap (hget (last_stack t1) me) in
    Fine (set_last_stack t1 (hset me (ordering_name ix (S size) me) (last_stack t1))).

  (** [messages_and_stacks] (messages_and_stacks_update/mod.rs:12-39). *)
  Definition messages_and_stacks (m : msg) (t : tree) : gres tree :=
    let ix := index_text (index t) in
    let* t1 := side_messages ix true (sender m) (receiver m) m t in
    let* p := previous_message_wrt_clocks (previous t1) m in
    let t2 := set_previous t1 p in
    let* t3 := side_messages ix false (receiver m) (sender m) m t2 in
    let* t4 := side_stacks ix (sender m) (receiver m) t3 in
    side_stacks ix (receiver m) (sender m) t4.

  (** The fields of [GlobalElements] that are used (auxiliary_objects/mod.rs:10-23). *)
  Record global : Type := Global {
    output : bool;
    roles : list str;
    payloads : list str;
    clocks : hmap (list str);
    loops : hmap (str * list (option str * kind));
    opening : nat;
    closing : nat
  }.

  Definition add_clock (role c : str) (cs : hmap (list str)) : hmap (list str) :=
    match hget cs role with
    | Some s => hset role (sadd c s) cs
    | None => hset role [c] cs
    end.

  (** [update_messages] (line_is_message.rs:13-170). *)
  Definition update_messages (m : msg) (g : global) (t : tree) : gres (global * tree) :=
    if negb (existsb (seqb (sender m)) (roles g)) then Error
    else if negb (existsb (seqb (receiver m)) (roles g)) then Error
    else if seqb (sender m) (receiver m) then Error
    else if negb (str_le (lb m) (rb m)) && (negb (li m) || negb (ri m)) then Error
    else
      let cs := add_clock (receiver m) (clock m) (add_clock (sender m) (clock m) (clocks g)) in
      let ps := match payload m with Some p => sadd p (payloads g) | None => payloads g end in
      let t1 := set_payloads t
                  (hset (label m) (match payload m with Some p => p | None => [] end)
                     (messages_with_payloads t)) in
      let* t2 := messages_and_stacks m t1 in
      Fine (Global (output g) (roles g) ps cs (loops g) (opening g) (closing g), t2).

  (** [init_messages] (process_line.rs:10-52). *)
  Definition init_messages (rs : list str) (ix : str) (t : tree) : tree :=
    let names me := map (fun r => (r, message_name ix 0 me r)) (filter (fun r => negb (seqb r me)) rs) in
    let t1 := set_messages t
      (map (fun e => (fst e,
              fold_left (fun m r => hset r [] m) (filter (fun r => negb (seqb r (fst e))) rs) (snd e)))
         (messages t)) in
    let t2 := set_first_message t1
      (map (fun e => (fst e, fold_left (fun m x => hset (fst x) (snd x) m) (names (fst e)) (snd e)))
         (first_message t1)) in
    set_last_message t2
      (map (fun e => (fst e, fold_left (fun m x => hset (fst x) (snd x) m) (names (fst e)) (snd e)))
         (last_message t2)).

  (** The entries of a tree for the roles (process_line.rs:75-103, 171-193). *)
  Definition init_roles (rs : list str) (ix : str) (t : tree) : tree :=
    let t1 := fold_left (fun t r =>
      set_stacks (set_last_message (set_first_message (set_messages t (hset r [] (messages t)))
        (hset r [] (first_message t))) (hset r [] (last_message t))) (hset r [] (stacks t))) rs t in
    fold_left (fun t r =>
      set_endpoints (set_last_stack (set_first_stack t (hset r (ordering_name ix 0 r) (first_stack t)))
        (hset r (ordering_name ix 0 r) (last_stack t)))
        (hset r [endpoint_name ix r] (endpoints t))) rs t1.

  (** [init_sub_tree] (process_line.rs:54-108). *)
  Definition init_sub_tree (rs : list str) (ix : list nat) (s : str) : tree :=
    let text := index_text ix in
    init_messages rs text
      (init_roles rs text (set_enums (empty_tree ix) [(text, (s, 0%nat))])).

  (** One side of a choice (process_line.rs:247-288, 417-462). *)
  Definition side_choice (ix : str) (send : bool) (s r : str) (t : tree) : gres tree :=
    let me := if send then s else r in
    let other := if send then r else s in
    let* channels := unwrap (hget (messages t) me) in
    let* own := unwrap (hget channels other) in
    let* lasts := unwrap (hget (last_message t) me) in
    let* lst := unwrap (hget lasts other) in
    let t1 := set_messages t
      (hset me (hset other
         (own ++ [(lst, Timed send (choice_name ix s r) (lit " ") (lit "-2") false (lit "-1") false
                          (lit " ") (lit "End"))]) channels) (messages t)) in
    Fine (set_last_message t1 (hset me (hset other [] lasts) (last_message t1))).

  (** The stack of one role at a choice (process_line.rs:290-314). *)
  Definition stack_choice (me : str) (b : body) (t : tree) : gres tree :=
    let* own := unwrap (hget (stacks t) me) in
    let* lst := unwrap (hget (last_stack t) me) in
    Fine (set_last_stack (set_stacks t (hset me (own ++ [(lst, b)]) (stacks t)))
            (hset me [] (last_stack t))).

  (** The loop over the roles at a choice (process_line.rs:244-315, 414-494);
      [ix] is the index written in the name of the enum. *)
  Fixpoint choice_loop (ix s : str) (rs : list str) (t : tree) : gres tree :=
    match rs with
    | [] => Fine t
    | r :: rest =>
        let* t' :=
          if negb (seqb r s) then
            let* t1 := side_choice ix true s r t in
            let* t2 := side_choice ix false s r t1 in
            stack_choice r (RoleOf s (lit "RoleEnd")) t2
          else stack_choice s Broadcast t in
        choice_loop ix s rest t'
    end.

  (** A line saved in all the loops (process_line.rs:200-202, 213-215, 383-385). *)
  Definition save (k : option str * kind) (g : global) : global :=
    Global (output g) (roles g) (payloads g) (clocks g)
      (map (fun e => (fst e, (fst (snd e), snd (snd e) ++ [k]))) (loops g)) (opening g) (closing g).

  (** [str::contains] (process_line.rs:396-397). *)
  Fixpoint contains (p s : str) : bool :=
    match strip p s with Some _ => true | None => false end ||
    match s with [] => false | _ :: s' => contains p s' end.

  (** [check_rec(saved_line) && saved_line.contains(loop)] (process_line.rs:396-397). *)
  Definition starts_loop (loop : str) (rt : option str) : bool :=
    match rt with Some t => contains loop t | None => false end.

  (** The loop of [continue] over the saved lines (process_line.rs:395-498). *)
  Fixpoint replay (ix loop : str) (saved : list (option str * kind)) (go : bool) (g : global) (t : tree)
    : gres (global * tree) :=
    match saved with
    | [] => Fine (g, t)
    | (rt, k) :: rest =>
        if starts_loop loop rt then replay ix loop rest true g t
        else
          match k with
          | KMessage m =>
              if go then
                let* (g', t') := update_messages m g t in
                replay ix loop rest go g' t'
              else replay ix loop rest go g t
          | KChoice s =>
              if go then let* t' := choice_loop ix s (roles g) t in Fine (g, t')
              else replay ix loop rest go g t
          | _ => replay ix loop rest go g t
          end
    end.

  (** [process_line] (process_line.rs:110-521).  [n] is the number of the next
      line; the lines that are left are returned, because the iterator is
      shared. *)
  Fixpoint process_line (fuel : nat) (n : nat) (lines : list line) (g : global)
      (parent main : tree) (offset : nat)
    : gres (nat * list line * global * tree * tree * nat) :=
    match fuel with
    | O => More
    | S fuel' =>
        match lines with
        | [] => Fine (n, [], g, parent, main, offset)
        | l :: rest =>
            let g := Global (output g) (roles g) (payloads g) (clocks g) (loops g)
                       (opening g + opens l) (closing g + closes l) in
            if (opening g <? closing g)%nat then Error
            else if (1 <? offset)%nat then Error
            else if (opening g <=? closing g + offset)%nat then
              Fine (S n, rest, g, parent, main,
                    if (opening g <? closing g)%nat then (closing g - opening g - 1)%nat else offset)
            else if blank l then process_line fuel' (S n) rest g parent main offset
            else
              match what l with
              | KGlobal _ rs =>
                  if (n =? 0)%nat then
                    let sorted := sort_by (fun r => r) rs in
                    let main' := init_messages sorted (lit "0") (init_roles rs (lit "0") main) in
                    let g' := Global true sorted (payloads g) (clocks g) (loops g)
                                (opening g) (closing g) in
                    process_line fuel' (S n) rest g' parent main' offset
                  else Error
              | k =>
                  if (n =? 0)%nat then Error
                  else
                    match k with
                    | KMessage m =>
                        let* (g', main') := update_messages m (save (rec_text l, k) g) main in
                        process_line fuel' (S n) rest g' parent main' offset
                    | KChoice s =>
                        let g1 := save (rec_text l, k) g in
                        let ix := index main ++ [0%nat] in
                        let main1 := set_enums main (hset (index_text ix) (s, 0%nat) (enums main)) in
                        let sub := init_sub_tree (roles g1) ix s in
                        let* main2 := choice_loop (index_text (index main)) s (roles g1) main1 in
                        let* (n', rest', g2, main3, sub', offset') :=
                          process_line fuel' (S n) rest g1 main2 sub (S offset) in
                        process_line fuel' n' rest' g2 parent (push_sub_tree main3 sub') offset'
                    | KOr =>
                        match rev (index main) with
                        | [] => Panic
                        | lst :: up =>
                            let basic := index_text (rev up ++ [0%nat]) in
                            let* (s, count) := unwrap (hget (enums parent) basic) in
                            let parent1 := set_enums parent
                                             (hset basic (s, S count) (enums parent)) in
                            let sub := init_sub_tree (roles g) (rev up ++ [S lst]) s in
                            let* (n', rest', g2, parent2, sub', offset') :=
                              process_line fuel' (S n) rest g parent1 sub offset in
                            process_line fuel' n' rest' g2 (push_sub_tree parent2 sub') main offset'
                        end
                    | KRec x =>
                        let g1 := Global (output g) (roles g) (payloads g) (clocks g)
                                    (hset x (index_text (index main), []) (loops g))
                                    (opening g) (closing g) in
                        process_line fuel' (S n) rest (save (rec_text l, k) g1) parent main offset
                    | KContinue x =>
                        match hget (loops g) x with
                        | None => Error
                        | Some (ix, saved) =>
                            let* (g', main') := replay ix x saved false g main in
                            process_line fuel' (S n) rest g' parent main' offset
                        end
                    | _ => process_line fuel' (S n) rest g parent main offset
                    end
              end
        end
    end.

  (** ** The file *)

  (** What is written: the roles given to [generate_atmp!] (imports.rs:38-42),
      the structs (structs.rs), the type declarations (sessions.rs, stacks.rs),
      the enums (enums.rs), the endpoints (endpoints.rs), the functions with
      the clocks they start (fn_endpoints.rs), the functions given to [fork_mpst] (fn_main.rs). *)
  Record endpoint : Type := Endpoint {
    ep_name : str;
    ep_sessions : list str;
    ep_stack : str;
    ep_role : str
  }.

  (** [generate_sessions] (sessions.rs:23-40). *)
  Definition tree_sessions (t : tree) : gres (list decl) :=
    fold_right (fun e acc =>
      let* acc := acc in
      let* here := fold_right (fun c acc2 =>
        let* acc2 := acc2 in
        let* lasts := unwrap (hget (last_message t) (fst e)) in
        let* lst := unwrap (hget lasts (fst c)) in
        Fine (snd c ++ (match lst with [] => [] | _ => [(lst, Alias (lit "End"))] end) ++ acc2))
        (Fine []) (snd e) in
      Fine (here ++ acc)) (Fine []) (messages t).

  (** [generate_stacks] (stacks.rs:23-33). *)
  Definition tree_stacks (t : tree) : gres (list decl) :=
    fold_right (fun e acc =>
      let* acc := acc in
      let* lst := unwrap (hget (last_stack t) (fst e)) in
      Fine (snd e ++ (match lst with [] => [] | _ => [(lst, Alias (lit "RoleEnd"))] end) ++ acc))
      (Fine []) (stacks t).

  (** [generate_enums] (enums.rs:9-66): the name of the enum and the endpoints
      of its branches. *)
  Definition tree_enums (rs : list str) (t : tree) : list (str * list str) :=
    match sub_trees t with
    | [] => []
    | _ =>
        let ix := index_text (index t) in
        flat_map (fun e =>
          flat_map (fun r =>
            if negb (seqb r (fst (snd e))) then
              [(choice_name ix (fst (snd e)) r,
                map (fun i => endpoint_name (ix ++ lit "_" ++ num i) r) (seq 0 (S (snd (snd e)))))]
            else []) rs) (enums t)
    end.

  (** [generate_endpoints] (endpoints.rs:23-50). *)
  Definition tree_endpoints (rs : list str) (t : tree) : gres (list endpoint) :=
    fold_right (fun r acc =>
      let* acc := acc in
      let* names := unwrap (hget (endpoints t) r) in
      let* firsts := unwrap (hget (first_message t) r) in
      let* stack := unwrap (hget (first_stack t) r) in
      let* fields := fold_right (fun o acc2 =>
        let* acc2 := acc2 in
        let* f := unwrap (hget firsts o) in Fine (f :: acc2))
        (Fine []) (filter (fun o => negb (seqb o r)) rs) in
      Fine (map (fun n => Endpoint n fields stack r) names ++ acc)) (Fine []) rs.

  (** [generate_structs] (structs.rs:13-77): a name and the type of its
      payload.  [title] drops the spaces, [already_generated] compares before
      that; simplified: after that. *)
  Definition add_struct (n : str) (p : option str) (done : list (str * option str)) :=
    if existsb (fun d => seqb (fst d) (title n)) done then done
    else done ++ [(title n, match p with Some x => Some (title x) | None => None end)].
  Definition tree_structs (ps : list str) (t : tree) (done : list (str * option str)) :=
    fold_left (fun d e => add_struct (fst e) (match snd e with [] => None | x => Some x end) d)
      (messages_with_payloads t)
      (fold_left (fun d p => add_struct p None d) ps done).

  (** All the trees, a tree before its sub trees (sessions.rs:42-44,
      stacks.rs:35-37, enums.rs:55-57, endpoints.rs:52-54). *)
  Fixpoint all_trees (t : tree) : list tree :=
    match t with
    | Tree _ _ _ _ _ _ _ _ _ _ _ subs => t :: flat_map all_trees subs
    end.

  (** A loop of [?] (sessions.rs:42-44, stacks.rs:35-37). *)
  Fixpoint collect {A B} (f : A -> gres (list B)) (l : list A) : gres (list B) :=
    match l with
    | [] => Fine []
    | a :: l' => let* b := f a in let* r := collect f l' in Fine (b ++ r)
    end.

  Record rust_file : Type := RustFile {
    meshed_roles : list str;
    structs : list (str * option str);
    types : list decl;
    enum_types : list (str * list str);
    endpoint_types : list endpoint;
    functions : list (str * list nat * nat * str * list str)
  }.

  (** [generate_fn_endpoints] (fn_endpoints.rs:7-64): the role, the index, the
      number, the type of [s], the clocks started. *)
  Definition tree_functions (g : global) (t : tree) : gres (list (str * list nat * nat * str * list str)) :=
    match rev (index t) with
    | [] => Panic
    | branches :: _ =>
        fold_right (fun r acc =>
          let* acc := acc in
          let* names := unwrap (hget (endpoints t) r) in
          let* first := unwrap (nth_error names 0) in
          Fine (map (fun b => (r, index t, b, first,
                               match hget (clocks g) r with Some c => c | None => [] end))
                  (seq 0 (S branches)) ++ acc)) (Fine []) (roles g)
    end.

  (** [generator] (generator.rs:20-105), without the call of nuscr. *)
  Definition generator (lines : list line) : gres rust_file :=
    let* (_, _, g, _, main, _) :=
      process_line (S (length lines)) 0 lines (Global false [] [] [] [] 0 0)
        (empty_tree []) (empty_tree [0%nat]) 0 in
    if negb (opening g =? closing g)%nat then Error
    else if negb (output g) then Error
    else
      let ts := all_trees main in
      let* sessions := collect tree_sessions ts in
      let* stack_types := collect tree_stacks ts in
      let* eps := collect (tree_endpoints (roles g)) ts in
      let* fns := collect (tree_functions g) ts in
      Fine (RustFile (roles g) (fold_left (fun d t => tree_structs (payloads g) t d) ts [])
              (sessions ++ stack_types) (flat_map (tree_enums (roles g)) ts) eps fns).
End Title.
