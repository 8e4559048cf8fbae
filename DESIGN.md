# Design of the model and of the proofs

Source: `/repo` (mpst_rust_github), read as text. Prover: Coq 8.16.1, files in `rocq/theories`.

## Method

* Each part of the code is transcribed as small total Gallina functions (or, for concurrent
  parts, as an `init`/`step` transition system). Every definition cites file and lines.
* `panic!`, `unwrap` on an error and blocking are explicit outcomes of the model, not omitted.
* Properties are stated in `Properties_*.v` files against small specifications that do not use
  the model's helper functions; each theorem is followed by `Print Assumptions` and has at least
  one concrete `Example` next to it.
* A claim that is false of the code is proved false (`..._refuted`, with a witness) and the
  strongest true variant is proved next to it. See "Findings".
* The theorems are tested against wrong programs (`seeded/LOG.jsonl`).

## Trusted base

* Coq's kernel (`coqchk` is also run on the compiled files).
* Axioms: none. `Print Assumptions` says "Closed under the global context" for every theorem
  named in `MANIFEST.json`. See "Axioms".
* The reading of the Rust code into Gallina: no code is extracted or executed.
* The model of `crossbeam_channel::bounded(1)`: a one-place buffer with two liveness flags;
  `send` to a live receiver with a free place stores; `send` blocks when full; `send` to a dropped
  receiver fails at once and drops the message; `recv` takes the stored message even if the sender is gone;
  `recv` on an empty channel blocks while the sender lives and fails once it is dropped.
  When the receiver is dropped a stored message is dropped too.
* Rust's affine typing: a value is used at most once, and a thread may drop everything at any
  moment (panic, early return, `cancel`).
* `std::time::Instant` as a number of nanoseconds that never decreases; `char`/`String` of the
  checker and of the generator as lists of ASCII characters; `HashMap`s as association lists
  (the iteration order is not used by the modelled code, or the model quantifies over it).

## Axioms

None of our own, none of the standard library. (`coqchk -o` shows constants of
`Coq.ssr.ssrunder` because `Lia`/`ZArith` load that file; no theorem depends on them.)

## Layers

| files | model of | content |
|-------|----------|---------|
| `Diag`, `Wiring` | `mpst_seq/.../common_functions/maths.rs`, `macros_multiple` and `macros_simple` fork/choice generators | code generators as functions to lists of bindings |
| `Three` | `src/functionmpst/{fork,choose,send,recv,offer}.rs`, `src/macros_simple/choose.rs`, `src/meshedchannels/impl_{a,b,c}.rs` | bindings, arguments and declared types of the hand-written functions as data, run by one small interpreter |
| `Methods` | `mpst_seq_proc/src/baking*/*.rs`, `expand/{send,recv,offer,choose,close,close_atmp,cancel}.rs` | the types of the generated blocks as terms |
| `Types`, `Roles` | `src/binary/struct_trait.rs`, `src/role/*`, `src/meshedchannels` duals | session types, stacks, their `new` |
| `Timed` | `binary_atmp` send/recv/choose, clocks | function of the readings of the clock and of the answer of the channel |
| `Session`, `Mesh` | `binary::{send,recv,close,cancel}`, generated mesh methods, fork, choice, thread drop | concrete machine: heap of one-place channels, n threads, every drop is a step, crash anywhere |
| `Links`, `Refine`, `Sim`, `MeshInv` ... `MeshReach` | - | abstract two-sided links, refinement of the concrete machine, invariants |
| `Global`, `MeshGlobal` ... `MeshClean` | - | global protocols, projection, progress, bounds, crash-free runs |
| `Binary` | the two-role case | corollaries for binary sessions |
| `Select`, `Attempt`, `Broadcast`, `Close` | `functionmpst`/macros of the same names | small machines |
| `Checker*` | `src/checking/{mod,aux_checker}.rs` | text functions, graph builder, KMC loop |
| `CheckerMacro`, `CheckerLoop*`, `CheckerRefClean` | `checker_concat!` (`src/checking/mod.rs`), `mpst_seq_proc/src/checking/aux_checking{,_impl}.rs` | the maps of enums, variants and lines; the graph builder on recursive protocols (`CheckerLoopSpec` is the specification) |
| `Regex`, `NuscrText` | the regular expressions of `src/top_down_nuscr` (leftmost-first matching as in the `regex` crate), the reading of a line, `generate_regular_protocol` | matching as a list of successes; `NuscrTextSpec` is the text of a protocol, `NuscrRead*` the proof that it is read back |
| `Nuscr*` | `src/top_down_nuscr` | line processing, maps, generated file |
| `NuscrItems`, `NuscrStructs`, `NuscrItemsProofs` | `code_generate/{structs,imports,fn_main,fn_endpoints}.rs`, the names made by `generate_atmp!` | all names a generated file declares, imports and uses |
| `NuscrTimedSpec`, `TimedMeshWindows`, `NuscrTimedProofs` | `code_generate/{sessions,endpoints}.rs` with `TimedMesh` | windows of a generated file read as windows of the timed machine; they stay in step with the sessions |
| `NuscrTimetable` | - | specification: one timetable for all roles |
| `TimedMesh`, `TimedMeshProofs`, `MeshWait` | timed generated methods, timed offer and choice (`mpst_seq_proc/src/baking_atmp`, `expand/{send,recv,fork}.rs`, `choose_atmp_mpst_multi_to_all.rs`) | the machine of `Mesh` with clocks, windows and readings per role; a refused test is a crash step of `Mesh` |
| `TimedMeshPlan`, `TimedMeshLocal`, `MeshDue`, `TimedMeshDue`, `TimedMeshPlanProofs` | the machine of `TimedMesh` | timetables of a path through a global protocol; runs on one real time |
| `NuscrPlanSpec`, `NuscrPlanProofs` | fn_endpoints.rs:39-47 (clocks started), `NuscrTimetable`, `TimedMeshPlan` | accepted protocols whose generated roles can run in time |
| `Transport`, `TransportMirror`, `TransportProofs`, `TransportLive`, `TransportUdp` | src/transport/tcp/{send,recv,close,fork,cancel}.rs, src/transport/udp/{send,recv,fork}.rs on the binary machine (`Binary`, `Mesh` with two roles) | the bytes of the stream or the datagrams beside the channels |
| `MeshFair`, `FairSpec`, `MeshLive`, `FairTurns`, `MeshChase` | the machine of `Mesh` over infinite executions; nothing new of the code | readiness persists, a measure of the work left up to a round, executions by turns, the protocol `chase` |
| `TidySpec`, `MeshTidy`, `MeshDet`, `MeshSched` | the machine of `Mesh` with deterministic programs; nothing new of the code | tidiness of offers as an invariant, local determinism, induction on one run against a second one |
| `OrderSpec`, `OrderProofs`, `OrderProj`, `MeshOrder`, `MeshOrderConv` | the machine of `Mesh` for arbitrary dual types; nothing new of the code | the actions a type asks for, the test for an order; position in the script as an invariant, induction on ranks; the positions of a run as an order |
| `Proto`, `ProtoProofs`, `Corpus`, `CorpusRing`, `CorpusMesh`, `CorpusUnfit` | the endpoint types declared by 216 files of examples/ and tests/ (69 distinct tables) and by four tests of the checker, transcribed by tools/corpus_emit.py; every table cites its files and lines | a test for a whole table, exact for dual, tidy and ordered in all rounds |
| `Synth`, `SynthProofs`, `Families` | the rings and meshes of examples/ for every number of roles; nothing new of the code | search for a global round of given endpoint types; it commutes with the order of independent messages |
| `OrderReady`, `OrderFair`, `FairTypes`, `OrderLive`, `OrderTurns`, `OrderEnd` | nothing new of the code; `FairTypes` says of any types what `FairSpec` says of global protocols | measure of what is left to do up to a round, for types whose rounds have an order (`mu_step`); who must go first (`unblock_ready`); schedulers by turns; histories of choices that are written in the types (`chosen_in`) |
| `OrderFinish`, `TimedFinish` | nothing new of the code | rounds that can be left (`way out`), a continuation that finishes from every state; windows open up to a bound, time left |
| `FnForms`, `FnSpec`, `FnProofs`, `FnCorpus` | the functions of `create_{send,recv,offer}_mpst_session*!`, `create_send_mpst_cancel!`, `create_send_check_cancel!` (`macros_simple`, `macros_multiple`), and their uses in tests/, examples/, benches/ (transcribed by tools/functions_emit.py) | typing of a function body with its scope; which calls a signature accepts; what a body does to the sessions |
| `ForkTypes`, `ForkSpec`, `ForkProofs`, `ForkCorpus` | `fork_mpst_multi!`, `fork_mpst`, `choose_mpst_multi_to_all!`, `choose_mpst_multi_cancel_to_all!` and the bundles of functions (types only), and the indices written in tests/, examples/, benches/ (transcribed by tools/choices_emit.py) | which types a fork or a choice accepts; when these fit the roles |
| `GenMacros`, `GenSpec`, `GenMacrosProofs`, `GenCorpus` | `get_all_roles`, `parenthesised_groups`, `choose_mpst_create_multi_to_all` and its timed form, and the uses of `generate!` in tests/, examples/, benches/ (transcribed by tools/generate_emit.py). Assumed of Rust: in one expansion a later `macro_rules!` hides an earlier one, and a name defined by two sibling expansions is ambiguous (E0659) | roles as read; the macro that a name stands for; programs that choose by macros |
| `CheckTests`, `NuscrTests`, `RepoTests`, `RepoTestsProofs` | the tests in tests/checking_mod, tests/nuscr.rs, aux_checker.rs, regex_nuscr.rs and the files Basic.rs, Choice.rs, Recursion.rs that the generator wrote (transcribed by tools/checktests_emit.py and tools/nuscrtests_emit.py, which also resolve type aliases and `Dual`). Simplified: the title case of the structs is a capital first letter, which is what it is for the names used there | the printed form of a graph, lines made of a format and words |
| `PrintedTypes`, `PrintedProofs` | `head_str`, `tail_str` in src/role, src/name, src/binary, src/binary_atmp, src/meshedchannels, expand/role.rs, expand/name.rs, expand/meshedchannels.rs. Simplified: struct names are those of `generate!` and of the library; `self_head_str` and `self_tail_str` have the same bodies | the shape of a type, the names that Rust accepts |
| `BinMesh`, `BinSpec`, `BinHeap`, `BinWire`, `BinSim`, `BinReach` | the methods of expand/choose.rs and expand/offer.rs on the threads and channels of `Mesh` and `Session`. Simplified: plain `send` only (not the mode in which sends look for a broken peer first); enum and binary choices are not mixed in one session; no `recv` of an `Either` by hand, no timed choices; no panic inside `choose_left` and `choose_right` | types with enums for the same sessions (`enum`), types for which every step has a method (`usable`) |
| `ThreeMesh`, `BinThree`, `BinProps` | the choices of src/functionmpst, src/macros_simple and src/meshedchannels; the other operations are those of `BinMesh` for three roles (C41) | - |
| `FuncMesh`, `BinFunc` | create_choose_mpst_session_multi_left.rs, _right.rs | the type check of a call is `call_typed`, sessions only |
| `Branching`, `BranchingProofs` | checking/branching.rs, lib.rs:425-437 | spans and the `println!` of each variant are left out |
| `ForkIL` | expand/fork.rs:331-790 (792-1259 differs by the clocks), interleaved/fork_mpst_multi_solo.rs | types only, as `ForkTypes` |
| `Protobuf`, `ProtobufProofs` | src/protobuf/mod.rs, generated/globaltype.rs | single values as the protobuf wire format (assumed of the crate); whether bytes are UTF-8 is a parameter |
| `Constraint` | struct_trait/send.rs:66-94, recv.rs:65-93 | the digits of numbers and the character of the clock are left out |
| `AliasTypes` | create_choose_type_multi.rs:38-99, create_offer_type_multi.rs:38-97, the `Dual`s | trait bounds are not checked; the arithmetic of `u64` is exact except for 2n - 1 at n = 0 |
| `Interleave`, `InterleaveProofs` | `fork_interleaved_mpst` (`mpst_seq_proc/src/common_functions/expand/fork.rs`), `fork_mpst_solo` | several machines of `Mesh`, with a thread for several endpoints; each session has its own channels; a thread may change endpoint after every step of the machine, which is more than Rust allows |
| `NuscrGlobalSpec`, `NuscrGlobal`, `NuscrSystem`, `MeshExt` | - | reading of a generated file as types of `Mesh`; projections |

## Per property

| id | modelled | proof |
|----|----------|-------|
| C01 | inductive session types, timed types, role stacks, mesh types and the `Dual` maps | induction |
| C02-C07 | explicit heap of one-place channels, continuation passing as in `send`/`recv`, threads running the most general program of their type, crash steps anywhere | refinement to links, invariant over all reachable states; progress; measure for termination |
| C08 | `diag`, `matrix` and the generated `fork` as lists of let-bindings | closed form of the stateful walk, then arithmetic, for all n |
| C09 | index arithmetic of generated send/recv | arithmetic |
| C10, C11, C13 | generated choice code as lists of bindings, per n and chooser | arithmetic, bijection by list permutation |
| C12 | offset arithmetic of interleaved fork | case analysis + lia |
| C14-C19 | n threads, each with a MeshedChannels (list of endpoints, stack), same heap as C02; choice creates meshes with the wiring of C10; arbitrary crash steps; drops are small steps | ghost ownership of channels by links, invariant; runtime global types, "the first unfinished event of the global protocol is enabled" |
| C20-C24 | decision procedure of timed send/recv as a function of clocks (nanosecond instants) and channel answer | case analysis + lia; refutations by computation |
| C25 | `select_mut` with the index chosen by an oracle, other threads act between any two steps | permutation of `swap_remove` |
| C26 | `attempt!` as a sequence of blocks with any outcomes | induction on the blocks |
| C27, C28 | polling loop of the broadcaster as a transition system with arbitrary participants | invariants; infinite run for the refutation |
| C29, C30 | signal exchange of each close variant over one-place channels | simulation by computation lemmas for all n |
| C31-C33 | string functions of the checker over `list ascii`; graph builder; kmc loop with oracle | print/parse round trip by induction on types |
| C45 | `checker_concat!` to the graphs and the KMC file, enums of branches | construction as a big-step relation followed by the code (`built_all`), invariant of visited choices; walks of graph and machine against the finite behaviours of the types |
| C34, C35, C37, C38 | generator state machine for all kinds of lines (messages, choice, or, rec, continue), the maps it fills and the file it writes | induction over the lines, tree of the protocol as specification |
| C46 | accepted protocols as in C37; instants of sends and receives of all roles as rationals | earliest timetable by induction on the messages from the textual comparison of bounds; refutations by linear arithmetic |
| C47 | names of types, structs, functions, threads and macros of the generated file | invariant of the map of structs along the lines; names are cut at `_` and at `To` |
| C48 | the windows of a generated file on the timed machine | reading and its uniqueness by induction on the messages; windows and sessions stay in step (invariant of all steps of `TimedMesh`); progress through the erasure of C43 |
| C49 | any number of sessions of `Mesh`, each thread works on one of its endpoints at a time and may change after each step | each session runs by itself (frame); the last session of a forest shares one thread with the others: if that thread waits there, another role of the session moves; induction on the number of sessions |
| C50 | the `impl` blocks of `generate!` as parameters, self type and result types; a call is answered by a block whose self type has the type as an instance within the bounds | closed form of every block; the self types of one method differ in name or top of stack; instances are determined by the self type; the numbers of the sessions of a choice by the bijection of `Diag` |
| C51 | timetables of the rounds of a path, `TimedMesh` | the role whose next instant is first can move (`next_due`, from the position invariant of C40); each step shifts the invariant "what is left of the timetable is kept"; the readings are put together step by step (`good_cons`); the sizes of rounds on the path bound the run |
| C52 | the generated file (`NuscrFile`) as a timed system (C48), ways through its choices | the rational instants of C46 are rounded down to whole seconds, which keeps closed windows with whole bounds (`floor_diff`), so each part has a plan; the plans of the parts on a way are put one after the other (`rounds_chain`, `pl_timetable`); then C51 |
| C53 | the binary machine plus a connection (bytes written, bytes sent by the server, position, shut down or not) or a socket (datagrams) | the two logs of a binary session mirror each other, one side ahead by sends only (`mirror`); invariant: the bytes written are the messages with flag true in order, the bytes read are those of the messages that both sides have done plus a part of the next (`good`); a thread in the part about the stream is running and has not called close (`calm`), so no close shuts the connection down under it; a socket that loses nothing is simulated by the stream (`usim`). Errors of the UDP socket are not modelled; `choose_tcp!`/`offer_tcp!` use the channel only |
| C54 | infinite executions of the mesh machine (`FairSpec`: state and action at each instant, idle instants allowed) | readiness of a role persists until it acts (`ready_step`); the work left in rounds up to g (`mu`) falls with every step of a role that is behind; some role that is not ahead is ready (`unblock_to`), so the others can bring every role to readiness (`lock_free_links`); in a fair execution the same measure falls until the role acts. After a crash the drops must end: `endless_drop_refuted` runs `chase` by turns, the invariant `chased` says that the crashed role always finds one more message |
| C55 | executions of the mesh machine without crashes in which inputs are a function of the log of the role (`TidySpec.decides`) | each link carries the messages of its sender in order, so the next step of a role depends only on its own state and on the messages of its peer (`local_step`); by induction two runs with the same number of steps of a role give it the same state (`same_count`); a step of one run can be done in the other when the role is behind and the others are not (`can_too`), hence confluence. The refutation `schedule_matters_refuted` drops tidiness: dual types, a role that offers while another role still has to send to it |
| C56 | executions of the mesh machine for dual types that need not be projections; the actions of a type are `OrderSpec.script`, the order is `ordered`, the test `check` | `check` plays free actions; it finds an order if there is one since the action of least rank that is not done is free (`check_ordered`). Progress: a role that waits for x has done at least as many communications with x as x with it, so the action of x it waits for has a smaller rank and x has not done it (`unblock_rank`, induction on the round and on the rank). Converse: the positions of the roles in a run are reached by playing free actions (`yinv`), so a round that all roles have left is ordered. `beyond_projections`: the carousel, ordered but no projection. Needed: dual types; tidiness only for `ordered_all_ok` |
| C57 | endpoint types as data (`Proto.proto`): start types and the types of every branch, as the source files declare them; executions of the mesh machine on them | `accepts_exact` reduces a table to the rounds of `Properties_Order`; `accepted_progress` and `accepted_one_ok_answer` are C56 and C55 for tables; `repository_accepted` evaluates the test on all 69 tables; hence `repository_never_blocks` and `repository_one_ok_answer`. `checker_tests_refuted`: four tables are not dual. Simplified: payload types are numbered per file; the time constants of SendTimed and RecvTimed are left out (the timed machine is C50, C51); the chooser's sessions are the duals of its partners' sessions (what choose_mpst_to_all makes), its stack comes from the annotation or is forced by the use. Not transcribed: files with tuple payloads (`*_cancel` with End, broadcast_cancel), interleaved sessions, OfferMpst/ChooseMpst by hand, http, binary and crossbeam variants |
| C58 | endpoint types and global protocols (`Global`); the families `Families.ring_protocol` and `mesh_protocol` | `gather` takes any message that both its roles have next; such a message can be moved to the front of any round with these projections (`meeting_first`, `proj_front`), and the front message of a round can always be taken, so the search succeeds if there is a round, with a permutation of its messages (`gather_agrees`). What is found is checked against the types (`fits`). `global_runs` by `MeshExt`: the machine looks only at types of existing roles and labels. `repository_rings`, `repository_meshes`: the transcribed tables are the families at 2..11 and 20 by evaluation |
| C59 | the concrete machine (`Mesh`), as for C54, but any types that are dual and ordered (C56) | as C54, with the rank of the order in the place of the position in the global protocol: the role whose next action has the least rank can go on (`unblock_ready`), every step lowers `mu` up to the round considered (`mu_step`). Ends: the pair of choices still possible and `mu` up to the present round goes down with every step (`ends_from`); without recursion the number of choices is bounded (`unwinds_bound`: finitely many labels) |
| C60 | the timed concrete machine (`TimedMesh`): clock tables that start empty, `TClock c` for `all_clocks.insert` | induction on the run: operations and resets write only to clocks that exist (`run_no_new`, `reset_all_no_new`), so the keys of the table are the clocks started; the operation that misses its clock crashes its role, then as C50 (`outside_ends`, C35) |
| C61 | the concrete machine; a strategy `pick` for the choices and `homeward` (the recursion along the strategy is well-founded); a search for the strategy on the tables of C57 | well-founded induction on the rounds left along the strategy, then on the operations left in the round (C56): `reached_acc`; Ok from the tidy invariant (C55): `quiet_ok`; the search is computed for the 69 tables |
| C62 | the timed concrete machine; `lenient`/`open_tables` (windows open up to K), `time_left`; windows `a`, 0..N of examples/atmp on the tables of C57; those of non_feasible.rs | windows and clocks to reset come from the tables (`ttstep_tabled`), clocks only take values read (`ttstep_later`), so every next operation is `kept` and every step of C61 can be taken (`ttstep_follow`); the missed window by induction on the continuation with C50 and C35 |
| C63 | signature and body of the declared functions, as functions of the index (`FnForms`); the declarations of 169 files (`FnCorpus`, 83 distinct programs) | typing of the body decides compilation (`FnSpec`); the signature is compared with the `impl` blocks of C50; exact calls from the shape of the struct type; the corpus by computing `index = comm_field own peer` |
| C64 | signature and body of the fork functions, the MeshedChannels built by a choice, as functions of n and the index (`ForkTypes`, over the channel numbers of `Wiring`); the indices used in 154 files (`ForkCorpus`) | acceptance = the unknown types can be instantiated (`ForkSpec`); the instantiation is a dual family and conversely, by the peers of C10; the corpus by computing `index = position`; safety by C14 |
| C65 | how the roles are read from tokens, the macros written for choices and how Rust resolves their names (`GenMacros`, over `ForkTypes`); the 343 uses in the repository (`GenCorpus`) | induction on the tokens; the list of definitions split at the role; acceptance by C64; the corpus by computation |
| C66 | the arguments and the expected results of the repository's tests of the checker and of the nuscr reader (`CheckTests`, `NuscrTests`, `RepoTests`), on the models of C31-C35 and C37-C40 | computation on the transcribed tests; for the random ones the matching lemmas of C39 on any words |
| C67 | `head_str` and `tail_str` of sessions, stacks, names and MeshedChannels (`PrintedTypes`) | a printed type is never the beginning of another: induction on the type, cutting at the first bracket; line feeds are counted where a list of sessions may be empty |
| C68 | `choose_left`, `choose_right` and `offer` on the n-role machine (`BinMesh`) | simulation: every step is matched by steps of the machine with enums (C14-C17, C56), with a renaming of channels (the ends of a new pair may be exchanged) and the old sessions of the chooser dropped earlier; back: whenever the enum machine can go on, so can this one |
| C69 | the bodies of `Three` on the machine of `BinMesh` (`ThreeMesh`) | the proofs of C68 hold for any code that makes the channels of a choice up to a renaming (`makes`); a renaming is given for each of the nine bodies, two of which also create the channels in another order |
| C70 | the functions of create_choose_mpst_session_multi_left/right on the machine of `BinMesh` (`FuncMesh`) | `makes` as in C69, without any renaming; the miswiring by computation |
| C71 | `Mesh` and `BinMesh` | the measure of C54 decreases with every step, and a choice adds the cost of the round it begins (`paid`); usable binary types are tidy as enums, so the invariants of C55 give Ok and all received; the bounds of the protocols by computation |
| C72 | `branching_variants` (`Branching`): names as strings in byte order; `binary_search` as the standard library specifies it | induction on the variants with the sorted prefix; lists split at the first greater name |
| C73 | fork.rs:331-790 and fork_mpst_multi_solo.rs (`ForkIL`): type parameters, bounds, arguments, calls. Left out: the map of clocks of the timed form, names of threads | the generated function computed (`fork_il_eq`) from the channels of C12; protocol two is a fork with shifted numbers; then as C64 |
| C74 | the generated messages and `read_global_protocol_file` (`Protobuf`); the wire format is written after its description since the crate is not in /repo. Left out: stored unknown fields, groups, messages of 4 GiB and more | one lemma per kind of field on the loop of `merge_from`; varints by induction, sign extension by modular arithmetic |
| C75 | `constraint` (`Constraint`): the pieces given to `format!`, a number stands for its digits | cases on the bounds; the rest from the window theorem of C20 |
| C76 | the aliases (`AliasTypes`) as functions from closed types to types, with `Dual` | `Dual` is an involution; induction on the parameters |
| C41 | the hand-written three-role functions as data | cases over family, chooser and branch; types by involutivity of dual |
| C42 | the generated file (C34) read as types of the machine (C14-C17), time forgotten | wanted types erase to projections; reading is unique; the machine only looks at the types of existing roles and labels (`MeshExt`); then C15-C17 |
| C43 | every role of `Mesh` with its own clocks and readings; tests of `Timed` before each transfer, resets after it; a role may start clocks at any time | each step is a step of `Mesh` (or none); enabledness is kept; on-time steps are not crashes |
| C44 | as C15 and C43 | position of the role in the global protocol; a receive with an upper bound can give up |
| C39, C40 | the regular expressions as terms, matched by backtracking in the order of preference; text as `list ascii` | denotation of expressions; leftmost search by refusal of every earlier position, checked over all characters |
| C36 | role stacks with their internal one-place channel | case analysis |

## Findings (proved as `_refuted` or characterised by a theorem)

Timed operations (`Properties_Timed`)
* A window with a lower bound and no upper bound always panics in `send`/`recv`, works in `send_without_reset` (C22).
* An exclusive lower bound compares whole seconds, so the first second after START is refused (C21).
* With an inclusive upper bound and an elapsed time in (END, END+1s) the `Duration` subtraction underflows: panic (C21).
* A `recv` that crosses the lower bound between its two readings succeeds without resetting the clock; with both bounds negative the clock is never reset (C23).
* Completion may exceed END by the time between two readings (C20).
* RESET naming an absent clock panics after the message was delivered.
* The generated timed `choose_left/right` resets the clock between receivers, so a later receiver can be refused (C24).
* `choose_atmp!` calls a function that does not exist (`send_atmp`).

Choice and close
* After a choice with broadcaster, field k of the broadcaster is connected to some other participant than role k (C13); only the bijection holds.
* The broadcaster spins for ever when a participant dies silently (C28).
* `close_mpst!` and `close_mpst_cancel!` accept `Cancel` as a clean end; `close_mpst_check_cancel!` accepts the offer signal (C29).
* Pairwise dual types alone can deadlock (C19).
* After a crash the drop of the crashed thread can go on for ever: each message of a chooser contains the MeshedChannels of the next round, in which the next message may already lie. While the chooser is faster, a role that waits for a later field of the dropped MeshedChannels starves in a fair execution (`endless_drop_refuted`, C54). Read in the code: this drop is recursive in Rust, so the stack of the thread (64 MB, expand/fork.rs) may overflow instead.
* `offer_mpst!` (src/macros_multiple/offer.rs:159-184) takes any sessions for the roles that do not choose and drops them when the offer is taken. With pairwise dual types the result of the session then depends on the schedule: a role that sends to the offering role before the drop returns Ok, after it an error (`schedule_matters_refuted`, C55).
* Four tests of the checker (tests/checking_mod/complex) use endpoint types that are not pairwise dual, so that no `fork_mpst` accepts them: alternating_bit.rs, async_paper_ext_rev_sync.rs, cloud_system.rs and inf_snd_rcv.rs. `checker_concat!` takes them without complaint, and three of the tests expect a kmc bound `Some(..)` (alternating_bit.rs:226, async_paper_ext_rev_sync.rs:237, cloud_system.rs:322; inf_snd_rcv.rs:171 expects None). In cloud_system.rs role D has the enum of role C (:111) and B waits for a Setup from C (:59) in a branch where C sends none (:82); in async_paper_ext_rev_sync.rs EndpointSOkay waits for Data and Log (:85-90) that nobody sends (:48, :64). `checker_tests_refuted`.
* tests/checking_mod/complex/four_players_game_sync.rs, in spite of its name, describes a protocol that no synchronous (global) description has: in the branches that go on, D first waits for A, A first waits for C, and C sends to D before it answers A. It works (C57) because sends do not wait for the receiver. `four_players_no_global_refuted`.
* examples/atmp/non_feasible.rs: the windows 0..1 that follow windows 0..10 on the same clock, which is never reset, can be out of reach although everything before was on time: if the first messages take 5 seconds nobody can return Ok any more (`non_feasible_refuted`); with the windows of examples/atmp/http.rs the same run can be finished (`http_feasible`). By reading: the `offer_mpst!` of its server (lines 1089-1263) has no arm for `Close`, so as a match on the enum it is not exhaustive; http.rs has the arm (1263-1267).
* The recursive timed examples (examples/atmp/logging.rs, fib.rs, http.rs, ...) use the window 'a', 0..10 everywhere with a clock that no window resets: the loop cannot run on time for longer than ten seconds after the clock was started (C62, `missed_window_nobody_ok`).

Function form (C63)
* `create_send_mpst_session!`, `create_send_mpst_cancel!` and `create_send_check_cancel!` with an index outside 1..n-1 compile; the function drops the value, sends nothing and takes the role off the stack (`send_function_sends_refuted`). The types of the two roles no longer fit together from there on.
* `create_send_check_cancel!` with index 1 does not compile, since the macro fixes the first session, that with the broadcaster, to `End` (`check_function_compiles`). A wrong index of a receive or offer function is reported as an unbound variable inside the macro.
* The names of roles and the index are not tied together: with the index of another field the function sends to another role than its stack says (`wrong_index_differs`). No program in the repository does so.
* Read in the code, not proved: `offer_mpst_session_to_x_from_y` takes any session for its other field and drops it; `create_fn_choose_mpst_multi_to_all_bundle!` panics at expansion if it is given different numbers of functions, branches and types.

Fork and choice (C64)
* The index of a choice is not tied to the chooser: with three roles, A can choose with the index of B, and types are accepted with which B sends to C on the channel that C takes for the one with A (`wrong_index_refuted`). Nor is the name given as sender tied to the index or to the session.
* `choose_mpst_multi_to_all!` drops what `send` returns, so it accepts old sessions in which something is left to do after the choice (`old_sessions_finished_refuted`); the functions of `create_fn_choose_mpst_multi_to_all_bundle!` ask for `End`.
* examples/basic/logging.rs and benches/examples/basic/{logging,simple_voting}.rs give index 2 for the role at position 1. With two roles both indices mean the same (`two_roles_either_index`), so this is harmless.
* Not covered: the cancel forms with index 1, that is, the broadcaster as chooser; no program uses it.

Macros for choices (C65)
* The macros are named after the roles in lower case, so roles whose names differ only in case collide: with roles A, a, B, role A cannot choose by a macro (`every_role_can_choose_refuted`); the macro is ambiguous, or in the timed forms that of role a, which is rejected for A. The same holds between the two protocols of an interleaved program. No program of the repository does this.
* `get_all_roles` drops identifiers outside groups if some group has identifiers (`all_roles_read_refuted`); no form of `generate!` passes such input.
* The example of `generate!("interleaved", ..)` in the documentation (src/baking/mod.rs:75-95) gives both protocols the same name MeshedChannels, so the struct would be defined twice (read, not proved).

Repository tests (C66)
* The literals in `test_check_or` that are not formats contain doubled braces (regex_nuscr.rs:143-147), so the lines tested are `}}or{{`, not `}or{`; the assertions hold all the same, because the expression is not anchored.
* The test of the nested choice is commented out (tests/nuscr.rs:25-33) and its file is empty: the generator refuses nested choices (`refused_files`).

Printed types (C67)
* `SendTimed` and `RecvTimed` print as `Send` and `Recv`, and payloads are not printed: types of threads that cannot communicate have the same text (`types_told_apart_refuted`).
* With roles `A` and `ADual` two different stacks would have the same text, and `generate!` declares `RoleADual` twice (`stack_printed_refuted`).

Binary choices (C68)
* Three differences from enum choices, none of them observable in the logs and results: the old sessions are dropped after all choices have been sent, not between them; both ends of a new channel are exchanged when the chooser is the first role of the pair; `offer` exists only when all other sessions are `End`.

Hand-written library (C69)
* `offer_mpst_session_to_x_from_y` (src/functionmpst/offer.rs:21-56) takes any other session and drops it. With dual types and without any crash, a role that offers too early makes a peer's `recv` fail (`three_offer_discards_refuted`). The methods and the macros demand `End` there, so the same program does not compile with them (`three_method_offers_last`).

Choice functions (C70)
* create_choose_mpst_session_multi_left/right are for the last role only (said in src/macros_multiple/choose.rs:37), but nothing checks it: the name and the role of the caller are macro arguments. For the protocol 2->1, 1->3, 2->3 with role 1 choosing the call compiles, and role 3 receives as a message of role 1 what role 2 sent to role 1; all roles return Ok (`function_by_first_refuted`).

Attribute branching (C72)
* If the first variant out of order has the name of an earlier variant (A, B, A), `binary_search(..).unwrap_err()` panics, so the user sees a panic of the macro and not that the name is used twice (`branching_panics_refuted`).
* `branching_variants` prints every variant while compiling (`println!`, branching.rs:11), and its error for other items speaks of match expressions, which it does not accept (read, not proved).
* mpst_seq_proc/src/session_timed/ is not part of the crate (lib.rs has no `mod session_timed`) and generates code for another library (`::rumpsteak`); not modelled.

Protobuf (C74)
* `read_global_protocol_file` parses an Action and then a GlobalType from the same reader. The first parse reads to the end of the file, so the GlobalType is always the default one (`pb_file_default`, `pb_file_refuted`); a file that holds a GlobalType is read as an Action whose `idx` is the start (`pb_file_global`).
* Read in the code, not proved: the module is compiled only with the feature `protobuf` (src/lib.rs:341), which Cargo.toml does not have (it has `protobuf_feature`, and the dependency is not optional); globaltype.rs is generated for protobuf 3.2.0 and refuses any other version, while Cargo.toml asks for 3.4.0.
* The cached size of a nested message and the length of a string are written as `u32`, so from 4 GiB on the length is cut and the message is not read back (`pb_large_refuted`), unless the crate refuses to write it.

Texts of windows (C75)
* `constraint()` panics for the window without bounds, which the generator gives to every choice and which send and recv accept (`constraint_free_refuted`). A text such as `1 < a <= 3` is true at 1.5 seconds, when send and recv panic (`constraint_accepted_refuted`).

HTTP (read in the code, not proved)
* `choose_mpst_multi_http_to_all` generates calls of `mpstthree::binary::send::send_http`, which does not exist there (macros_http/choose/choose_mpst_multi_http_to_all.rs:152; `send_http` is in src/transport/http/send.rs:43). The macros for HTTP are commented out in mpst_seq_proc/src/lib.rs and the feature `transport_http` in Cargo.toml.

Bottom-up checker
* Tuple payloads are cut at the comma; role names with digits are not found (C31).
* A bound k = 50 accepted by KMC is reported as `None` (C33).
* A role whose name starts with the name of another one is read as that one when the other name comes first; a payload called `Name` + letter is rewritten to a role (C31).
* A loop taken right after a choice redirects the wrong transition: the machine given to KMC loses messages of the type (`loop_after_choice_refuted`). A choice directly inside a choice shares its node: graph and machine have behaviours that the type has not (`choice_in_choice_refuted`). A variant on no line of the macro is unknown to the checker, its behaviours are absent without an error (`missing_variant_refuted`) (C45).
* Read in the code, not proved: a variant given as a path (`mod::Enum::Variant`) is cut wrongly by the procedural macro; two enums whose names differ only in case give two functions of the same name; the order of the fields is assumed to be the alphabetical order of the roles.

nuscr generator
* Names collide for roles with `To` in their name (C34).
* Window bounds are compared as text: `[9;10]` rejected, `[10;9]` accepted (C35); with mixed brackets an accepted protocol cannot be followed and a followable one is rejected (C37). With two clocks, or one clock that a role restarts while a third does not, an accepted protocol that each role could follow alone cannot be followed by all (`two_clocks_refuted`, `restarts_refuted`, C46).
* A message after a choice is dropped; a `rec` without choice becomes two rounds and End; a label with two payloads keeps the last; a clock that is only reset is never started; `choice at` an undeclared role panics; a message in a loop is lost when a name in it ends with `rec` and the line mentions the loop (C38).
* A line that no expression matches (two payloads, spaces inside the parentheses, no `and resetting ()`) is ignored without an error; of two messages on a line the second is lost; `//` does not comment; a role after two spaces is no role; an empty first line is an error, one between `choice at A` and `{` a panic, two after a choice an error (C39).
* A role whose name ends with `timed` is renamed in the text given to nuscr when a space follows it (C40).
* Roles that differ only in case share their functions, threads and choice macros, `main` forks the same name twice (`role_case_refuted`); with roles `a` and `a_0` a function of a branch has the name of another role's (`role_underscore_refuted`); a role `End` or `All` makes `generate_atmp!` declare a type twice (`role_given_refuted`); a message `End` declares an imported type, a message called like its payload loses the payload (`label_refuted`) (C47).
* For branch k of a choice each role gets k+1 functions of the same type, since the last number of the index is taken for the number of branches (`functions_exact`, C47).
* A clock of several letters is accepted although it is written as a Rust `char` (`clock_char_refuted`); a bound above `i32::MAX` is accepted, and panics once another message uses the clock (`big_bound_refuted`) (C47).
* A choice of a nuscr protocol has no deadline in the generated types: a role that waits for a choice can neither go on nor give up while the chooser does nothing, although every message has an upper bound (`generated_deadlines_free_all_refuted`, C48).
* Two threads that share two sessions, or one thread that plays all roles (`fork_mpst_solo`), can wait for ever although each protocol is well formed: the types do not see the order between sessions (`shared_twice_refuted`, `solo_refuted`, C49). `fork_interleaved_mpst` only allows one shared thread, for which no order blocks (`fork_interleaved_progress`). An error in one session reaches the other only through a thread that stops (`failure_spreads`, `failure_contained_refuted`).
* In the timed blocks `choose_left` and `choose_right` have one set of constants for all receivers: a binary choice with different windows does not compile (`choice_windows_refuted`). With a single role the timed blocks do not compile (`one_role_refuted`); nor do blocks for two roles of one name (`repeated_role_refuted`), nor interleaved protocols whose MeshedChannels have one name (`interleaved_same_refuted`) (C50). Interleaved protocols that share a role name would declare its structs twice (read, not proved).

Transport (C53)
* `recv_tcp` and `recv_udp` throw away the data that came through the channel and return what they read from the server. So the result depends on the server and on the flags: with the flags of tests/tcp/binary.rs and tests/udp/binary.rs (A false, B true) A gets zeros and B reads back its own data (`different_flags_refuted`); one send with flag false shifts all later data and ends in waiting for ever (`one_flag_shifts_refuted`).
* With UDP one lost datagram makes the receiver wait for ever, although the value has come through the channel (`udp_loss_refuted`), and two that overtake each other are taken for each other without an error (`udp_overtaking_refuted`).
* Read in the code, not proved: tests/tcp/binary.rs takes five components from `recv_tcp`, which returns four; `cancel_tcp` panics if the shutdown fails; `close_tcp` does not look at the signal it receives (nobody sends `Cancel` in these sessions, so the machine with `close` has the same executions); `choose_tcp!` uses its argument `$data` twice.

## Not modelled

The HTTP helpers (`src/transport/http`, `macros_http`), file output and the external
`KMC` and `nuscr` programs (oracles), `Display`/`Debug` text, thread names, memory and stack sizes,
characters that are not ASCII (in the `regex` crate `\w`, `\d`, `\s` also match other alphabets).
