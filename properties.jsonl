{"id": "C01", "title": "Duality is an involution", "statement": "For every session type the library can express, the dual of the dual is the type itself. This holds for binary sessions (Send/Recv/End), for timed binary sessions (every clock constraint is kept unchanged on both sides), for role stacks, and for MeshedChannels (each binary field and the stack are dualised, the name is kept).", "quantifier": "every binary session type, timed session type, role stack and MeshedChannels type, of any depth and any number of fields", "why_tests_cant": "Types are unbounded; a test checks one type. rustc checks it only for the concrete types a program mentions.", "anchors": ["src/binary/struct_trait/{send,recv,end,session}.rs: Session::Dual", "src/binary_atmp/struct_trait/{send,recv}.rs", "src/role/*.rs: Role::Dual", "mpst_seq_proc/src/common_functions/expand/meshedchannels.rs"]}
{"id": "C02", "title": "Binary sessions deliver the sent values, in order, without loss or duplication", "statement": "When two threads share one binary session created by fork, then at every moment the list of values returned by recv on one side is a prefix of the list of values passed to send on the other side, in both directions, and a received value always has the payload type the receiver's session type announces.", "quantifier": "every binary session type, every pair of programs following it, every interleaving, every point at which either thread may crash", "why_tests_cant": "Interleavings and session types are unbounded; unit tests run one schedule of a handful of types.", "anchors": ["src/binary/send.rs: send", "src/binary/recv.rs: recv", "src/binary/struct_trait/*.rs: Session::new", "src/binary/fork.rs: fork_with_thread_id"]}
{"id": "C03", "title": "binary send never blocks and never fails", "statement": "binary::send::send always returns at once with the continuation session, whatever the other side has done (not started, slow, crashed, dropped). Its one-place buffer is never full when it is called.", "quantifier": "every session type, every schedule, every crash point of the peer", "why_tests_cant": "A blocking send would only show under particular schedules.", "anchors": ["src/binary/send.rs: send", "src/binary/struct_trait/send.rs: Session::new (bounded(1))"]}
{"id": "C04", "title": "send_canceled panics exactly when the peer has gone", "statement": "send_canceled returns Ok if the peer still holds its endpoint when the message is handed over, and panics (never returns Err) if the peer has dropped it.", "quantifier": "every session type, every schedule and every crash point of the peer", "why_tests_cant": "The outcome depends on the race between the peer's drop and the send.", "anchors": ["src/binary/send.rs: send_canceled", "mpst_seq_proc/src/common_functions/expand/send.rs: send_canceled"]}
{"id": "C05", "title": "A forked binary session never deadlocks", "statement": "A parent and a forked child that only share one binary session and follow their (dual) session types never wait for each other at the same time. If neither crashes and the protocol is finite, both return from close with Ok.", "quantifier": "every session type, every pair of conforming programs (any values, any branch choices), every schedule", "why_tests_cant": "Absence of deadlock is a statement about all schedules.", "anchors": ["src/binary/{send,recv,close,choose,offer,fork}.rs"]}
{"id": "C06", "title": "A crash on one side of a binary session is reported on the other side, never a hang", "statement": "If one side of a binary session panics, returns early or cancels at any point, the other side's current or next blocking call (recv, offer, close) returns: either it delivers a message that was sent before the crash, or it returns an error. Messages sent before the crash are still delivered first.", "quantifier": "every session type, every crash point of either side, every schedule", "why_tests_cant": "Crash points times schedules cannot be enumerated by tests.", "anchors": ["src/binary/recv.rs: recv", "src/binary/close.rs: close", "src/binary/cancel.rs: cancel"]}
{"id": "C07", "title": "close returning Ok means the peer has finished too", "statement": "binary close returns Ok only if the peer has itself called close on its endpoint (its Stop signal was received). If the peer drops or cancels its endpoint instead, close returns an error. It never returns Ok because of a buffered ordinary message.", "quantifier": "every schedule, every crash point of the peer, including in the middle of its own close", "why_tests_cant": "Depends on races between the two closes and crashes.", "anchors": ["src/binary/close.rs: close", "src/binary/struct_trait/end.rs: End, Signal"]}
{"id": "C08", "title": "fork connects every pair of roles by its own private pair of dual channels", "statement": "fork_mpst, for any number of roles n, gives role i and role j (i different from j) the two ends of one and the same binary channel, of types S and Dual(S) for one type parameter S; each of the n(n-1)/2 type parameters is used for exactly one pair of roles; no channel end is given to two roles or forgotten.", "quantifier": "every number of roles n >= 2 and every pair of roles", "why_tests_cant": "The wiring is produced by index arithmetic in a procedural macro; tests expand it for a few n only.", "anchors": ["mpst_seq_proc/src/common_functions/maths.rs: diag, diag_and_matrix, diag_w_offset, diag_and_matrix_w_offset, get_tuple_matrix, get_tuple_diag", "mpst_seq_proc/src/common_functions/expand/aux_fork.rs: create_new_channels, create_new_meshedchannels", "mpst_seq_proc/src/common_functions/expand/fork.rs: fork_mpst, fork_atmp_mpst", "mpst_seq_proc/src/macros_multiple/multiple/fork_mpst_multi.rs", "mpst_seq_proc/src/interleaved/fork_mpst_multi_solo.rs"]}
{"id": "C09", "title": "send and recv act on exactly the session shared with the named peer", "statement": "The generated send (and recv) method of role i towards role j changes exactly one session field of i's MeshedChannels, that field is the one connected to j, its declared type is the only one wrapped in Send (Recv), and it is the field j's matching recv (send) uses.", "quantifier": "every number of roles, every ordered pair of distinct roles", "why_tests_cant": "Index arithmetic in macros, instantiated by tests for few n and few pairs.", "anchors": ["mpst_seq_proc/src/common_functions/expand/send.rs: send_basic, send_canceled, send_atmp_canceled", "mpst_seq_proc/src/common_functions/expand/recv.rs: recv_basic, recv, recv_from_all*, recv_atmp"]}
{"id": "C10", "title": "An enum choice gives every role a consistent fresh set of channels", "statement": "choose_mpst_multi_to_all run by role e among n roles creates one fresh channel per pair of roles and hands them out so that after the choice every two roles (including e) again hold the two ends of one private channel, in the right field; each passive role is sent its own new MeshedChannels on the session it shares with e; no end is used twice or lost.", "quantifier": "every n >= 2 and every choosing role", "why_tests_cant": "Macro index arithmetic; tests use few n and few choosers.", "anchors": ["mpst_seq_proc/src/choose_mpst_multi_to_all.rs: expand", "mpst_seq_proc/src/choose_atmp_mpst_multi_to_all.rs: expand", "mpst_seq_proc/src/macros_multiple/multiple/choose/create_fn_choose_mpst_multi_to_all_bundle.rs: expand"]}
{"id": "C11", "title": "The generated choose_left/choose_right methods type-check for every number of roles", "statement": "In the code generated for choose_left and choose_right, the channel ends placed in the MeshedChannels sent to each passive role and in the one returned to the chooser have exactly the session types declared in the method's signature, and any two roles hold dual ends of one channel; the same holds for the function form create_choose_mpst_session_multi_left/right.", "quantifier": "every number of roles, every choosing role, every pair of roles, both branches", "why_tests_cant": "rustc checks one instantiation at a time; the claim is about the generator.", "anchors": ["mpst_seq_proc/src/common_functions/expand/choose.rs: choose_basic, choose, choose_atmp", "mpst_seq_proc/src/macros_multiple/multiple/choose/create_choose_mpst_session_multi_left.rs", "mpst_seq_proc/src/macros_multiple/multiple/choose/create_choose_mpst_session_multi_right.rs"]}
{"id": "C12", "title": "Interleaved fork runs each function on the MeshedChannels it was typed for", "statement": "The interleaved fork of two protocols with n1 and n2 roles starts n1+n2-1 threads; every function argument is called with the MeshedChannels of the role its declared type belongs to, the interleaved function gets the two requested roles, and no MeshedChannels is used twice or left out.", "quantifier": "every n1, n2 >= 2 and every pair of interleaved role indices", "why_tests_cant": "Offset arithmetic with three cases; tests use a few values.", "anchors": ["mpst_seq_proc/src/common_functions/expand/fork.rs: fork_interleaved_mpst, fork_atmp_interleaved_mpst"]}
{"id": "C13", "title": "Choice with broadcaster keeps every participant connected to the broadcaster", "statement": "After choose_mpst_multi_cancel_to_all and the corresponding offers, the broadcaster (role 1) again holds exactly one signal channel to each other participant, i.e. each participant's channel to the broadcaster is connected to exactly one broadcaster field. The expected stronger reading, that the broadcaster's field for role k is connected to role k, is examined too.", "quantifier": "every n >= 3, every choosing role other than the broadcaster", "why_tests_cant": "Order in which ends are pushed and popped by the macro; tests only see that protocols finish.", "anchors": ["mpst_seq_proc/src/macros_multiple/multiple/choose/choose_mpst_multi_cancel_to_all.rs: expand", "mpst_seq_proc/src/macros_multiple/multiple/choose/create_fn_choose_mpst_cancel_multi_to_all_bundle.rs", "src/macros_multiple/offer.rs: offer_cancel_mpst"]}
{"id": "C14", "title": "Multiparty communication is safe: right payload, right order, right branch", "statement": "In a session of n roles started by fork, whatever the role stacks say and however threads are scheduled, each recv of role j from role i returns the values sent by i to j in order, with the payload type announced by j's session type; an offer never meets a label its enum does not contain, and every passive role takes the branch the chooser selected.", "quantifier": "every n, every assignment of pairwise dual sessions, every schedule, every crash point", "why_tests_cant": "Unbounded schedules and protocols.", "anchors": ["mpst_seq_proc/src/common_functions/expand/{send,recv,choose,offer,fork}.rs", "mpst_seq_proc/src/choose_mpst_multi_to_all.rs", "src/macros_multiple/offer.rs: offer_mpst"]}
{"id": "C15", "title": "Protocols derived from a global description do not deadlock", "statement": "If the MeshedChannels types of the n roles are the projections of one global protocol (messages, multiparty choices with labels, recursion through choices), then in every reachable state either every role has finished, or some role can take a step. No role waits for ever on a role that waits on it.", "quantifier": "every number of roles, every global protocol (finite or recursive), every schedule, every choice of branches and values", "why_tests_cant": "Deadlock freedom quantifies over all schedules of all protocols.", "anchors": ["src/meshedchannels/mod.rs", "mpst_seq_proc/src/common_functions/expand/{send,recv,choose,offer,close,fork}.rs", "mpst_seq_proc/src/choose_mpst_multi_to_all.rs"]}
{"id": "C16", "title": "Without crashes every role of a finite global protocol closes with Ok", "statement": "If the roles follow the projections of one global protocol, nobody crashes, and the protocol run is finite, then every maximal execution ends with every role having returned Ok from close, and no operation of any role ever reports an error.", "quantifier": "every n, every global protocol, every schedule, every branch choice", "why_tests_cant": "All schedules.", "anchors": ["mpst_seq_proc/src/common_functions/expand/close.rs: close", "mpst_seq_proc/src/common_functions/expand/fork.rs: fork_mpst"]}
{"id": "C17", "title": "A crashed role never leaves another role hanging", "statement": "Take roles following the projections of one global protocol and let any roles panic, return early or cancel at any points. In every reachable state in which some role is not finished, some role can take a step: a role waiting for a crashed role (directly or through others) obtains an error instead of waiting for ever; with a finite protocol all threads terminate.", "quantifier": "every n, every global protocol, every set of crashing roles, every crash point (including in the middle of a choice or a close), every schedule", "why_tests_cant": "Crash points times schedules times protocols.", "anchors": ["src/binary/cancel.rs", "mpst_seq_proc/src/common_functions/expand/{recv,cancel,close}.rs", "src/binary/send.rs: send, send_canceled"]}
{"id": "C18", "title": "Multiparty close is all-or-nothing with respect to roles that never reach it", "statement": "close of a MeshedChannels returns Ok only after every other role has called its own close. So if a role panics, returns early or cancels before it calls close, no other role's close returns Ok.", "quantifier": "every n, every protocol (even badly designed ones), every schedule, every crash point", "why_tests_cant": "All schedules, any number of roles.", "anchors": ["mpst_seq_proc/src/common_functions/expand/close.rs: close", "src/functionmpst/close.rs: close_mpst", "mpst_seq_proc/src/macros_multiple/multiple/close/*.rs"]}
{"id": "C19", "title": "Pairwise-dual types alone do not exclude deadlock", "statement": "There is a set of MeshedChannels types, accepted by fork (all sessions pairwise dual), for which the session blocks for ever: this is why the library asks for a global description or the bottom-up check. The claim that typing alone prevents deadlock is false.", "quantifier": "exhibits a 3-role protocol and a schedule", "why_tests_cant": "A test that hangs is not a usable test; the statement fixes the exact border of the guarantee.", "anchors": ["src/checking/mod.rs", "mpst_seq_proc/src/common_functions/expand/fork.rs"]}
{"id": "C20", "title": "A timed operation only succeeds inside its time window", "statement": "If a timed send or recv succeeds, then the clock named in its type had, when checked, a value inside the declared window as measured by the library (whole elapsed seconds against START/END with the declared inclusions), and the operation completed no later than END seconds on that clock when an upper bound exists.", "quantifier": "every window (START, END, INCLUDE_START, INCLUDE_END), every clock map, every instant, every behaviour of the channel", "why_tests_cant": "Windows and instants are unbounded; tests sleep for a few chosen durations.", "anchors": ["src/binary_atmp/send.rs: send, send_without_reset", "src/binary_atmp/recv.rs: recv"]}
{"id": "C21", "title": "A timed operation performed inside its window is accepted", "statement": "If the elapsed time on the clock lies inside the declared window (compared exactly, not in whole seconds) and the peer is ready, the timed operation succeeds. (Expected by users; examined, and the cases where the implementation refuses are characterised.)", "quantifier": "every window, every instant inside it, every clock map containing the clock", "why_tests_cant": "Failing instants form sub-second intervals at the bounds that tests do not hit deliberately.", "anchors": ["src/binary_atmp/send.rs: send", "src/binary_atmp/recv.rs: recv"]}
{"id": "C22", "title": "Windows with a lower bound and no upper bound are usable", "statement": "A timed send/recv whose window has START >= 0 and END < 0 (documented and printed as 'lower bound only') succeeds when the clock is past START. (Examined: send and recv refuse it, send_without_reset accepts it.)", "quantifier": "every such window, every clock map, every instant", "why_tests_cant": "The branch handling this case exists but is unreachable; tests of the constraint printer pass.", "anchors": ["src/binary_atmp/send.rs: send", "src/binary_atmp/recv.rs: recv", "src/binary_atmp/struct_trait/send.rs: constraint"]}
{"id": "C23", "title": "Only the named clock is reset, and only by a successful operation", "statement": "A timed operation changes at most the clock named by RESET; it changes it only if the operation handed over the message; after success with RESET different from ' ' that clock reads zero. An operation that is refused because of its window leaves all clocks unchanged.", "quantifier": "every window, clock map, instant, channel behaviour", "why_tests_cant": "Cross product of cases.", "anchors": ["src/binary_atmp/send.rs", "src/binary_atmp/recv.rs"]}
{"id": "C24", "title": "A timed choice judges all receivers against the same clock values", "statement": "When a role makes a timed choice towards all others, a reset requested by the choice takes effect only after every receiver has been served, so that either all or none of the sends of an in-window choice pass the window check. (True of choose_atmp_mpst_multi_to_all; examined for the generated choose_left/choose_right.)", "quantifier": "every n, every window and reset clock, every instant", "why_tests_cant": "Only visible for windows with START > 0 and a resetting choice with at least two receivers.", "anchors": ["mpst_seq_proc/src/choose_atmp_mpst_multi_to_all.rs: expand", "mpst_seq_proc/src/common_functions/expand/choose.rs: choose_atmp", "src/binary_atmp/send.rs: send_without_reset"]}
{"id": "C25", "title": "select picks a ready session and keeps exactly the others", "statement": "select/select_mut on a non-empty list of receivers returns the message (or the disconnection) of one receiver that was ready, removes exactly that one, keeps all others unchanged (as a multiset), never blocks if one is ready, and reports an error on an empty list.", "quantifier": "every list of receivers, every readiness pattern, every index chosen by the channel library", "why_tests_cant": "Readiness patterns and chosen indices are nondeterministic.", "anchors": ["src/binary/select.rs: select_mut, select"]}
{"id": "C26", "title": "attempt! runs blocks in order up to the first error and then the handler once", "statement": "attempt!{ { b1; b2; ... } catch (e) { h } } evaluates b1, b2, ... in order, stops at the first one that returns an error, evaluates h exactly once with that error in that case and never otherwise.", "quantifier": "every list of blocks and every pattern of failures", "why_tests_cant": "Quantifies over all lists and failure patterns.", "anchors": ["src/attempt.rs: attempt"]}
{"id": "C27", "title": "Cancelling through the broadcaster reaches every participant", "statement": "If a participant sends the cancel signal to the broadcaster, the broadcaster forwards a cancel signal to every participant still connected and then stops with a panic; participants that already closed are not confused with cancelled ones; without any cancel, once all participants have sent Stop the broadcaster ends normally after answering Stop to each exactly once.", "quantifier": "every number of participants, every arrival order of signals, offers of replacement channels included", "why_tests_cant": "Arrival orders are unbounded.", "anchors": ["mpst_seq_proc/src/macros_multiple/multiple/broadcast_cancel.rs: expand", "mpst_seq_proc/src/macros_multiple/multiple/send/send_cancel.rs"]}
{"id": "C28", "title": "The broadcaster notices a participant that dies silently", "statement": "If a participant's thread ends without sending Stop or Cancel, the broadcaster terminates. (Examined: the polling loop ignores disconnections, so it spins for ever.)", "quantifier": "every number of participants, every schedule in which one participant drops its session", "why_tests_cant": "A test would have to wait for ever.", "anchors": ["mpst_seq_proc/src/macros_multiple/multiple/broadcast_cancel.rs: expand"]}
{"id": "C29", "title": "close variants agree on what counts as a clean end", "statement": "All close functions accept only a Stop signal from each peer as a clean end, and report Cancel. (Examined per variant: the method close and the three-role close_mpst panic on anything else; the macros close_mpst and close_mpst_cancel accept any signal; close_mpst_check_cancel panics on Cancel.)", "quantifier": "every variant, every n, every vector of received signals", "why_tests_cant": "Cross product of variants and signals.", "anchors": ["mpst_seq_proc/src/macros_multiple/multiple/close/{close_mpst,close_mpst_cancel,close_mpst_check_cancel}.rs", "mpst_seq_proc/src/common_functions/expand/close.rs", "src/functionmpst/close.rs", "src/binary/close.rs", "src/transport/tcp/close.rs"]}
{"id": "C30", "title": "One thread can close all roles of a session at once", "statement": "close_mpst_interleaved applied in one thread to all n endpoints of one session never blocks and returns Ok. Closing the same endpoints one after the other with the ordinary close blocks for ever.", "quantifier": "every n >= 2", "why_tests_cant": "Generated per n; blocking is a hang.", "anchors": ["mpst_seq_proc/src/interleaved/close_mpst_interleaved.rs: expand", "src/interleaved/close.rs", "mpst_seq_proc/src/interleaved/fork_mpst_multi_solo.rs"]}
{"id": "C31", "title": "The bottom-up checker reads back exactly the types it is given", "statement": "For every session type built from Send, Recv, End, Either, MeshedChannels, roles and payload names without separators, splitting its printed form into fields gives back the printed fields, head/payload/continuation extraction gives back the head, the payload and the continuation, and build_dual of the printed form is the printed form of the dual type. (Examined for payload types containing commas.)", "quantifier": "every session type and every MeshedChannels type", "why_tests_cant": "Types are unbounded; the parser is a hand written counter.", "anchors": ["src/checking/aux_checker.rs: get_blocks, get_head_payload_continuation, build_dual"]}
{"id": "C32", "title": "The checker's state machine of a role has exactly the role's behaviours", "statement": "For every MeshedChannels type made of messages and binary (left/right) choices, the graph and the CFSM text produced for the role have, from the initial node, exactly the sequences of send/receive actions that the type allows, in stack order, with the right peer index and payload.", "quantifier": "every number of roles and every finite local type", "why_tests_cant": "Trees of behaviours are unbounded.", "anchors": ["src/checking/aux_checker.rs: aux_get_graph, get_graph_session, extract_index_node"]}
{"id": "C33", "title": "The checker returns the smallest k accepted by KMC", "statement": "When a file name is given, checker returns Some(k) for the smallest bound k accepted by the KMC tool, and None if the tool accepts no k up to 50, as documented. (Examined at k = 50.)", "quantifier": "every behaviour of the KMC tool", "why_tests_cant": "The tool's answer is external; the loop's behaviour for all answers is not tested.", "anchors": ["src/checking/mod.rs: checker, kmc_cli"]}
{"id": "C34", "title": "Types generated from a nuscr protocol are pairwise dual and follow the protocol order", "statement": "For every global protocol made of message lines over declared roles, the types generated for roles A and B on the session they share are dual of each other, list the messages between A and B in protocol order with the same payload, clock and window, and each role's generated stack lists its partners in protocol order; so the generated endpoints can be given to fork together.", "quantifier": "every list of roles and every list of message lines, with windows and resets", "why_tests_cant": "Protocols are unbounded; tests compare a few generated files.", "anchors": ["src/top_down_nuscr/auxiliary_objects/messages_and_stacks_update/*.rs", "src/top_down_nuscr/auxiliary_objects/process_line.rs", "src/top_down_nuscr/auxiliary_objects/code_generate/{sessions,stacks,endpoints,enums}.rs"]}
{"id": "C35", "title": "The nuscr generator accepts exactly the sound time windows", "statement": "A message line whose left bound is smaller than its right bound is accepted, and one whose left bound is larger is rejected. (Examined: bounds are compared as text.)", "quantifier": "every pair of natural number bounds", "why_tests_cant": "Failing pairs need different numbers of digits.", "anchors": ["src/top_down_nuscr/auxiliary_objects/line_is_message.rs: update_messages", "src/top_down_nuscr/auxiliary_objects/messages_and_stacks_update/previous_message_wrt_clocks.rs: fn_previous_message_wrt_clocks"]}
{"id": "C36", "title": "Role stacks advance without blocking or failing", "statement": "Advancing a role stack (continuation, continuation_left, continuation_right) always returns the rest of the stack at once, for stacks obtained by fork, choice or earlier continuation, although the other half of the stack's internal channel was dropped.", "quantifier": "every stack, every way of obtaining it", "why_tests_cant": "Internal channels; would show up as a hang.", "anchors": ["src/role/a.rs: RoleA::continuation", "mpst_seq_proc/src/common_functions/expand/role.rs", "mpst_seq_proc/src/macros_simple/roles/*.rs"]}
{"id": "C37", "title": "A protocol accepted by the nuscr generator can be followed in time", "statement": "For every accepted protocol, every role and every clock: the role can make its messages of a part in order, each inside its window, on a clock that only grows and starts again at 0 when a message resets it. Conversely a protocol that can be followed is accepted. (Examined: brackets are added to the bounds as 0 or 1.)", "quantifier": "every protocol, role, clock and number of messages; times are rationals", "why_tests_cant": "The failing cases need a window that is open on the right followed by one that is closed, or a window inside an earlier one.", "anchors": ["src/top_down_nuscr/auxiliary_objects/messages_and_stacks_update/previous_message_wrt_clocks.rs: fn_previous_message_wrt_clocks"]}
{"id": "C38", "title": "Nothing of an accepted nuscr file is lost", "statement": "In an accepted file every message line appears in the generated types, every loop stays a loop, every payload is the one of the struct of its label, every clock that is reset is started, and the generator never panics. (Examined: all of these were found false.)", "quantifier": "every list of lines", "why_tests_cant": "The tests compare a few complete files.", "anchors": ["src/top_down_nuscr/auxiliary_objects/process_line.rs: process_line", "src/top_down_nuscr/auxiliary_objects/line_is_message.rs: update_messages", "src/top_down_nuscr/auxiliary_objects/code_generate/fn_endpoints.rs", "src/top_down_nuscr/auxiliary_objects/code_generate/structs.rs"]}
{"id": "C39", "title": "The lines of a nuscr file are read as they were written", "statement": "For every protocol text, whatever its spacing: the header gives the name and the roles in order, a message line gives exactly its label, payload, roles, bounds, brackets, clock and reset, a choice, or, rec or continue line is recognised with its name, and braces and empty lines are nothing else; so one text stands for one protocol. (Examined: lines that no expression matches are ignored, two messages on a line, two spaces after role, empty lines at some places.)", "quantifier": "every text of a protocol: every name, bound and spacing", "why_tests_cant": "The tests use a few files with the same spacing; a regular expression that misses or confuses a line loses it without an error.", "anchors": ["src/top_down_nuscr/auxiliary_objects/process_line.rs: process_line", "src/top_down_nuscr/auxiliary_objects/line_is_message.rs", "src/top_down_nuscr/auxiliary_objects/regex_nuscr.rs"]}
{"id": "C40", "title": "The protocol given to nuscr is the timed protocol without its time", "statement": "generate_regular_protocol keeps the name, the number and the order of the lines: the first line loses \"timed \", each message line keeps margin, label, payload, sender and receiver, every other line is unchanged. (Examined: a role whose name ends with timed.)", "quantifier": "every text of a protocol", "why_tests_cant": "The output is only given to an external program.", "anchors": ["src/top_down_nuscr/generate_regular_protocol.rs: generate_regular_protocol"]}
{"id": "C41", "title": "The hand-written three-role functions connect and type check", "statement": "fork_mpst gives A, B and C a complete private network with the declared types. In each of the three hand-written families (functionmpst, macros_simple, meshedchannels/impl_*), whoever of A, B, C chooses and whichever branch: the two MeshedChannels sent and the one returned are again a complete private network, each goes to the role named in it, and for all session types S0..S5 and stacks R0..R5 the values built have the declared types, which are pairwise dual. send_mpst_x_to_y, recv_mpst_x_from_y, recv_mpst_x_all_from_y act on exactly the field that faces y and leave the other one.", "quantifier": "all session types and stacks, all three roles, both branches, the three families", "why_tests_cant": "The compiler checks each function alone; that the three declared types of a branch fit together for all S0..S5 and that no two ends are exchanged between roles of equal type is checked by no test.", "anchors": ["src/functionmpst/choose.rs", "src/macros_simple/choose.rs", "src/meshedchannels/impl_a.rs", "src/functionmpst/fork.rs: fork_mpst", "mpst_seq_proc/src/functionmpst"]}
{"id": "C42", "title": "Roles that follow generated types cannot deadlock", "statement": "For every accepted protocol text with at least two roles (distinct, without To in their names; no message named like a choice enum), the generated file, read as untimed MeshedChannels types through its own declarations (type aliases, enums and their variants, order of the roles in generate_atmp!), has exactly one reading, and that reading is the projection of the protocol on each role, at the start and in every branch, loops included. Hence every execution of roles with these types, under any schedule, values, choices and crashes, is never stuck; without crash no operation fails and, when nothing more can happen, every role has returned Ok and received in each round what was sent to it; if no branch continues the loop, all executions are bounded. Times are ignored here (C20-C24, C35 are about them).", "quantifier": "all accepted texts, all readings of the file, all executions of any number of roles", "why_tests_cant": "It composes the generator (any protocol) with the run-time library (any schedule); tests run a few generated files.", "anchors": ["src/top_down_nuscr/mod.rs", "mpst_seq_proc/src/common_functions/expand", "src/binary", "src/macros_multiple"]}
{"id": "C43", "title": "Timed sessions are safe and never deadlock, whatever the windows and the clocks", "statement": "Take n roles whose sends, receives and choices go through the window tests of the timed library (own clocks, any windows, any readings of the system clock, receives that may give up while the channel is empty). (a) For pairwise dual types, whatever happens, one list of choices explains what all roles did, nobody meets a message of the wrong type, and Ok from close still means that every role called close. (b) For projections of a global protocol: in every reachable state every role has ended or some role can do something other than crash or give up; finite protocols have the same bound on the number of steps as without time. (c) If nobody crashes or gives up and each role is inside its window whenever it moves, no operation fails and every role ends with Ok, having received everything sent to it. (d) If a role's clock is outside the window of its next operation from now on, the next thing it does (other than restarting a clock) ends it, and nobody can return Ok any more.", "quantifier": "all numbers of roles, types, windows, readings, schedules, crashes", "why_tests_cant": "Timing, schedule and crash position are not under the control of a test; deadlock freedom is about all of them.", "anchors": ["src/binary_atmp/send.rs", "src/binary_atmp/recv.rs", "mpst_seq_proc/src/choose_atmp_mpst_multi_to_all.rs", "mpst_seq_proc/src/common_functions/expand/send.rs:178-292", "mpst_seq_proc/src/common_functions/expand/recv.rs:369-480", "mpst_seq_proc/src/baking_atmp/baking_atmp_with_enum_and_cancel.rs"]}
{"id": "C44", "title": "A role waits only in a receive and in close; an upper bound frees a receive", "statement": "Roles that follow the projections of a global protocol, whoever crashes: a role that has not ended can do something by itself, or is about to receive (a value or a branch), or is inside close with all its signals sent. It never waits in a send, in a choice it makes or while dropping. With timed operations: a role whose next receive has an upper bound can receive or give up, so it never waits for another role; only receives without upper bound and close can wait.", "quantifier": "all numbers of roles, well-formed global protocols, windows, readings, schedules, crashes", "why_tests_cant": "Says that no reachable state has a waiting role elsewhere.", "anchors": ["src/binary/send.rs", "src/binary/close.rs", "src/binary_atmp/recv.rs", "mpst_seq_proc/src/common_functions/expand/close.rs"]}
{"id": "C45", "title": "The checker on recursive protocols with enums of branches: graphs and KMC machines have the behaviours of the types", "statement": "Given the endpoints, the enum variants and the lines `(endpoint, { Enum::Variant, ... })` of checker_concat!, the maps built by the macros and read by the checker are the tables of the enums and of the lines. For every role whose loops are taken only after a message since the last choice and whose choices are not directly inside choices, the walks of the graph (without the loop marks) are exactly the finite behaviours of the recursive type, and the walks of the machine in the file given to KMC are exactly the behaviours of the type without the final mark. Outside that condition this fails: a loop taken right after a choice turns the wrong transition of the machine, a choice directly inside a choice merges the two, and a variant that is on no line is silently left out.", "quantifier": "all numbers of roles, types, enums, variants, lines, orders of the endpoints, answers of KMC", "why_tests_cant": "A test compares the text of the graph of one protocol with an expected text; equality of infinitely many behaviours, for all protocols, is out of reach.", "anchors": ["src/checking/mod.rs", "src/checking/aux_checker.rs", "mpst_seq_proc/src/checking/aux_checking.rs", "mpst_seq_proc/src/checking/aux_checking_impl.rs", "tests/checking_mod/basics/checking_recursion.rs"]}
{"id": "C46", "title": "When all roles of an accepted nuscr protocol can keep their windows in one run", "statement": "Take a protocol that the nuscr generator accepts and a part of it (the messages before the choice, or one branch). If its messages use one clock that none of them restarts, and their windows are non-empty and all closed or all open on the right, there are instants for every send and every receive, one run for all roles, such that no role goes back in time, nothing is received before it is sent and both sides of each message are in the window on their own clock. With two roles the clock may also be restarted. Keeping the windows together implies what C37 asks of each role and clock alone, but not conversely: with two clocks, or with three roles and one restarted clock, the generator accepts protocols that no run can follow although each role alone could, whatever the instants at which the roles start.", "quantifier": "all protocols, texts, roles, windows, clocks, starting instants", "why_tests_cant": "A test runs one timetable; that a joint timetable exists for every accepted protocol, or exists for no real instants at all, ranges over dense time.", "anchors": ["src/top_down_nuscr/auxiliary_objects/process_line.rs", "src/top_down_nuscr/auxiliary_objects/messages_and_stacks_update/sender_messages.rs", "src/top_down_nuscr/generator.rs"]}
{"id": "C47", "title": "The names in a generated nuscr file are declared, and declared once", "statement": "In the file the nuscr generator writes for a protocol, every type that is named is declared in the file, imported, or made by generate_atmp!. If the roles do not contain \"To\", are not End or Broadcast, do not start with All and do not end with Dual or toAll, and the titles of labels and payloads have no underscore and are not imported or made names, then no type is declared twice. There is one struct per label and per payload and no other, and the struct of a message has the payload as its field unless two labels share a title with different payloads or a label has the title of a payload. The functions are exactly those of each role and part, the number of them being the last number of the index plus one; if roles have no underscore and differ in lower case they have distinct names, and main gives fork_mpst, in the order of the roles of the mesh, the function on the first endpoint of each role. Outside these conditions each claim fails for some accepted protocol; a clock of two letters is accepted although written as a Rust char, and a bound above i32::MAX is accepted unless another message uses the clock, when it panics.", "quantifier": "all protocols, texts, roles, labels, payloads, title functions", "why_tests_cant": "The tests compile the output for a few protocols; that no accepted protocol yields an undeclared or doubly declared name depends on all names a user may choose.", "anchors": ["src/top_down_nuscr/auxiliary_objects/code_generate/structs.rs", "src/top_down_nuscr/auxiliary_objects/code_generate/imports.rs", "src/top_down_nuscr/auxiliary_objects/code_generate/fn_main.rs", "src/top_down_nuscr/auxiliary_objects/code_generate/fn_endpoints.rs", "src/top_down_nuscr/auxiliary_objects/code_generate/enums.rs", "src/top_down_nuscr/auxiliary_objects/code_generate/endpoints.rs", "src/top_down_nuscr/auxiliary_objects/code_generate/sessions.rs", "src/top_down_nuscr/auxiliary_objects/code_generate/stacks.rs", "mpst_seq_proc/src/common_functions/expand/role_atmp.rs", "mpst_seq_proc/src/common_functions/expand/name.rs", "mpst_seq_proc/src/common_functions/expand/choose.rs", "src/top_down_nuscr/auxiliary_objects/messages_and_stacks_update/previous_message_wrt_clocks.rs"]}
{"id": "C48", "title": "Roles with generated types and windows do not wait for ever, except for a choice or a close", "statement": "The windows in the types of the file generated for an accepted protocol with one-letter clocks can be read in one way only: field by field, in order, those of the messages of the protocol, the choice having no bounds. Roles started with these types and windows, whatever their clocks show, whoever is late, gives up or crashes, are never all waiting; if every operation is started in its window all return Ok with what was sent. At any moment the operation a role is about to make with another role is in the window of a message of the protocol between these two roles, in the same direction and with the same payload, or without bounds if it is the choice. A role that has not ended can move by itself unless it waits for the choice of another role or for the others to close; for the choice this exception is needed.", "quantifier": "all protocols, texts, clocks, schedules, delays, crashes, loops included", "why_tests_cant": "The generated examples are run with fast machines; lateness, its propagation and waiting for ever depend on all schedules and clock readings.", "anchors": ["src/top_down_nuscr/auxiliary_objects/code_generate/sessions.rs", "src/top_down_nuscr/auxiliary_objects/code_generate/endpoints.rs", "src/binary_atmp/struct_trait/send.rs", "src/binary_atmp/struct_trait/recv.rs", "mpst_seq_proc/src/common_functions/expand/choose.rs"]}
{"id": "C49", "title": "Sessions interleaved in one thread do not block each other, unless they are shared in a circle", "statement": "Threads may hold endpoints of several sessions and switch between them after every step. In any such execution each session does an execution of its own, so all that is proved of one session holds of each. If no thread has two roles of one session and every session shares at most one thread with the sessions before it, then whatever the programs do in which order, whoever crashes, it is never the case that something is left to do and nobody can move; finite protocols end within the sum of their bounds, and without crashes all closes return Ok and what is received is what was sent. fork_interleaved_mpst gives such a sharing for all sizes and indexes. A thread that stops at an error makes every session in which it has not begun to close fail. With two shared threads, or one thread for all roles (solo), the programs can wait for ever on types without fault; but for finite protocols some order of the operations always completes. A thread that handles an error can finish its other sessions.", "quantifier": "any number of sessions, roles, well-formed global protocols (loops included), sharings, schedules, orders of use, crashes", "why_tests_cant": "The interleaved tests run two or three fixed protocols in one order; the absence of cross-session deadlock depends on the shape of the sharing and on all orders.", "anchors": ["mpst_seq_proc/src/common_functions/expand/fork.rs", "mpst_seq_proc/src/baking/baking_interleaved_with_enum_and_cancel.rs", "mpst_seq_proc/src/interleaved/fork_mpst_multi_solo.rs", "src/interleaved/"]}
{"id": "C50", "title": "The generated impl blocks compile together and give each MeshedChannels exactly the methods of its type", "statement": "For any number of roles from two, with distinct names, the impl blocks written by generate! and generate_atmp! declare every type parameter they use and constrain every one they declare (E0412, E0207), and no type gets one method from two blocks (E0592); two interleaved protocols do not clash if their MeshedChannels have different names. A MeshedChannels of role p answers send (recv) if and only if the top of its stack names a role q and its session with q sends (receives), and the call returns the MeshedChannels with that session advanced and the stack popped; offer, recv_from_all, choose_left and choose_right, close and cancel are characterised in the same way, so every call has at most one type of result. If p may send to q then q may receive it, and if p may choose then all others may offer; afterwards the sessions of all roles are dual again. The thread machine of the other properties makes exactly these calls. A timed binary choice needs one window for all receivers.", "quantifier": "all numbers and names of roles, session types, stacks, windows", "why_tests_cant": "The tests compile fixed protocols for a few numbers of roles; that no other call compiles, and that blocks never overlap, are statements about all types and all numbers of roles.", "anchors": ["mpst_seq_proc/src/baking/baking_basic.rs", "mpst_seq_proc/src/baking/baking_with_enum_and_cancel.rs", "mpst_seq_proc/src/baking/baking_interleaved_with_enum_and_cancel.rs", "mpst_seq_proc/src/baking_atmp/baking_atmp_with_enum_and_cancel.rs", "mpst_seq_proc/src/common_functions/expand/send.rs", "mpst_seq_proc/src/common_functions/expand/recv.rs", "mpst_seq_proc/src/common_functions/expand/offer.rs", "mpst_seq_proc/src/common_functions/expand/choose.rs", "mpst_seq_proc/src/common_functions/expand/close.rs", "mpst_seq_proc/src/common_functions/expand/close_atmp.rs", "mpst_seq_proc/src/common_functions/expand/cancel.rs"]}
{"id": "C51", "title": "A timetable that respects all windows can be executed: all roles finish in time together", "statement": "Take a well-formed protocol whose messages have windows on clocks that the roles start at the beginning of each round, and a timetable for one way through it: for each message an instant at which it is sent and one at which it is received, in the order of each role, received not before sent, both inside the window as the code tests it (whole seconds) on that role's own clock, restarts included. Then the timed machine has a run from the start to the end in which the instants of all steps are those of one non-decreasing real time that stays within the timetable, every role starts its clocks when it enters a round and never otherwise, every operation keeps its window, no role crashes or gives up waiting, and all roles end with Ok and hold no endpoint.", "quantifier": "all numbers of roles, protocols, windows, clocks, lengths of the path, timetables", "why_tests_cant": "A run shows one schedule; that a timetable is sufficient for every protocol needs a scheduling argument over all protocols: the role that is due first can always move.", "anchors": ["src/functionmpst/close.rs", "src/binary_atmp/send.rs", "mpst_seq_proc/src/baking_atmp/baking_atmp_with_enum_and_cancel.rs", "mpst_seq_proc/src/common_functions/expand/send.rs", "mpst_seq_proc/src/common_functions/expand/recv.rs", "mpst_seq_proc/src/common_functions/expand/fork.rs", "src/binary_atmp/recv.rs"]}
{"id": "C52", "title": "Accepted nuscr protocols on one clock run in time: from the text to a complete run of the generated endpoints", "statement": "Take a protocol text that the nuscr generator accepts, whose windows are closed and whose restarted clocks are started by the functions. For every way through its choices along which the messages of each part can be made at rational instants that suit all roles, the generated file, read as a timed system whose functions start exactly the clocks written in the file, has a run in which the readings of all clocks come from one non-decreasing real time, every operation keeps its window, and every role ends with Ok and holds no endpoint. This condition holds for every way through a protocol whose messages all use one clock that is never restarted and have windows that are not empty; with two roles it holds with restarts too.", "quantifier": "all accepted protocol texts, roles, titles, ways through the choices, windows", "why_tests_cant": "Each protocol is a different program; only a proof covers all accepted texts, and the instants must be found for all of them.", "anchors": ["src/top_down_nuscr/mod.rs", "src/top_down_nuscr/auxiliary_objects/code_generate/fn_endpoints.rs", "mpst_seq_proc/src/common_functions/expand/send.rs", "mpst_seq_proc/src/common_functions/expand/recv.rs"]}
{"id": "C53", "title": "Binary sessions over TCP and UDP deliver the right data when both sides pass the same flags and the server echoes", "statement": "Let the two threads of a binary session share a TCP connection to a server that sends back what it gets, and let both sides pass the same flag tcp at the same communication. Then in every execution, however the stream is cut into pieces, whoever crashes and whenever the connection breaks, the data that recv_tcp returns are those that were given to the send_tcp of the peer at the same position (zeros when the flag is false); the threads never wait for ever; and close_tcp never shuts the connection down while the other thread writes or reads. The same holds for UDP when no datagram is lost or overtaken. Without these conditions it is false: with different flags, a lost datagram or two datagrams in the wrong order, the data are wrong or a thread waits for ever.", "quantifier": "all session types, flags, payloads, schedules, cuts of the stream, crashes and breaks of the connection", "why_tests_cant": "Tests run one protocol with constant data against a local server, where the stream is not cut and datagrams are not lost; both transport tests send zeros only, so they cannot see wrong data.", "anchors": ["src/transport/tcp/send.rs", "src/transport/tcp/recv.rs", "src/transport/tcp/close.rs", "src/transport/tcp/fork.rs", "src/transport/udp/send.rs", "src/transport/udp/recv.rs", "tests/tcp/binary.rs", "tests/udp/binary.rs"]}
{"id": "C54", "title": "Nobody is left behind: no role starves in a fair execution", "statement": "Take any well-formed protocol. From every state that can be reached, with or without crashes, for every role that has not returned, there is a continuation in which only the other roles act, nobody crashes and the choosers take labels fixed beforehand, after which the role can take a step (lock-freedom). Hence in every infinite execution in which a role that stays able to act does act at last (weak fairness), and in which no thread drops endpoints for ever, every role that has not returned takes further steps; without crashes the second condition follows from the first. Every fair execution of a protocol with rounds of bounded number ends with all roles returned. Every order of the roles that names each of them again and again gives such a fair execution. After a crash fairness alone is not enough: the crashed thread can drop the messages of a faster chooser for ever, and a role that waits for it starves.", "quantifier": "all well-formed protocols, reachable states, infinite executions, schedules, crashes and choices", "why_tests_cant": "Starvation shows only in infinite executions; a test sees finitely many steps of one schedule.", "anchors": ["mpst_seq_proc/src/macros_multiple/multiple/choose/choose_mpst_create_multi_to_all.rs", "src/binary/send.rs", "src/binary/recv.rs", "src/binary/cancel.rs", "mpst_seq_proc/src/common_functions/expand/fork.rs"]}
{"id": "C55", "title": "The schedule cannot change what a session computes", "statement": "Let every role run a deterministic program: what it sends and which label it chooses depend only on what it has sent and received so far. Let the types of the roles be pairwise dual, at the start and after every choice, and let a role that comes to an offer have nothing left to do with the roles that do not choose. Then without crashes the state of a role is determined by the number of its own steps, whatever the schedule: same messages sent and received, same type left, same result. Two executions always agree on what both have done; all complete executions are the same up to the order of the steps of different roles; if one execution ends, all end, after the same number of steps; one execution in which all roles return Ok shows that all do, and one deadlock shows that no execution ends well. The types of every well-formed global protocol meet the condition. It is needed: when an offer is taken while a message of a third role is still expected, the schedule decides whether that role returns Ok or an error.", "quantifier": "all numbers of roles, types that meet the condition, deterministic programs, schedules and executions without crashes", "why_tests_cant": "A test sees one schedule at a time; that the others give the same result is a statement about all interleavings.", "anchors": ["src/binary/send.rs", "src/binary/recv.rs", "src/macros_multiple/offer.rs", "mpst_seq_proc/src/macros_multiple/multiple/choose/choose_mpst_create_multi_to_all.rs", "mpst_seq_proc/src/common_functions/expand/fork.rs"]}
{"id": "C56", "title": "Whether hand-written types can deadlock is decided by a test", "statement": "Write down for every role the list of actions its MeshedChannels type asks for until the end of the round. Say that the types of a round can be followed in order if all these actions can be ranked so that every role does its own actions one after the other and the k-th communication of a role with x, when it is a receive or an offer, comes after the k-th communication of x with that role. A computable test decides this. If the types are pairwise dual and every round that can come can be followed in order, then in every reachable state, whoever has crashed and whenever, either all roles have returned or some role can go on. If moreover no offer drops a session in use, every complete execution without crashes ends with Ok for every role. Conversely, if all roles return Ok in some execution, every round of it can be followed in order; so if the test fails for the first round no execution ends well, and without choices a complete execution ends well exactly if the test passes. Projections of well-formed global protocols pass; so do types that are no projection, such as three roles that all first send to the next one and then receive.", "quantifier": "all numbers of roles, all pairwise dual types with or without choices and recursion, send and send_canceled, all schedules, values, branches and crashes", "why_tests_cant": "A deadlock depends on the schedule and on the branches taken; that a test on types excludes it in all executions, and that failing it excludes success in all executions, are statements about all of them.", "anchors": ["src/binary/send.rs", "src/binary/recv.rs", "src/macros_multiple/offer.rs", "mpst_seq_proc/src/common_functions/expand/send.rs", "mpst_seq_proc/src/common_functions/expand/recv.rs", "mpst_seq_proc/src/common_functions/expand/fork.rs"]}
{"id": "C57", "title": "None of the protocols of the examples and tests can block, except four that no program can run", "statement": "Take the endpoint types declared by a source file of the repository: the types given to fork_mpst and, for every choice, those of the variants of the enums. A computable test accepts such a table exactly if in the first round and in every branch the types are pairwise dual, offers drop no session in use and the round can be followed in order. If it accepts, then whatever the schedule, values, branches and crashes, in every reachable state all roles have returned or some role can go on; and every complete execution without crashes in which the same branches are taken ends in the same results, Ok for every role. The 69 distinct tables transcribed from 216 files of examples and tests are all accepted. The types of four files of tests/checking_mod/complex are not pairwise dual, so no fork_mpst accepts them, though the checker macro does.", "quantifier": "all tables of endpoint types (exactness, progress, results); all 69 transcribed protocols, all schedules, values, branches and crashes, send and send_canceled", "why_tests_cant": "The examples are run once, with one schedule and random branches; a deadlock in a branch or schedule that was not taken stays hidden.", "anchors": ["examples/mpst/o_auth.rs", "examples/mpst/travel_agency.rs", "examples/ring/ring_eight_baking_mpst.rs", "examples/mesh/mesh_eight_baking_mpst.rs", "tests/checking_mod/complex/cloud_system.rs", "tests/checking_mod/complex/alternating_bit.rs", "tests/checking_mod/complex/async_paper_ext_rev_sync.rs", "tests/checking_mod/complex/inf_snd_rcv.rs"]}
{"id": "C58", "title": "The global protocol behind hand-written endpoint types is found whenever there is one", "statement": "Given the MeshedChannels types of all roles, a search that repeatedly takes a message whose sender and receiver both have it as their next communication finds a global round, with a choice or the end at its end, exactly if the types are the projections of some well-formed global round; the round is determined up to the order of its messages. So it is decided for a whole table of endpoint types whether it comes from a global protocol, and if so its executions are exactly those of that protocol and everything proved for global protocols holds for it. Of the 69 tables transcribed from the repository, 68 come from a global protocol, which is computed; the types of tests/checking_mod/complex/four_players_game_sync.rs come from none, although they can never block. The types of all files of examples/ring and examples/mesh are instances of two families of global protocols, which are well-formed, and whose tables are accepted by the test of C57, for every number of roles from two on.", "quantifier": "all numbers of roles, all endpoint types, all global rounds and protocols; rings and meshes of every size; all 69 transcribed tables", "why_tests_cant": "That no global protocol exists for given types is a statement about all protocols; rings and meshes are written out in the repository only for 2 to 11 and 20 roles.", "anchors": ["examples/ring/ring_two_baking_mpst.rs", "examples/ring/ring_twenty_baking_mpst.rs", "examples/mesh/mesh_two_baking_mpst.rs", "examples/mesh/mesh_twenty_baking_mpst.rs", "examples/mpst/o_auth.rs", "tests/checking_mod/complex/four_players_game_sync.rs", "src/top_down_nuscr/mod.rs"]}
{"id": "C59", "title": "No role is left behind for hand-written types, and without recursion every session ends", "statement": "For MeshedChannels types that are dual and whose rounds can all be followed in order (C56; global protocols are a special case), with send or send_canceled: after any schedule, values, branches and crashes, whichever role has not returned, the other roles alone can bring it to a point where it can go on, whatever branches they take. In every fair execution in which begun drops end, and in every fair execution of tidy types without crashes, every role that has not returned and dropped everything is run again. A fair execution in which no role goes through more than some number of choices ends, whoever crashes: all roles return and have dropped everything. If the types have no recursion, every fair execution ends, and no scheduler, fair or not, can make the session go on for ever. All of this holds for the 69 transcribed protocols of examples/ and tests/, of which 22 are without recursion.", "quantifier": "all numbers of roles, all ordered dual types, all infinite executions, all schedules, values, branches and crashes; all 69 transcribed tables", "why_tests_cant": "Starvation is a property of infinite executions, and that a role can always be brought to go on has to hold in every reachable state.", "anchors": ["mpst_seq_proc/src/common_functions/expand/fork.rs", "src/binary/send.rs", "src/binary/recv.rs", "src/binary/close.rs", "src/functionmpst/close.rs", "mpst_seq_proc/src/choose_mpst_multi_to_all.rs", "examples/mpst/o_auth.rs", "tests/checking_mod/complex/four_players_game_sync.rs"]}
{"id": "C60", "title": "A clock exists exactly if its role has started it; an operation on a clock that was not started fails the session", "statement": "In every run of a timed session, for any types, windows, schedules and readings of the system clock: the clock c of a role exists if and only if the role has started it before (all_clocks.insert); no operation creates or removes a clock. If the next timed operation of a role has a bound and names a clock that the role has not started, that operation returns an error, the role crashes, and in no continuation does any role of the session return Ok.", "quantifier": "all numbers of roles, all types and window tables, all schedules, values and clock readings", "why_tests_cant": "That no schedule and no reading of the clock lets such a session succeed is a statement about all executions.", "anchors": ["mpst_seq_proc/src/common_functions/expand/fork.rs", "src/binary_atmp/send.rs", "src/binary_atmp/recv.rs", "examples/atmp/calculator.rs"]}
{"id": "C61", "title": "Every session can be finished from wherever it is", "statement": "For dual types whose rounds can be followed in order, and a strategy for the choices that leads out of the recursion: after any schedule, values and branches, the session can be continued along the strategy so that every role returns and drops everything, with Ok for every role if nobody has crashed before; and no continuation along the strategy is endless. All 69 protocols transcribed from examples/ and tests/ have such a strategy, found by a search.", "quantifier": "all numbers of roles, all such types, all schedules, values and branches before, all continuations", "why_tests_cant": "That a session with recursion can always be finished is a statement about every reachable state, of which there are infinitely many.", "anchors": ["examples/atmp/fib.rs", "examples/mpst/smtp.rs", "examples/mpst/o_auth.rs", "mpst_seq_proc/src/common_functions/expand/fork.rs"]}
{"id": "C62", "title": "A timed session can be finished while there is time, and nobody returns Ok after a missed window", "statement": "If all windows of a timed session are open while their clocks show at most K, then from every state in which nobody has failed and from which on all readings of the system clock lie within K of the last starts of the clocks: whatever the roles do, short of crashing or giving up a receive, is on time and succeeds; where nothing more can happen every role has returned Ok; and there is a continuation, without starting a clock again, in which every role returns Ok. If the next operation of a role is outside its window now and for ever, nobody returns Ok in any continuation in which the role does not restart that clock.", "quantifier": "all numbers of roles, all dual types that can be followed in order, all window tables, clock readings, schedules, values and branches", "why_tests_cant": "A test runs one schedule on one machine at one speed; that the windows leave a way to finish is a statement about all states and all readings.", "anchors": ["examples/atmp/http.rs", "examples/atmp/non_feasible.rs", "examples/atmp/fib.rs", "src/binary_atmp/send.rs", "src/binary_atmp/recv.rs"]}
{"id": "C63", "title": "The function form of send, receive and offer is the method form exactly if the index is the field of the peer", "statement": "A function declared with create_recv_mpst_session! or create_offer_mpst_session_multi! compiles iff its index is a field; one declared with create_send_check_cancel! iff its index is not 1; one declared with create_send_mpst_session! or create_send_mpst_cancel! always, and if its index is no field it takes the role off the stack without sending. With an index that is a field the function uses that field once and leaves all others. It has the type of the method generated by generate! for its two roles iff the index is the field of the peer, and then takes the same calls; with any other field there are dual sessions on which they differ. Send and receive functions with the right index fit together. All 12265 such functions declared in tests/, examples/ and benches/ compile and are the methods for their roles.", "quantifier": "all numbers of roles, all indices, all MeshedChannels and stacks, all functions declared in the repository", "why_tests_cant": "A test uses one protocol with indices that are right; that a wrong index compiles and silently skips the message, or speaks to another role, is not seen by programs that never do it.", "anchors": ["src/macros_multiple/send.rs", "src/macros_multiple/recv.rs", "src/macros_simple/send.rs", "mpst_seq_proc/src/macros_simple/send/create_send_mpst_session.rs", "mpst_seq_proc/src/macros_simple/recv/create_recv_mpst_session.rs", "mpst_seq_proc/src/macros_multiple/multiple/send/create_send_check_cancel.rs", "mpst_seq_proc/src/macros_simple/offer/create_offer_mpst_session_multi.rs"]}
{"id": "C64", "title": "What the compiler accepts at a fork and at a choice is exactly pairwise duality", "statement": "The generated fork function compiles for every number of roles n >= 1 and is accepted for functions on MeshedChannels T1..Tn iff these are the MeshedChannels of the n roles for sessions that are pairwise dual (session of p with q dual to session of q with p). The fork_mpst of the library is the one generated for n = 3. A choice by enum with index e compiles iff n = 1 or 1 <= e <= n, and for 1 <= e <= n is accepted iff the chooser's fields can send the enums, and the contents of the variants together with what the chooser keeps are the MeshedChannels of the n roles, with e the chooser, for pairwise dual sessions; with a broadcaster the same for 2 <= e <= n with its sessions End. Hence a program is accepted at its fork and choices iff all its tables of types are dual, and then it is safe in every execution. Every choice with an explicit index in tests/, examples/ and benches/ is accepted exactly for types that fit the chooser's own place.", "quantifier": "all numbers of roles, all indices, all session types, stacks and names, all choices with an explicit index in the repository", "why_tests_cant": "A test compiles one protocol with right types; which wrong types the compiler would let through for any number of roles is a statement about all types.", "anchors": ["mpst_seq_proc/src/macros_multiple/multiple/fork_mpst_multi.rs", "mpst_seq_proc/src/common_functions/expand/fork.rs", "mpst_seq_proc/src/common_functions/expand/aux_fork.rs", "src/functionmpst/fork.rs", "mpst_seq_proc/src/choose_mpst_multi_to_all.rs", "mpst_seq_proc/src/macros_multiple/multiple/choose/choose_mpst_multi_cancel_to_all.rs", "mpst_seq_proc/src/macros_multiple/multiple/choose/create_fn_choose_mpst_multi_to_all_bundle.rs", "src/macros_multiple/choose.rs"]}
{"id": "C65", "title": "generate! gives every role a choice macro with the role's own index", "statement": "All forms of generate! and generate_atmp! read exactly the roles that were written, in order, and a choice counts its labels right. The macro choose_mpst_x_to_all! named after role p is that of role p (its name as sender, its position as index) iff no other role of the program (in the timed forms: no later role) has the same macro name after lowercasing. By its own macro a role makes exactly the choices with one label for each other role whose types are pairwise dual; a macro of another role is never accepted for a result of this role. So a program whose roles choose by their macros is accepted iff its types are dual and every chooser's macro is its own. In all uses of generate! in the repository the macro names differ and every choice by macro uses that of a role with the right number of labels.", "quantifier": "all lists of roles, all lowercasing functions, all numbers of labels, all types; all uses in tests/, examples/ and benches/", "why_tests_cant": "The tests use a few lists of role names with distinct lowercase forms; that the index is right for every position and every number of roles, and when names collide, is a statement about all lists.", "anchors": ["mpst_seq_proc/src/common_functions/expand/choose.rs", "mpst_seq_proc/src/common_functions/expand/parenthesised.rs", "src/baking/mod.rs", "src/baking_atmp/mod.rs", "mpst_seq_proc/src/baking/baking_with_enum_and_cancel.rs", "mpst_seq_proc/src/baking/baking_interleaved_with_enum_and_cancel.rs", "mpst_seq_proc/src/macros_multiple/multiple/choose/choose_mpst_create_multi_to_all.rs", "mpst_seq_proc/src/choose_mpst_multi_to_all.rs"]}
{"id": "C66", "title": "The model passes the repository's own tests, and the random ones for every choice of words", "statement": "For each test of the bottom-up checker (tests/checking_mod) the model computes the graphs that the test expects, letter for letter, whatever the external tool answers, and the expected bound when the tool accepts it first. The model gives the results of all sixteen unit tests of aux_checker.rs, the panics included. Each of the fifty-one assertions of regex_nuscr.rs on lines with random words and numbers holds for all words and all numbers; on any message line with any spacing the variants with payload and with reset clock match exactly when there is a payload and a reset clock. For the three protocols of tests/nuscr_mod the model writes, up to the order of the declarations, the files that the generator left in the repository; the two protocols that the tests require to be refused, and the nested choice, are refused.", "quantifier": "all tests of the two readers; all words and numbers in their lines; all answers of the external tool; all message lines", "why_tests_cant": "The tests draw seven letters at random in each run; a line whose words are keywords or of another length is never drawn. And the tests say nothing about the model: this ties the model to the behaviour recorded in the repository.", "anchors": ["tests/checking_mod/basics/checking_recursion.rs", "tests/checking_mod/basics/checking_choice.rs", "src/checking/aux_checker.rs", "src/top_down_nuscr/auxiliary_objects/regex_nuscr.rs", "tests/nuscr.rs", "tests/nuscr_mod/correct/Basic.rs", "tests/nuscr_mod/correct/Choice.rs", "tests/nuscr_mod/correct/Recursion.rs"]}
{"id": "C67", "title": "The printed form of a type determines all of it but payloads, clocks and windows", "statement": "For all session types, stacks and MeshedChannels (also nested), if the names of the structs of the roles differ, two types have the same head_str and tail_str exactly if they are equal up to payload types, clocks and windows. The printed forms of the duals then agree as well, and a type is printed like its dual exactly if nothing is left to do. The MeshedChannels of the library and those of the macros print alike for three roles.", "quantifier": "all types, all numbers of sessions, all role names without bracket or line feed", "why_tests_cant": "The tests compare the texts of a handful of types; whether two of the infinitely many types share a text is not seen by comparing one with its expected text.", "anchors": ["src/meshedchannels/mod.rs", "src/role/a.rs", "src/role/a_to_all.rs", "src/binary/struct_trait/send.rs", "src/binary_atmp/struct_trait/send.rs", "mpst_seq_proc/src/common_functions/expand/meshedchannels.rs", "mpst_seq_proc/src/common_functions/expand/role.rs"]}
{"id": "C68", "title": "Any number of roles with binary choices: safety, progress, termination", "statement": "For n roles that use choose_left, choose_right and offer with the stacks RoleXtoAll and RoleAlltoX: every execution does what one with two-variant enums does (same actions of every role, same results, no further crash). With pairwise dual types one list of choices explains all actions, nobody meets a message of the wrong type or the wrong side, and Ok from close means that all called close. With types that can be used to the end and put in an order, or projected from a global protocol, no state is a deadlock; finite protocols end within the bound of C16; without crashes all roles return Ok and all messages are received.", "quantifier": "all numbers of roles, all types, all protocols, all schedules, values, sides and crashes", "why_tests_cant": "The tests run a few protocols with three or four roles with the schedules the machine happens to take; the channels of a choice are wired by index arithmetic for each number of roles and each chooser.", "anchors": ["mpst_seq_proc/src/common_functions/expand/choose.rs", "mpst_seq_proc/src/common_functions/expand/offer.rs", "tests/baking_mod/macros_baking/macro_multi_choice.rs"]}
{"id": "C69", "title": "The hand-written library for three roles: safety, progress, termination", "statement": "For the roles A, B, C with the hand-written code of src/functionmpst, src/macros_simple and src/meshedchannels, each role with any of the three: every execution does what one with two-variant enums does (same actions of every role, same results, no further crash). With pairwise dual types nobody meets a message of the wrong type or the wrong side, and Ok from close means that all called close; with usable types in an order, or projected from a global protocol, no state is a deadlock, finite protocols end within the bound of C16, and without crashes all return Ok. The offer methods refuse while another session is unfinished; the offer functions do not: they drop it, and the peer gets an error although nobody crashed.", "quantifier": "all types, all protocols, all assignments of the three families to the roles, all schedules, values, sides and crashes", "why_tests_cant": "Eighteen hand-written bodies create their channels in different orders and from different sides; the tests run a few protocols, each with one family and the schedules the machine happens to take.", "anchors": ["src/functionmpst/choose.rs", "src/functionmpst/offer.rs", "src/functionmpst/fork.rs", "src/macros_simple/choose.rs", "src/meshedchannels/impl_a.rs", "src/meshedchannels/impl_b.rs", "src/meshedchannels/impl_c.rs"]}
{"id": "C70", "title": "The choice functions for the last role: safety, progress, termination, and what another role gets", "statement": "When role n makes any of its choices with the functions of create_choose_mpst_session_multi_left/right and all other choices are made with the methods: every execution does what one with two-variant enums does; with pairwise dual types nobody meets a message of the wrong type or side, and Ok from close means that all called close; with usable types in an order, or projected from a global protocol, no state is a deadlock, finite protocols end within the bound of C16, and without crashes all return Ok. The call is accepted for all pairwise dual types of the branch. It is also accepted from role 1 with a correct protocol, and then the messages go to the wrong roles although every role returns Ok.", "quantifier": "all n, all types, all protocols, all assignments of the two forms to choices, all schedules, values, sides and crashes", "why_tests_cant": "One test uses the functions, for three roles, with one protocol and the last role choosing.", "anchors": ["mpst_seq_proc/src/macros_multiple/multiple/choose/create_choose_mpst_session_multi_left.rs", "mpst_seq_proc/src/macros_multiple/multiple/choose/create_choose_mpst_session_multi_right.rs", "src/macros_multiple/choose.rs"]}
{"id": "C71", "title": "Hand-written types: no failure without crashes, and a bound on the number of steps", "statement": "For any pairwise dual types that can be put in an order and drop no session in use, with enum or binary choices of any of the three forms: if nobody crashes, whoever has returned has returned Ok, and when nothing more can happen all have returned Ok and have received everything sent to them in every round. For any pairwise dual types, whoever crashes, the steps of all roles together are at most the sum of the costs of the rounds begun, a round costing a number computed from its stacks; there is one round for each choice made and the first. So types without recursion have a bound that can be computed, which is at most 402 for the 22 such protocols of examples/ and tests/, and recursive ones a bound for each choice.", "quantifier": "all n, all types, all schedules, values, branches and crashes", "why_tests_cant": "A test runs one schedule of one protocol; it cannot bound the length of all of them, nor see that no schedule fails.", "anchors": ["mpst_seq_proc/src/common_functions/expand/fork.rs", "src/macros_multiple/choose.rs", "src/macros_multiple/offer.rs", "mpst_seq_proc/src/baking/baking_basic.rs"]}
{"id": "C72", "title": "The attribute branching accepts exactly enums in alphabetical order, and its advice is right", "statement": "An enum with the attribute branching is accepted exactly if no variant is before an earlier one in byte order. It is rejected with a message exactly if a first variant is out of place and has a new name, and the message names that variant and the first greater one. Putting the variant there puts all up to it in order, and whoever follows the advice is done after at most as many moves as there are variants. The macro panics exactly if the first variant out of order has the name of an earlier one.", "quantifier": "all lists of variant names", "why_tests_cant": "The macro is not tested at all; a test checks single enums.", "anchors": ["mpst_seq_proc/src/checking/branching.rs", "mpst_seq_proc/src/lib.rs"]}
{"id": "C73", "title": "The fork for two protocols with a shared thread asks exactly that each protocol is pairwise dual", "statement": "The fork function for two interleaved protocols is generated exactly if both indices are those of roles; then each parameter F has one bound, one argument and one call, with the type of the bound, and all type parameters are determined. It is accepted exactly for functions that take the MeshedChannels of the roles of each protocol, in their order without the shared role, for pairwise dual sessions within each protocol; the protocols do not restrict each other. The fork for one thread is accepted for the same types as fork_mpst.", "quantifier": "all numbers of roles, all indices, all types", "why_tests_cant": "The tests use two or three roles and types that fit; they do not show which types are refused nor the other indices.", "anchors": ["mpst_seq_proc/src/common_functions/expand/fork.rs", "mpst_seq_proc/src/interleaved/fork_mpst_multi_solo.rs"]}
{"id": "C74", "title": "Protobuf messages of global types are read back as written; the function that reads a file never gets a GlobalType", "statement": "A GlobalType or Action that is written is read back unchanged, compute_size is the number of bytes written, two GlobalTypes one after the other are read as their merge, and an integer field with another number changes nothing (messages below 4 GiB). read_global_protocol_file gets the default GlobalType from every file, because it has read the file to its end as an Action before; from the file of a GlobalType it gets an Action with the start of the GlobalType as idx and nothing else.", "quantifier": "all messages with integers in range and UTF-8 strings, all files", "why_tests_cant": "There is no test of these messages; a test would check single messages.", "anchors": ["src/protobuf/generated/globaltype.rs", "src/protobuf/mod.rs"]}
{"id": "C75", "title": "The text that a timed session prints for its window says what the operations demand", "statement": "constraint() of SendTimed and RecvTimed panics exactly if both bounds are negative. Otherwise the text, read as a chain of comparisons, is true exactly inside the window and names its clock, so equal texts mean equal windows; a timed send or receive that hands its message over did so after a reading at which the text was true. The converse does not hold, because whole seconds are compared.", "quantifier": "all windows, clocks, readings of the system clock and channel behaviours", "why_tests_cant": "The tests compare single texts; none relates the text to what send and recv check.", "anchors": ["src/binary_atmp/struct_trait/send.rs", "src/binary_atmp/struct_trait/recv.rs", "src/binary_atmp/send.rs"]}
{"id": "C76", "title": "The type aliases for choosing and offering are dual to each other", "statement": "For every number of roles, the dual of the type that create_choose_type_multi! makes from sessions, two stacks and a name is the type that create_offer_type_multi! makes from their duals, and the other way round; one is a type error exactly if the other is. The first half of the sessions goes to the left branch and the second half to the right one, each once and in order; the aliases are refused exactly for no roles or another number of sessions than 2(n-1).", "quantifier": "all numbers of roles, session types, stacks and names", "why_tests_cant": "The tests use the aliases for three roles only.", "anchors": ["mpst_seq_proc/src/macros_multiple/multiple/choose/create_choose_type_multi.rs", "mpst_seq_proc/src/macros_multiple/multiple/offer/create_offer_type_multi.rs", "mpst_seq_proc/src/macros_multiple/multiple/create_meshedchannels.rs"]}
