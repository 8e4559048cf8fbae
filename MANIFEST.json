{
 "claims": [
  {
   "property": "C01",
   "status": "proved",
   "theorems": [
    "session_dual_involutive",
    "stack_dual_involutive",
    "dual_reverses_every_action",
    "dual_of_meshed_channels",
    "new_returns_linked_dual_ends"
   ],
   "note": ""
  },
  {
   "property": "C02",
   "status": "proved",
   "theorems": [
    "binary_types",
    "binary_delivery"
   ],
   "note": "Binary sessions are the two-role case of the machine; prefix in both directions, actions follow the declared type, any crashes."
  },
  {
   "property": "C03",
   "status": "proved",
   "theorems": [
    "send_never_blocks"
   ],
   "note": "Proved for any number of roles and any pairwise dual types; the binary case is n = 2."
  },
  {
   "property": "C04",
   "status": "proved",
   "theorems": [
    "send_canceled_exact"
   ],
   "note": "Ok while the peer has not returned, panic once it has returned and dropped its ends; while it is dropping either can happen."
  },
  {
   "property": "C05",
   "status": "proved",
   "theorems": [
    "binary_no_deadlock",
    "binary_ends_well"
   ],
   "note": "With any crashes for the first, finite and crash-free for the second."
  },
  {
   "property": "C06",
   "status": "proved",
   "theorems": [
    "crash_never_hangs",
    "error_only_after_all_delivered"
   ],
   "note": "The second one for any number of roles."
  },
  {
   "property": "C07",
   "status": "proved",
   "theorems": [
    "binary_close"
   ],
   "note": ""
  },
  {
   "property": "C08",
   "status": "proved",
   "theorems": [
    "fork_connects_all_pairs",
    "fork_type_parameter_one_pair"
   ],
   "note": ""
  },
  {
   "property": "C09",
   "status": "proved",
   "theorems": [
    "comm_acts_on_the_field_of_the_peer",
    "send_and_recv_use_one_channel"
   ],
   "note": ""
  },
  {
   "property": "C10",
   "status": "proved",
   "theorems": [
    "choice_reconnects_all_roles"
   ],
   "note": ""
  },
  {
   "property": "C11",
   "status": "proved",
   "theorems": [
    "choose_left_right_well_typed",
    "create_choose_well_typed"
   ],
   "note": ""
  },
  {
   "property": "C12",
   "status": "proved",
   "theorems": [
    "interleaved_fork_consistent"
   ],
   "note": ""
  },
  {
   "property": "C13",
   "status": "proved",
   "theorems": [
    "cancel_choice_broadcaster_bijection",
    "cancel_choice_broadcaster_exact",
    "cancel_choice_broadcaster_field_identity_refuted"
   ],
   "note": "Bijection proved for all n and choosers; the stronger reading (field k stays connected to role k) is refuted."
  },
  {
   "property": "C14",
   "status": "proved",
   "theorems": [
    "multiparty_safe",
    "same_branch"
   ],
   "note": "Concrete machine (threads, one-place channels, drops, crashes), any n, any pairwise dual types and enums, any schedule; proved by refinement to two-sided links plus invariants on rounds and logs."
  },
  {
   "property": "C15",
   "status": "proved",
   "theorems": [
    "global_progress"
   ],
   "note": "Every reachable state of the concrete machine, any global protocol (finite or recursive), crashes allowed too."
  },
  {
   "property": "C16",
   "status": "proved",
   "theorems": [
    "no_crash_all_ok"
   ],
   "note": "No operation fails; when nothing more can happen all closes returned Ok and everything sent was received."
  },
  {
   "property": "C17",
   "status": "proved",
   "theorems": [
    "global_progress",
    "finite_protocols_terminate"
   ],
   "note": "Progress with any crashes; explicit bound on all executions of a finite protocol."
  },
  {
   "property": "C18",
   "status": "proved",
   "theorems": [
    "close_ok_means_all_called_close",
    "no_ok_after_early_end"
   ],
   "note": "The close generated by expand/close.rs; other close macros are under C29."
  },
  {
   "property": "C19",
   "status": "proved",
   "theorems": [
    "pairwise_dual_types_can_deadlock"
   ],
   "note": "Three-role ring."
  },
  {
   "property": "C20",
   "status": "proved",
   "theorems": [
    "timed_success_inside_window",
    "timed_success_before_deadline",
    "timed_success_before_end_refuted"
   ],
   "note": "In-window part proved. The deadline holds up to the time between two consecutive clock readings inside the call; the bound without this term is refuted."
  },
  {
   "property": "C21",
   "status": "proved",
   "theorems": [
    "timed_accepted_inside_window",
    "timed_accepted_iff",
    "timed_in_window_accepted_refuted",
    "timed_underflow_after_inclusive_end"
   ],
   "note": "Expected claim refuted (exclusive lower bound loses a second); the accepted cases are characterised by an iff."
  },
  {
   "property": "C22",
   "status": "proved",
   "theorems": [
    "timed_lower_bound_only_usable_refuted",
    "timed_lower_bound_only_always_panics",
    "timed_lower_bound_only_without_reset"
   ],
   "note": "Expected claim refuted for send and recv (they always panic); send_without_reset accepts."
  },
  {
   "property": "C23",
   "status": "proved",
   "theorems": [
    "timed_changes_only_reset_clock",
    "timed_refused_keeps_clocks",
    "timed_success_resets_iff",
    "timed_success_resets_refuted_at_boundary",
    "timed_unbounded_never_resets"
   ],
   "note": "Frame part proved. A success restarts the clock exactly with an upper bound and the lower bound reached at the first reading; the other cases (re-test race, both bounds absent) exist and are shown."
  },
  {
   "property": "C24",
   "status": "proved",
   "theorems": [
    "timed_multi_choice_same_clocks",
    "timed_multi_choice_resets",
    "timed_multi_choice_all_or_none",
    "timed_baked_choice_all_or_none_refuted"
   ],
   "note": "Proved for choose_atmp_mpst_multi_to_all, refuted for generated choose_left/right."
  },
  {
   "property": "C25",
   "status": "proved",
   "theorems": [
    "select_returns",
    "select_never_blocks_when_ready"
   ],
   "note": "Other threads may fill channels or drop senders between any two steps of the call."
  },
  {
   "property": "C26",
   "status": "proved",
   "theorems": [
    "attempt_in_order",
    "outcome_unique"
   ],
   "note": "The value of the macro is (), so there is no Ok to return."
  },
  {
   "property": "C27",
   "status": "proved",
   "theorems": [
    "broadcast_outcome",
    "broadcast_blocks_only_for_reader",
    "cancel_is_spread",
    "all_stop_ends_normally"
   ],
   "note": "Safety for every behaviour of the participants; the two termination statements bound the broadcaster's own steps and name the only thing it can wait for."
  },
  {
   "property": "C28",
   "status": "proved",
   "theorems": [
    "broadcaster_notices_death_refuted",
    "silent_death_livelock",
    "silent_death_not_noticed"
   ],
   "note": "Refuted: the polling loop ignores disconnections, so it never ends."
  },
  {
   "property": "C29",
   "status": "proved",
   "theorems": [
    "close_accepts_only_stop_refuted",
    "close_verdicts",
    "close_variants_agree_on_stop"
   ],
   "note": "Refuted for the macros; the exact verdict of each variant is proved for any n and any behaviour of the peers."
  },
  {
   "property": "C30",
   "status": "proved",
   "theorems": [
    "interleaved_close_returns",
    "close_in_turn_blocks"
   ],
   "note": "On the endpoints produced by the modelled fork code."
  },
  {
   "property": "C31",
   "status": "proved",
   "theorems": [
    "blocks_read_back",
    "head_payload_continuation_read_back",
    "dual_read_back",
    "endpoint_read_back",
    "tuple_payload_refuted",
    "digit_roles_refuted",
    "prefix_roles_refuted",
    "name_payload_refuted"
   ],
   "note": "Types are trees, their text is what type_name prints. Proved for every type whose names have no separator; refuted for tuple payloads (cut at the comma), role names with digits, role names that are a prefix of another, payloads called Name + letter."
  },
  {
   "property": "C32",
   "status": "proved",
   "theorems": [
    "graph_behaviours",
    "checker_behaviours"
   ],
   "note": "Messages and binary choices, any number of roles; the second theorem goes from type_name texts in any order to the graphs and the KMC file. Enum branches (recursion) are in the model but not in these theorems."
  },
  {
   "property": "C33",
   "status": "proved",
   "theorems": [
    "kmc_smallest",
    "kmc_finds",
    "kmc_fifty_refuted"
   ],
   "note": "For any behaviour of the tool; the documented answer is wrong at k = 50."
  },
  {
   "property": "C34",
   "status": "proved",
   "theorems": [
    "generated_endpoints",
    "generated_endpoints_only",
    "generated_fields_dual",
    "generated_enums",
    "generated_names_distinct",
    "generated_clocks",
    "names_distinct_refuted"
   ],
   "note": "For every protocol of messages, with an optional loop and an optional final choice with any number of branches (all that the generator supports), read back from the declarations of the file. Distinct names need that no role has To in its name, refuted otherwise."
  },
  {
   "property": "C35",
   "status": "proved",
   "theorems": [
    "accepted_iff",
    "windows_accepted_iff",
    "windows_in_order",
    "windows_refuted"
   ],
   "note": "Proved for bounds with as many digits; refuted otherwise ([9;10] is rejected, [10;9] accepted, ]3;3[ accepted). accepted_iff characterises acceptance of any protocol."
  },
  {
   "property": "C36",
   "status": "proved",
   "theorems": [
    "stack_continuation_returns",
    "stack_branch_continuation_returns"
   ],
   "note": ""
  },
  {
   "property": "C37",
   "status": "proved",
   "theorems": [
    "accepted_feasible",
    "accepted_feasible_refuted",
    "feasible_accepted_refuted"
   ],
   "note": "Proved when the windows of the role on the clock are not empty and have the same right bracket; refuted with mixed brackets, and the converse is refuted."
  },
  {
   "property": "C38",
   "status": "proved",
   "theorems": [
    "messages_kept_refuted",
    "loops_kept_refuted",
    "payloads_kept_refuted",
    "reset_clocks_started_refuted",
    "no_panic_refuted",
    "loop_messages_kept_refuted"
   ],
   "note": "Refuted, each with a file."
  },
  {
   "property": "C39",
   "status": "proved",
   "theorems": [
    "lines_read_as_written",
    "text_unambiguous",
    "lines_kept_refuted",
    "line_meaning_refuted",
    "empty_lines_refuted"
   ],
   "note": "For the texts of NuscrTextSpec (any spacing, empty lines among the messages). C34-C37 are stated on these texts. Refuted for other texts: ignored lines, two messages on a line, comments, double space after role, empty lines at three places."
  },
  {
   "property": "C40",
   "status": "proved",
   "theorems": [
    "regular_protocol",
    "regular_roles_refuted"
   ],
   "note": "Proved when no role name ends with timed; refuted otherwise."
  },
  {
   "property": "C41",
   "status": "proved",
   "theorems": [
    "three_fork",
    "three_fork_generated",
    "three_choice_connects",
    "three_choice_typed",
    "three_choice_compatible",
    "three_choice_offered",
    "three_comm",
    "three_comm_one_channel"
   ],
   "note": "Eighteen choice functions, six sends, twelve receives, fork. The stacks of the roles are not tied to each other by the signatures."
  },
  {
   "property": "C42",
   "status": "proved",
   "theorems": [
    "generated_projections",
    "generated_no_deadlock",
    "generated_all_ok",
    "generated_terminates"
   ],
   "note": "Time is forgotten in the reading of the file; a timed operation that fails is a crash step of the machine."
  },
  {
   "property": "C43",
   "status": "proved",
   "theorems": [
    "timed_safe",
    "timed_progress",
    "timed_bounded",
    "on_time_all_ok",
    "missed_window_fails_all"
   ],
   "note": "The channel action of a timed operation is one step, at the moment of the transfer; the tests before it and the reset after it are local and belong to the same step. A send_timeout never waits (its channel is fresh), so only receives give up."
  },
  {
   "property": "C44",
   "status": "proved",
   "theorems": [
    "waits_only_in_receive_or_close",
    "deadline_frees"
   ],
   "note": "close has no window in the timed library either, so it can wait."
  },
  {
   "property": "C45",
   "status": "proved",
   "theorems": [
    "variant_read_back",
    "macro_maps_read_back",
    "loop_behaviours",
    "checker_concat_behaviours",
    "loop_after_choice_refuted",
    "choice_in_choice_refuted",
    "missing_variant_refuted"
   ],
   "note": "The condition of the positive theorems is the predicate guarded of CheckerLoopSpec; the three refutations show what happens outside it."
  },
  {
   "property": "C46",
   "status": "proved",
   "theorems": [
    "followed_each",
    "accepted_followed",
    "accepted_followed_by_two",
    "two_clocks_refuted",
    "restarts_refuted"
   ],
   "note": "Time is rational; all clocks of a role start when the role starts. Both sides of a message must be in its window, a receive may come later than its send."
  },
  {
   "property": "C47",
   "status": "proved",
   "theorems": [
    "types_known",
    "types_once",
    "structs_of_messages",
    "functions_exact",
    "functions_once",
    "role_case_refuted",
    "role_underscore_refuted",
    "role_given_refuted",
    "label_refuted",
    "clock_char_refuted",
    "big_bound_refuted"
   ],
   "note": "Compilation of the generated file itself is not modelled: names are compared, not types. Title case is an arbitrary function."
  },
  {
   "property": "C48",
   "status": "proved",
   "theorems": [
    "generated_windows",
    "generated_timed_no_deadlock",
    "generated_timed_on_time",
    "generated_next_window",
    "generated_timed_waits",
    "generated_deadlines_free_all_refuted"
   ],
   "note": "Composition of C42 with C43 and C44. Clocks are assumed to be one letter (C47 refutes that the generator asks for it). The refutation shows that the exception for choices is needed."
  },
  {
   "property": "C49",
   "status": "proved",
   "theorems": [
    "interleaved_each",
    "forest_progress",
    "forest_terminates",
    "forest_all_ok",
    "failure_spreads",
    "fork_interleaved_forest",
    "fork_interleaved_progress",
    "shared_twice_refuted",
    "solo_refuted",
    "some_order_completes",
    "failure_contained_refuted"
   ],
   "note": "A thread may change endpoint between any two steps of the machine, in the middle of a choice or close too, which covers every order a Rust program can choose. The refutations show that the condition on sharing is needed."
  },
  {
   "property": "C50",
   "status": "proved",
   "theorems": [
    "generated_compile",
    "one_role_refuted",
    "generated_apart",
    "repeated_role_refuted",
    "interleaved_apart",
    "interleaved_same_refuted",
    "call_determined",
    "send_exactly",
    "recv_exactly",
    "recv_from_all_exactly",
    "offer_exactly",
    "choose_exactly",
    "close_exactly",
    "cancel_always",
    "send_answered",
    "choice_answered",
    "machine_calls_compile",
    "calls_are_moves",
    "choice_windows_refuted"
   ],
   "note": "Types are first-order terms; trait resolution is matching of the self type plus the bounds Session, Role and Name. Bodies of the methods are the subject of C04 to C06. calls_are_moves leaves out enums sent by hand."
  },
  {
   "property": "C51",
   "status": "proved",
   "theorems": [
    "timetable_runs"
   ],
   "note": "Sufficiency only: that every run in time gives a timetable is not stated. Bounds are natural numbers within u64; choices have no window (the nuscr generator writes none)."
  },
  {
   "property": "C52",
   "status": "proved",
   "theorems": [
    "generated_in_time",
    "one_clock_in_time",
    "two_roles_in_time"
   ],
   "note": "Existence of a run in time; the existing refutations of C46 (several clocks, restarts among three roles) show why the conditions are there. Half-open windows are not covered by the machine theorem."
  },
  {
   "property": "C53",
   "status": "proved",
   "theorems": [
    "tcp_echo_faithful",
    "tcp_echo_progress",
    "close_tcp_waits",
    "udp_echo_faithful",
    "udp_echo_progress",
    "different_flags_refuted",
    "one_flag_shifts_refuted",
    "udp_loss_refuted",
    "udp_overtaking_refuted"
   ],
   "note": "The server and the network are an environment restricted to what the theorem says. Errors of the UDP socket are not modelled; a thread cannot crash inside a write or read except by an error of the connection."
  },
  {
   "property": "C54",
   "status": "proved",
   "theorems": [
    "nobody_left_behind",
    "no_starvation",
    "no_starvation_without_crashes",
    "fair_finite_all_return",
    "turns_fair",
    "finite_drops_end",
    "endless_drop_refuted"
   ],
   "note": "Weak fairness per role. An execution is a sequence of states with idle instants. The condition that drops end is needed after crashes (endless_drop_refuted) and follows without them."
  },
  {
   "property": "C55",
   "status": "proved",
   "theorems": [
    "same_steps_same_state",
    "runs_agree",
    "complete_runs_agree",
    "one_end_ends_all",
    "one_good_run_suffices",
    "one_deadlock_suffices",
    "global_tidy",
    "global_one_answer",
    "schedule_matters_refuted"
   ],
   "note": "Without crashes; programs are functions of the log of the role, so they do not read clocks or shared memory. Drops of old ends are steps too. The refutation shows that the condition on offers is needed."
  },
  {
   "property": "C56",
   "status": "proved",
   "theorems": [
    "check_decides",
    "ordered_progress",
    "ordered_all_ok",
    "ok_was_ordered",
    "check_failed_never_ok",
    "choice_free_decided",
    "check_all_ordered",
    "projections_ordered",
    "beyond_projections"
   ],
   "note": "The test is part of the specification, not of the library (which hands this question to an external tool). A role without a program (its stack asks for what its sessions do not allow) fails the test. With choices the converse speaks of the rounds that the execution has gone through."
  },
  {
   "property": "C57",
   "status": "proved",
   "theorems": [
    "accepts_exact",
    "accepted_progress",
    "accepted_one_ok_answer",
    "repository_accepted",
    "repository_never_blocks",
    "repository_one_ok_answer",
    "checker_tests_refuted"
   ],
   "note": "The tables are transcribed by a script (tools/), each cites the files it comes from. Time constants are left out; the chooser's sessions are the duals of its partners' as the macro makes them. The refutation is about the four files whose types are not dual."
  },
  {
   "property": "C58",
   "status": "proved",
   "theorems": [
    "recover_exact",
    "projections_determine",
    "is_global_sound",
    "is_global_exact",
    "global_accepted",
    "global_runs",
    "repository_global",
    "four_players_no_global_refuted",
    "table_described",
    "repository_rings",
    "repository_meshes",
    "rings_of_every_size",
    "meshes_of_every_size"
   ],
   "note": "The search is part of the specification, not of the library. The refutation: one test protocol is no projection of any global protocol; it works only because sends do not wait."
  },
  {
   "property": "C59",
   "status": "proved",
   "theorems": [
    "ordered_nobody_left_behind",
    "ordered_no_starvation",
    "ordered_no_starvation_without_crashes",
    "bounded_choices_all_return",
    "unwinding_all_return",
    "unwinding_not_endless",
    "repository_nobody_left_behind",
    "repository_no_starvation",
    "repository_all_return",
    "ordered_turns_fair"
   ],
   "note": "drops_end is needed when roles crash: endless_drop_refuted of C54."
  },
  {
   "property": "C60",
   "status": "proved",
   "theorems": [
    "clock_exists_iff_started",
    "unstarted_clock_fails_all"
   ],
   "note": ""
  },
  {
   "property": "C61",
   "status": "proved",
   "theorems": [
    "always_can_finish",
    "always_can_return",
    "strategy_not_endless",
    "repository_way_out",
    "repository_can_finish",
    "repository_can_return"
   ],
   "note": ""
  },
  {
   "property": "C62",
   "status": "proved",
   "theorems": [
    "in_time_all_succeed",
    "in_time_can_finish",
    "missed_window_nobody_ok",
    "timed_session_can_run",
    "repository_in_time",
    "non_feasible_refuted"
   ],
   "note": ""
  },
  {
   "property": "C63",
   "status": "proved",
   "theorems": [
    "recv_function_compiles",
    "offer_function_compiles",
    "check_function_compiles",
    "send_function_compiles",
    "function_uses_its_field",
    "send_function_sends_refuted",
    "send_function_calls",
    "recv_function_calls",
    "check_function_calls",
    "send_function_is_method",
    "recv_function_is_method",
    "offer_function_is_method",
    "same_type_same_calls",
    "wrong_index_differs",
    "functions_answer",
    "corpus_functions_are_methods"
   ],
   "note": ""
  },
  {
   "property": "C64",
   "status": "proved",
   "theorems": [
    "fork_function_compiles",
    "fork_accepts_exactly",
    "library_fork_is_generated",
    "fork_asks_dual",
    "choice_compiles",
    "choice_accepts_exactly",
    "cancel_choice_accepts_exactly",
    "choice_asks_dual",
    "compiled_iff_dual",
    "compiled_is_safe",
    "wrong_index_refuted",
    "old_sessions_finished_refuted",
    "two_roles_either_index",
    "corpus_choices_fit"
   ],
   "note": ""
  },
  {
   "property": "C65",
   "status": "proved",
   "theorems": [
    "roles_as_written",
    "all_roles_read_refuted",
    "macro_is_own",
    "interleaved_macro_is_own",
    "role_chooses_by_macro",
    "macro_of_other_rejected",
    "every_role_can_choose_refuted",
    "compiled_by_macros",
    "repository_macros"
   ],
   "note": ""
  },
  {
   "property": "C66",
   "status": "proved",
   "theorems": [
    "expected_graphs",
    "expected_bound",
    "unit_tests_text",
    "unit_tests_panic",
    "line_assertions",
    "message_shapes",
    "written_files",
    "refused_files"
   ],
   "note": ""
  },
  {
   "property": "C67",
   "status": "proved",
   "theorems": [
    "stack_printed_exact",
    "stack_printed_refuted",
    "printed_exact",
    "tail_alone_refuted",
    "types_told_apart_refuted",
    "dual_printed",
    "printed_like_dual",
    "three_roles_printed",
    "head_lines",
    "printed_tests",
    "repository_printed"
   ],
   "note": ""
  },
  {
   "property": "C68",
   "status": "proved",
   "theorems": [
    "binary_is_enum",
    "binary_safe",
    "binary_same_side",
    "binary_close_ok",
    "binary_progress",
    "binary_global_progress",
    "binary_terminates",
    "binary_all_ok"
   ],
   "note": ""
  },
  {
   "property": "C69",
   "status": "proved",
   "theorems": [
    "three_is_enum",
    "three_safe",
    "three_same_side",
    "three_close_ok",
    "three_progress",
    "three_global_progress",
    "three_terminates",
    "three_all_ok",
    "three_offer_discards_refuted",
    "three_method_offers_last"
   ],
   "note": ""
  },
  {
   "property": "C70",
   "status": "proved",
   "theorems": [
    "function_is_enum",
    "function_safe",
    "function_same_side",
    "function_close_ok",
    "function_progress",
    "function_global_progress",
    "function_terminates",
    "function_all_ok",
    "last_call_typed",
    "function_by_first_refuted"
   ],
   "note": ""
  },
  {
   "property": "C71",
   "status": "proved",
   "theorems": [
    "ordered_no_failure",
    "session_length",
    "steps_per_choice",
    "session_bounded",
    "unwinding_bounded",
    "repository_bounded",
    "repository_steps_per_choice",
    "binary_ordered_ok",
    "three_ordered_ok",
    "function_ordered_ok",
    "binary_bounded",
    "three_bounded",
    "function_bounded"
   ],
   "note": ""
  },
  {
   "property": "C72",
   "status": "proved",
   "theorems": [
    "accepted_iff_in_order",
    "rejected_exactly",
    "panics_exactly",
    "branching_panics_refuted",
    "distinct_no_panic",
    "advice_right",
    "advice_ends"
   ],
   "note": ""
  },
  {
   "property": "C73",
   "status": "proved",
   "theorems": [
    "il_compiles",
    "il_accepts_exactly",
    "il_asks_dual",
    "solo_asks_dual"
   ],
   "note": ""
  },
  {
   "property": "C74",
   "status": "proved",
   "theorems": [
    "pb_round_trip",
    "pb_round_trip_action",
    "pb_large_refuted",
    "pb_injective",
    "pb_size",
    "pb_bytes",
    "pb_concat",
    "pb_later_field",
    "pb_file_default",
    "pb_file_global",
    "pb_file_action",
    "pb_file_refuted"
   ],
   "note": ""
  },
  {
   "property": "C75",
   "status": "proved",
   "theorems": [
    "constraint_panics_iff",
    "constraint_free_refuted",
    "constraint_means_window",
    "constraint_same_text",
    "constraint_success",
    "constraint_accepted_refuted"
   ],
   "note": ""
  },
  {
   "property": "C76",
   "status": "proved",
   "theorems": [
    "choose_dual_offer",
    "offer_dual_choose",
    "offer_type_exact",
    "offer_type_refused"
   ],
   "note": ""
  }
 ]
}