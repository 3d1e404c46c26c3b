{
 "claims": [
  {
   "property": "C01",
   "status": "proved",
   "theorems": [
    "C01_dead_refused"
   ],
   "note": "All 26 node classes, arbitrary children, arbitrary leaf code."
  },
  {
   "property": "C02",
   "status": "proved",
   "theorems": [
    "C02_result",
    "C02_shutdown_result",
    "C02_failure"
   ],
   "note": "C02_failure covers setup, tick, untick, reset: after an error the node is BROKEN or in the illegal state its own code returned."
  },
  {
   "property": "C03",
   "status": "proved",
   "theorems": [
    "C03_broken_sticky"
   ],
   "note": "Over arbitrary histories of calls on arbitrary trees."
  },
  {
   "property": "C04",
   "status": "proved",
   "theorems": [
    "C04_stays_inside"
   ],
   "note": ""
  },
  {
   "property": "C05",
   "status": "proved",
   "theorems": [
    "C05_shutdown_all",
    "C05_failing_leaves",
    "C05_children_called",
    "C05_gap_refuted"
   ],
   "note": "C05_gap_refuted exhibits the gap the property names."
  },
  {
   "property": "C06",
   "status": "proved",
   "theorems": [
    "C06_setup_idle",
    "C06_failing_leaf"
   ],
   "note": ""
  },
  {
   "property": "C07",
   "status": "proved",
   "theorems": [
    "C07_untick_stops"
   ],
   "note": ""
  },
  {
   "property": "C08",
   "status": "partial",
   "theorems": [
    "C08_reset_partial",
    "C08_above",
    "C08_options_kept",
    "C08_memory_refuted"
   ],
   "note": "Trees of all classes: C08_above. Missing: the nodes below a RepeatNoAutoReset, its count (kept by design, as its documentation says) and the memory of Throttle; both survive a reset (C08_memory_refuted)."
  },
  {
   "property": "C09",
   "status": "proved",
   "theorems": [
    "C09_no_tick_without_inputs"
   ],
   "note": ""
  },
  {
   "property": "C10",
   "status": "proved",
   "theorems": [
    "C10_sequence"
   ],
   "note": "Exact list of calls on arbitrary child objects."
  },
  {
   "property": "C11",
   "status": "proved",
   "theorems": [
    "C11_fallback"
   ],
   "note": "Exact list of calls on arbitrary child objects."
  },
  {
   "property": "C12",
   "status": "proved",
   "theorems": [
    "C12_after_result",
    "C12_resume",
    "C12_restart",
    "C12_run"
   ],
   "note": "C12_run is the statement over whole runs; the others are its one-tick parts."
  },
  {
   "property": "C13",
   "status": "partial",
   "theorems": [
    "C13_after_result",
    "C13_resume",
    "C13_restart_partial",
    "C13_untick_refuted"
   ],
   "note": "The restart after untick is false in the code; C13_untick_refuted is the witness."
  },
  {
   "property": "C14",
   "status": "proved",
   "theorems": [
    "C14_parallel",
    "C14_decided"
   ],
   "note": ""
  },
  {
   "property": "C15",
   "status": "partial",
   "theorems": [
    "C15_tolerance",
    "C15_decided_partial",
    "C15_stuck_refuted"
   ],
   "note": "\"Does not stay RUNNING forever\" is false in the code for some option values (C15_stuck_refuted); C15_decided_partial gives the option values for which it holds."
  },
  {
   "property": "C16",
   "status": "partial",
   "theorems": [
    "C16_name_switch_partial",
    "C16_enum_switch_partial",
    "C16_after_last_dot",
    "C16_unknown_name_refuted",
    "C16_same_name_refuted"
   ],
   "note": "Proved when the input names exactly one child; the other two cases are refuted by witnesses."
  },
  {
   "property": "C17",
   "status": "partial",
   "theorems": [
    "C17_partial",
    "C17_below",
    "C17_kinds_refuted"
   ],
   "note": "Proved for every tree built of the other classes and every history of operations, including those in which user code raised an exception (C17_partial). Missing: IgnoreRunning, NameSwitch, EnumSwitch, Throttle, ThrottleSuccess and IterateList, for which the claim is false (C17_kinds_refuted has a run for each). For trees of all classes C17_below says that whatever is still running lies below a node of one of these six."
  },
  {
   "property": "C18",
   "status": "proved",
   "theorems": [
    "C18_inverter",
    "C18_ignore_failure",
    "C18_ignore_success",
    "C18_ignore_running",
    "C18_no_child"
   ],
   "note": ""
  },
  {
   "property": "C19",
   "status": "proved",
   "theorems": [
    "C19_retry"
   ],
   "note": ""
  },
  {
   "property": "C20",
   "status": "proved",
   "theorems": [
    "C20_repeat"
   ],
   "note": ""
  },
  {
   "property": "C21",
   "status": "proved",
   "theorems": [
    "C21_repeat_always",
    "C21_repeat_until_fail",
    "C21_until_success"
   ],
   "note": ""
  },
  {
   "property": "C22",
   "status": "proved",
   "theorems": [
    "C22_bounded"
   ],
   "note": ""
  },
  {
   "property": "C23",
   "status": "proved",
   "theorems": [
    "C23_optional"
   ],
   "note": ""
  },
  {
   "property": "C24",
   "status": "proved",
   "theorems": [
    "C24_exact",
    "C24_time",
    "C24_stays"
   ],
   "note": "Exact result of every tick of every history; in real numbers, SUCCEEDED may come early by less than the distance to the next smaller double. The clock also runs while the node is PAUSED."
  },
  {
   "property": "C25",
   "status": "proved",
   "theorems": [
    "C25_throttle",
    "C25_pacing"
   ],
   "note": "The interval comparison is the float comparison of the code."
  },
  {
   "property": "C26",
   "status": "partial",
   "theorems": [
    "C26_always_failed_partial",
    "C26_success_refuted",
    "C26_error_refuted"
   ],
   "note": "False in the code: ThrottleSuccess always returns FAILED and swallows errors of its child."
  },
  {
   "property": "C27",
   "status": "proved",
   "theorems": [
    "C27_no_child",
    "C27_child",
    "C27_shrunk_list_refuted"
   ],
   "note": "C27_shrunk_list_refuted: a list modified in place makes the tick raise."
  },
  {
   "property": "C28",
   "status": "proved",
   "theorems": [
    "C28_sequence",
    "C28_fallback",
    "C28_blocked",
    "C28_tree",
    "C28_subtree",
    "C28_subtree_bounds"
   ],
   "note": "C28_subtree: the same for Subtree nodes. C28_tree lifts soundness to trees of any depth. Costs are exact rationals; the code adds floats."
  },
  {
   "property": "C29",
   "status": "partial",
   "theorems": [
    "C29_parallel_partial",
    "C29_open_partial",
    "C29_error",
    "C29_unbounded_refuted"
   ],
   "note": "Each bound is proved sound and attained when every child has that bound. Without that, lower bounds are sound if no cost is negative, and the bounds of a Parallel that needs all its children (success) or one child (failure) are sound (C29_open_partial). False in the code when a child has no upper bound (C29_unbounded_refuted)."
  },
  {
   "property": "C30",
   "status": "partial",
   "theorems": [
    "C30_container",
    "C30_container_strict",
    "C30_inputs",
    "C30_refused",
    "C30_stored_partial",
    "C30_accepts",
    "C30_nan_refuted",
    "C30_generic_refuted",
    "C30_bytes_options_refuted"
   ],
   "note": "Constraints hold after all operations, and for all inputs over all histories of trees, with NaN counted as inside every range; C30_container_strict removes that when no NaN is offered. False in the code: NaN passes range checks, a locked GenericType reports success without storing, bytes with allowed values refuse everything."
  },
  {
   "property": "C31",
   "status": "partial",
   "theorems": [
    "C31_types_partial",
    "C31_wiring_partial",
    "C31_options_refuted",
    "C31_nested_refuted"
   ],
   "note": "Proved for types without allowed-value lists and for lists and dictionaries of simple types; false in the code for the other two (witnesses)."
  },
  {
   "property": "C32",
   "status": "partial",
   "theorems": [
    "C32_round_trip_partial",
    "C32_constructed",
    "C32_nested_refuted",
    "C32_empty_options_refuted"
   ],
   "note": "Proved for simple types and lists and dictionaries of them; false in the code for nested lists and for an empty list of allowed values."
  },
  {
   "property": "C33",
   "status": "partial",
   "theorems": [
    "C33_last_write_partial",
    "C33_seen",
    "C33_twice_refuted"
   ],
   "note": "The last write decides the flag; a second equal write clears it (false in the code)."
  },
  {
   "property": "C34",
   "status": "proved",
   "theorems": [
    "C34_not_wired",
    "C34_kept"
   ],
   "note": ""
  },
  {
   "property": "C35",
   "status": "partial",
   "theorems": [
    "C35_default_partial",
    "C35_int",
    "C35_float_refuted",
    "C35_empty_refuted",
    "C35_generic_refuted",
    "C35_given_refuted"
   ],
   "note": "Proved for the types listed in default_fits; false in the code for the others (witnesses). Beside: a given value that equals the default 1.2 is replaced by a positive minimum (C35_given_refuted)."
  },
  {
   "property": "C36",
   "status": "proved",
   "theorems": [
    "C36_delivered",
    "C36_untouched",
    "C36_unwired"
   ],
   "note": "\"Holds\" is up to Python equality, as in the code."
  },
  {
   "property": "C37",
   "status": "proved",
   "theorems": [
    "C37_extend",
    "C37_half_done_refuted"
   ],
   "note": "C37_half_done_refuted: beyond the property, an extension that reports an error has still added the other keys."
  },
  {
   "property": "C38",
   "status": "proved",
   "theorems": [
    "C38_not_editable"
   ],
   "note": "All twelve editing services; a request that arrives when another thread has just changed the state is covered by the execution model."
  },
  {
   "property": "C39",
   "status": "partial",
   "theorems": [
    "C39_wire",
    "C39_wire_ignore",
    "C39_unwire_partial",
    "C39_undo",
    "C39_unwire_twice_refuted"
   ],
   "note": "Wiring and undoing are proved for all lists; removal is all or nothing for lists without repetition and false in the code otherwise (witness)."
  },
  {
   "property": "C40",
   "status": "proved",
   "theorems": [
    "C40_remove",
    "C40_no_dangling"
   ],
   "note": "In every reachable state."
  },
  {
   "property": "C41",
   "status": "partial",
   "theorems": [
    "C41_move_partial",
    "C41_self_refuted",
    "C41_stale_refuted"
   ],
   "note": "Proved for managers that publish the structure and moves not under the node itself; both exceptions are false in the code (witnesses)."
  },
  {
   "property": "C42",
   "status": "partial",
   "theorems": [
    "C42_add_partial",
    "C42_accepted",
    "C42_add_node",
    "C42_orphan_refuted",
    "C42_children_refuted"
   ],
   "note": "False in the code when the parent is full or its identifier malformed: the node stays without parent (witness). Everything else is proved, including which requests succeed."
  },
  {
   "property": "C43",
   "status": "proved",
   "theorems": [
    "C43_linked",
    "C43_morph_refuted",
    "C43_load_refuted"
   ],
   "note": "Proved for histories of all twelve services in which morph_node and set_options keep enough room for the children and loaded messages describe a forest; the two exceptions are refuted by witnesses. The property itself names neither."
  },
  {
   "property": "C44",
   "status": "partial",
   "theorems": [
    "C44_right",
    "C44_terminates_partial",
    "C44_hangs_refuted"
   ],
   "note": "The answer is right whenever there is one; termination is characterised exactly, and false in a reachable state (C44_hangs_refuted)."
  },
  {
   "property": "C45",
   "status": "partial",
   "theorems": [
    "C45_replace_partial",
    "C45_refused",
    "C45_linked",
    "C45_itself_refuted",
    "C45_half_way_refuted",
    "C45_cycle_refuted"
   ],
   "note": "Proved when neither node is inside the other and there is room; three kinds of other requests damage the tree (witnesses)."
  },
  {
   "property": "C46",
   "status": "proved",
   "theorems": [
    "C46_root"
   ],
   "note": "In every reachable state."
  },
  {
   "property": "C47",
   "status": "proved",
   "theorems": [
    "C47_error",
    "C47_race_refuted"
   ],
   "note": "Proved from every state in which no request is in progress, then for all concurrent requests. C47_race_refuted: a STOP already in progress when the tick thread reports ERROR overwrites it."
  },
  {
   "property": "C48",
   "status": "partial",
   "theorems": [
    "C48_one_thread_partial",
    "C48_stop_partial",
    "C48_quiet_partial",
    "C48_stop_seen",
    "C48_once_seen",
    "C48_two_threads_refuted"
   ],
   "note": "Proved for all interleavings with the tick thread as long as requests do not overlap; false in the code for overlapping TICK commands (witness)."
  },
  {
   "property": "C49",
   "status": "proved",
   "theorems": [
    "C49_once",
    "C49_until_result",
    "C49_periodically",
    "C49_after_setup",
    "C49_crash_refuted"
   ],
   "note": "Every interleaving with the tick thread. A tick that reports an error or raises ends the ticking instead; after an exception the state still says TICKING (C49_crash_refuted)."
  },
  {
   "property": "C50",
   "status": "partial",
   "theorems": [
    "C50_no_edit_partial",
    "C50_refuted"
   ],
   "note": "Proved when requests do not overlap; false in the code otherwise (witness)."
  },
  {
   "property": "C51",
   "status": "partial",
   "theorems": [
    "C51_shutdown_partial",
    "C51_nodes_partial",
    "C51_refuted"
   ],
   "note": "Proved unless the tick thread is just finishing on its own when SHUTDOWN arrives; false in the code in that case (witness)."
  },
  {
   "property": "C52",
   "status": "partial",
   "theorems": [
    "C52_state_partial",
    "C52_stop_refuted",
    "C52_empty_refuted"
   ],
   "note": "Proved for the successful commands listed in the theorem; false in the code for others (witnesses)."
  },
  {
   "property": "C53",
   "status": "partial",
   "theorems": [
    "C53_never",
    "C53_refuted"
   ],
   "note": "False in the code: no execution of the command ever calls setup."
  },
  {
   "property": "C54",
   "status": "partial",
   "theorems": [
    "C54_one_pending",
    "C54_start",
    "C54_no_call",
    "C54_settled",
    "C54_answer_partial",
    "C54_answer_all",
    "C54_quiet",
    "C54_raised_refuted"
   ],
   "note": "All parts proved; C54_answer_partial excludes histories in which an exception got out of an operation. C54_answer_all covers all histories: after an exception the node can also be RUNNING with no call pending and then answers RUNNING for ever (C54_raised_refuted)."
  },
  {
   "property": "C55",
   "status": "partial",
   "theorems": [
    "C55_sent_partial",
    "C55_one_partial",
    "C55_quiet_partial",
    "C55_none_refuted",
    "C55_none_raises_refuted",
    "C55_two_refuted",
    "C55_left_refuted",
    "C55_changed_refuted"
   ],
   "note": "Proved for histories without the interruptions listed in careful; false in the code for the others (witnesses)."
  },
  {
   "property": "C56",
   "status": "proved",
   "theorems": [
    "C56_subscriber",
    "C56_memory"
   ],
   "note": "Histories in which no exception got out of an operation."
  },
  {
   "property": "C57",
   "status": "proved",
   "theorems": [
    "C57_number",
    "C57_plain",
    "C57_unique",
    "C57_newline_refuted",
    "C57_long_refuted"
   ],
   "note": "Names of at most 4096 characters, which file systems guarantee for existing paths; witnesses show what happens with longer numbers and with a newline at the end."
  },
  {
   "property": "C58",
   "status": "partial",
   "theorems": [
    "C58_kept",
    "C58_written",
    "C58_denied",
    "C58_storage",
    "C58_answers",
    "C58_inside_partial",
    "C58_inside_refuted"
   ],
   "note": "Overwriting is proved in full. Staying inside the storage directory is proved for relative paths without ..; false in the code for others (witness)."
  },
  {
   "property": "C59",
   "status": "proved",
   "theorems": [
    "C59_listing",
    "C59_unknown",
    "C59_package",
    "C59_no_package",
    "C59_concurrent_refuted"
   ],
   "note": "C59_concurrent_refuted: beyond the property, two listings at the same time share the counter."
  },
  {
   "property": "C60",
   "status": "proved",
   "theorems": [
    "C60_subtrees",
    "C60_data",
    "C60_adopt",
    "C60_agree",
    "C60_answers",
    "C60_self_refuted",
    "C60_race_refuted"
   ],
   "note": "Operations that do not overlap, switches on managers that are not nested, as the execution manager does. Witnesses: overlapping operations, a manager nested in itself."
  },
  {
   "property": "C61",
   "status": "partial",
   "theorems": [
    "C61_optional",
    "C61_watch_partial",
    "C61_repeating_partial",
    "C61_decorator_partial",
    "C61_inverter_refuted",
    "C61_ignore_failure_refuted",
    "C61_retry_refuted",
    "C61_name_switch_refuted",
    "C61_enum_switch_refuted"
   ],
   "note": "Proved: the bounds of an Optional and of a Watch, and the lower bounds of decorators that repeat their child. False for decorators that change the result, for upper bounds of those that repeat, and for the switches (witnesses); all but Optional forward the bounds of their child unchanged (C61_decorator_partial)."
  },
  {
   "property": "C62",
   "status": "partial",
   "theorems": [
    "C62_load_partial",
    "C62_accepts",
    "C62_destroyed_refuted",
    "C62_two_parents_refuted",
    "C62_twice_refuted"
   ],
   "note": "A load succeeds exactly for messages that describe a tree, and gives this tree, for messages in which no identifier or child occurs twice; the rest is false in the code (witnesses): a child under two parents or an identifier twice is loaded with success as something else, and a load that fails has destroyed the old tree."
  },
  {
   "property": "C63",
   "status": "proved",
   "theorems": [
    "C63_morph",
    "C63_set_options",
    "C43_morph_refuted"
   ],
   "note": "Under the condition that the new configuration has room for the children; without it the request fails half-way (C43_morph_refuted)."
  },
  {
   "property": "C64",
   "status": "proved",
   "theorems": [
    "C64_wirings_valid"
   ],
   "note": "Every history of all twelve services, without restriction."
  },
  {
   "property": "C65",
   "status": "proved",
   "theorems": [
    "C65_one_edit"
   ],
   "note": "Under every interleaving of requests."
  },
  {
   "property": "C66",
   "status": "proved",
   "theorems": [
    "C66_reset"
   ],
   "note": "Requests do not overlap; every interleaving with the tick thread."
  },
  {
   "property": "C67",
   "status": "proved",
   "theorems": [
    "C67_answer"
   ],
   "note": ""
  },
  {
   "property": "C68",
   "status": "proved",
   "theorems": [
    "C68_exact"
   ],
   "note": "Histories in which no exception got out of an operation."
  },
  {
   "property": "C69",
   "status": "proved",
   "theorems": [
    "C69_tick",
    "C69_else",
    "C69_shutdown_refuted"
   ],
   "note": "C69_shutdown_refuted: beyond the property, shutting down a publisher or action node that was never set up raises."
  },
  {
   "property": "C70",
   "status": "partial",
   "theorems": [
    "C70_partial",
    "C70_refuted"
   ],
   "note": "False in the code when overwriting fails after open() (witness)."
  },
  {
   "property": "C71",
   "status": "proved",
   "theorems": [
    "C71_get",
    "C71_add",
    "C71_remove"
   ],
   "note": ""
  },
  {
   "property": "C72",
   "status": "proved",
   "theorems": [
    "C72_call",
    "C72_refused",
    "C72_state",
    "C72_shutdown",
    "C72_empty"
   ],
   "note": "C72_state: histories in which no call raised."
  },
  {
   "property": "C73",
   "status": "partial",
   "theorems": [
    "C73_inputs_partial",
    "C73_inputs_refuted"
   ],
   "note": "Proved for histories in which data arrive flagged as updated, and the node is not wired to itself. Without that it is false in the code: writing the same value again unflags an input that was not yet seen (witness)."
  },
  {
   "property": "C74",
   "status": "proved",
   "theorems": [
    "C74_ticks",
    "C74_history",
    "C74_written_partial",
    "C74_kept_partial",
    "C74_outputs_partial"
   ],
   "note": "C74_ticks: histories of ticks and unticks, any inner tree. C74_history: all operations, for inner trees without Optional and RepeatNoAutoReset (whose children a reset may leave out) and resets that do not end in an exception. The three _partial theorems are the steps for nodes other than IOOutput."
  },
  {
   "property": "C75",
   "status": "partial",
   "theorems": [
    "C75_outputs",
    "C75_inputs_partial",
    "C75_sound",
    "C75_refuted"
   ],
   "note": "Outputs in full. Inputs: if the message that mentions the input also mentions its type input; otherwise the input has no type (witness)."
  },
  {
   "property": "C76",
   "status": "proved",
   "theorems": [
    "C76_life",
    "C76_constant",
    "C76_io",
    "C76_passthrough",
    "C76_compare",
    "C76_compare_new",
    "C76_less",
    "C76_length",
    "C76_insert",
    "C76_isin",
    "C76_append",
    "C76_setdict",
    "C76_concat",
    "C76_format",
    "C76_extension"
   ],
   "note": "Results that exceed the maximal length of a list, dictionary or text (2^64-1616) are excluded. FormatString for every formatting function; its dictionary only holds integers."
  },
  {
   "property": "C77",
   "status": "partial",
   "theorems": [
    "C77_int",
    "C77_undefined",
    "C77_bool",
    "C77_float",
    "C77_float_undefined",
    "C77_unary",
    "C77_not",
    "C77_unary_undefined",
    "C77_unary_float",
    "C77_unary_float_undefined",
    "C77_unary_bool",
    "C77_division_refuted",
    "C77_real_refuted"
   ],
   "note": "The first sentence in full: integers, bools and doubles; what the C library computes (floor division, remainder and power of doubles, the functions of math) is a parameter. The last sentence is false in the code: division, negative powers and 25 functions never succeed on integers, and on bools only the logical operators do (C77_bool, C77_unary_bool)."
  },
  {
   "property": "C78",
   "status": "partial",
   "theorems": [
    "C78_cache",
    "C78_again",
    "C78_read",
    "C78_refuted"
   ],
   "note": "All but the last part, which is false: load_success is true although the content is refused (witness)."
  },
  {
   "property": "C79",
   "status": "partial",
   "theorems": [
    "C79_random",
    "C79_refuted"
   ],
   "note": "Proved for min less than max; a range with one number is refused (witness)."
  },
  {
   "property": "C80",
   "status": "partial",
   "theorems": [
    "C80_setattr_refuted",
    "C80_format_list_refuted",
    "C80_convert_refuted"
   ],
   "note": "False in the code for these three classes: no tick of any history succeeds."
  },
  {
   "property": "C81",
   "status": "proved",
   "theorems": [
    "C81_reset",
    "C81_reset_failed",
    "C81_tick_many",
    "C81_tick_many_failed",
    "C81_tick_once",
    "C81_stop",
    "C81_shutdown",
    "C81_setup_and_shutdown",
    "C81_shutdown_failed",
    "C81_do_nothing",
    "C81_unknown",
    "C81_edit",
    "C81_edit_failed"
   ],
   "note": ""
  },
  {
   "property": "C82",
   "status": "proved",
   "theorems": [
    "C82_accepted",
    "C82_timeout",
    "C82_cancels",
    "C82_unanswered_refuted"
   ],
   "note": "C82_unanswered_refuted: beyond the property, a goal the server never answers has no timeout."
  },
  {
   "property": "C83",
   "status": "partial",
   "theorems": [
    "C83_source_partial",
    "C83_kept",
    "C83_loads",
    "C83_returns",
    "C83_hangs_refuted",
    "C83_two_documents_refuted"
   ],
   "note": "Two parts are false in the code: a file without nodes or of an old version is read again forever, and a second document is ignored (witnesses). Messages in which an identifier or a child occurs twice are accepted and loaded as something else (C62_two_parents_refuted, C62_twice_refuted)."
  },
  {
   "property": "C84",
   "status": "partial",
   "theorems": [
    "C84_erased_refuted",
    "C84_nodes_partial",
    "C84_empty"
   ],
   "note": "False in the code whenever the structure is published: every tree is erased. Without a publisher nodes and places are kept, wirings and name are lost."
  },
  {
   "property": "C85",
   "status": "partial",
   "theorems": [
    "C85_subtree_partial",
    "C85_subtree_answers",
    "C85_unknown",
    "C85_published",
    "C85_wirings_refuted",
    "C85_public_refuted"
   ],
   "note": "All but two parts that are false in the code: the message about a subtree has no wirings, and publishing forgets the public inputs and outputs."
  },
  {
   "property": "C86",
   "status": "proved",
   "theorems": [
    "C86_roundtrip"
   ],
   "note": "For node classes that are rebuilt from their message with the same ports (faithful)."
  },
  {
   "property": "C87",
   "status": "partial",
   "theorems": [
    "C87_generates",
    "C87_closed",
    "C87_rootless",
    "C87_parents_refuted",
    "C87_spelling_refuted"
   ],
   "note": "Which tree is generated is proved exactly. The promise of the documentation that all relevant parents are added is false: only direct parents are, and names are compared as texts."
  },
  {
   "property": "C88",
   "status": "partial",
   "theorems": [
    "C88_off",
    "C88_on",
    "C88_switched_on_refuted",
    "C88_between",
    "C88_state_refuted",
    "C88_path",
    "C88_path_refuted"
   ],
   "note": "False in the code in three places, all shown: switching on during an operation makes it raise, the states PRE_* of all operations but tick are missing, and the path of a node below itself never ends. The rest is proved."
  },
  {
   "property": "C89",
   "status": "partial",
   "theorems": [
    "C89_lists",
    "C89_states",
    "C89_entry",
    "C89_current",
    "C89_in_form",
    "C89_plain",
    "C89_zero_refuted",
    "C89_order_refuted",
    "C89_written",
    "C89_dict_refuted"
   ],
   "note": "Completeness and truth of the entries in full, when the data are published at all: an exception keeps them from being published if a wired value cannot be written (C89_written, C89_dict_refuted). The last sentence is proved for values that have only one form (C89_plain says which); for others (0.0 and -0.0, dictionaries in another order) it is false in the code (witnesses)."
  },
  {
   "property": "C90",
   "status": "partial",
   "theorems": [
    "C90_off",
    "C90_cleared",
    "C90_on",
    "C90_switched",
    "C90_race_refuted",
    "C90_flags_refuted"
   ],
   "note": "Proved when no tick is between the test and the publishing at the moment of switching off. Otherwise false in the code: the data are published after the empty message and stay (C90_race_refuted); two requests at once leave the tree and its subtrees switched differently (C90_flags_refuted)."
  },
  {
   "property": "C91",
   "status": "partial",
   "theorems": [
    "C91_type",
    "C91_string_refuted",
    "C91_takes_partial",
    "C91_inf_refuted",
    "C91_numpy_refuted",
    "C91_gives_partial",
    "C91_gives_refuted"
   ],
   "note": "Containers in full for all types whose message names do not begin like a string type; those are taken for strings (C91_string_refuted). Values: proved with the exceptions that are false in the code: infinite numbers are refused, numpy arrays raise, integers in lists of floats, empty octets and numbers of single precision above the bound that the setters of messages assert (3.402823466e+38) are let through."
  },
  {
   "property": "C92",
   "status": "partial",
   "theorems": [
    "C92_service",
    "C92_converters",
    "C92_clash_refuted",
    "C92_message",
    "C92_made",
    "C92_unset",
    "C92_shown_partial",
    "C92_self_refuted",
    "C92_action",
    "C92_result_partial",
    "C92_feedback_partial",
    "C92_feedback_refuted"
   ],
   "note": "Proved for types that C91 covers. False in the code: the outputs for feedback are made from the fields of the result, so feedback of an action with other fields is never shown (C92_feedback_refuted); a field with the name of an input of the node (C92_clash_refuted), or named self (C92_self_refuted)."
  },
  {
   "property": "C93",
   "status": "partial",
   "theorems": [
    "C93_param",
    "C93_text_refuted",
    "C93_time"
   ],
   "note": "All but the last sentence, which is false: texts and lists with texts are refused whatever type is chosen (C93_text_refuted, for all nodes)."
  },
  {
   "property": "C94",
   "status": "partial",
   "theorems": [
    "C94_partial",
    "C94_refuted"
   ],
   "note": "False in the code: a node for a message with at least one constant cannot be created, because the name of the constant instead of its type is looked up among the types (C94_refuted). C94_partial: messages without constants."
  },
  {
   "property": "C95",
   "status": "proved",
   "theorems": [
    "C95_node",
    "C95_manager",
    "C95_internal",
    "C95_silent",
    "C95_level",
    "C95_off",
    "C95_names"
   ],
   "note": "C95_off: a level above FATAL switches everything off, although a comment in the code says that this is not possible."
  },
  {
   "property": "C96",
   "status": "partial",
   "theorems": [
    "C96_agrees_partial",
    "C96_load_partial",
    "C96_tick_partial",
    "C96_kept",
    "C96_negative_refuted",
    "C96_negative_load_refuted",
    "C96_warning_refuted",
    "C96_told_refuted"
   ],
   "note": "The first sentence is proved for frequencies that are not negative. The rest is false in the code: a negative frequency raises an exception after the tree is marked as ticking or loaded, the warning appears only for ticks without duration, and durations times 10^9 are published as frequency (all shown for all states)."
  },
  {
   "property": "C97",
   "status": "partial",
   "theorems": [
    "C97_level_partial",
    "C97_cleared",
    "C97_name_refuted"
   ],
   "note": "The levels are proved, and what clearing does to the name. The name is false in the code: it is set only if there is nobody to publish to, so that it is always empty (C97_name_refuted, for all histories)."
  },
  {
   "property": "C98",
   "status": "partial",
   "theorems": [
    "C98_define",
    "C98_kept",
    "C98_list",
    "C98_success",
    "C98_find",
    "C98_raise_refuted"
   ],
   "note": "All but the last sentence, which is false: a module name that begins with a dot, or an import that ends with another exception than ImportError and ValueError, makes the request raise (C98_raise_refuted)."
  },
  {
   "property": "C99",
   "status": "partial",
   "theorems": [
    "C99_keeps",
    "C99_result",
    "C99_inplace",
    "C99_again",
    "C99_completes",
    "C99_returns",
    "C99_crash_refuted",
    "C99_stops_refuted"
   ],
   "note": "All but the last sentence is proved. That is false: in place the file is emptied before it is written, and an exception ends the script."
  },
  {
   "property": "C100",
   "status": "partial",
   "theorems": [
    "C100_interface",
    "C100_given",
    "C100_depth",
    "C100_ends_partial",
    "C100_cycle",
    "C100_ends_refuted"
   ],
   "note": "The last sentence is proved only if no tree contains itself. A tree that does is not recognised: loading it ends in a RecursionError."
  },
  {
   "property": "C101",
   "status": "partial",
   "theorems": [
    "C101_value",
    "C101_saved",
    "C101_serializes",
    "C101_dict_refuted",
    "C101_array_refuted",
    "C101_ignored_refuted"
   ],
   "note": "The first three sentences in full (the texts as JSON values; types whose description can be read again, see C32; equal means equal in Python). The last is proved for types without messages and without dictionaries of anything but texts; for the others it is false in the code: a non-empty dictionary of anything but texts (C101_dict_refuted) and a message with a sequence or array of numbers (C101_array_refuted) raise an exception. A saved value that the input refuses is dropped without an error (C101_ignored_refuted)."
  },
  {
   "property": "C102",
   "status": "proved",
   "theorems": [
    "C102_private",
    "C102_stored",
    "C102_given",
    "C102_held",
    "C102_possible"
   ],
   "note": "copy.deepcopy is described by its effect; C102_possible shows that the description can be met."
  },
  {
   "property": "C103",
   "status": "proved",
   "theorems": [
    "C103_kept",
    "C103_reference_kept",
    "C103_given",
    "C103_stuck_refuted",
    "C103_refused_refuted",
    "C103_retype_refuted"
   ],
   "note": "A refused value is replaced by the default and the change still succeeds; changing only the type input of a value raises; a dictionary of anything but texts in a dynamic input makes every change raise."
  },
  {
   "property": "C104",
   "status": "proved",
   "theorems": [
    "C104_no_deadlock",
    "C104_answered",
    "C104_stop_soon",
    "C104_response",
    "C104_tree",
    "C104_overlap_refuted",
    "C104_response_refuted"
   ],
   "note": "Liveness: fairness is weak fairness of each process. Not so for overlapping requests (C104_overlap_refuted); a TICK command that comes while a thread is about to end raises and leaves the state TICKING (C104_response_refuted)."
  },
  {
   "property": "C105",
   "status": "partial",
   "theorems": [
    "C105_messages",
    "C105_origin",
    "C105_packages",
    "C105_republish",
    "C105_channels",
    "C105_broken_refuted",
    "C105_prefix_refuted"
   ],
   "note": "All is proved but that the packages left out come with the distribution: packages in every directory whose path begins with /opt/ros are left out (C105_prefix_refuted). One message that cannot be loaded keeps the node from starting (C105_broken_refuted)."
  },
  {
   "property": "C106",
   "status": "partial",
   "theorems": [
    "C106_service_partial",
    "C106_action_partial",
    "C106_service_refuted",
    "C106_action_refuted",
    "C106_topic_refuted",
    "C106_param_refuted",
    "C106_optional_service_refuted",
    "C106_optional_action_refuted",
    "C106_optional_topic_refuted",
    "C106_optional_param_refuted",
    "C106_optional_unset"
   ],
   "note": "Proved for service and action nodes that have been ticked since their last setup or reset (for actions, while a goal is being worked on). The rest is false in the code: the client is only created in the first tick, the type of a publisher (a str) is compared with a class, and RosParam returns the empty bounds. An Optional asks before its child is set up and so never runs any of these nodes."
  },
  {
   "property": "C107",
   "status": "partial",
   "theorems": [
    "C107_old_kept",
    "C107_written",
    "C107_alone",
    "C107_lost_refuted",
    "C107_mixed_refuted",
    "C107_crash_refuted"
   ],
   "note": "Proved: files that no request may overwrite are safe, and a success means that the tree is stored if no other request opened that path. False in the code: two requests for the same new path may both succeed without permission to overwrite, one tree being lost or both being mixed; a file that is overwritten is empty or incomplete for a while."
  },
  {
   "property": "C108",
   "status": "partial",
   "theorems": [
    "C108_shown_partial",
    "C108_refuted"
   ],
   "note": "Proved for requests that come one at a time, edits only while no thread ticks the tree. False for overlapping requests: a wiring request that was accepted before the tree is started and ends afterwards is shown but has no effect."
  },
  {
   "property": "C109",
   "status": "partial",
   "theorems": [
    "C109_linked",
    "C109_tick_partial",
    "C109_unchanged_partial",
    "C109_unchanged_refuted"
   ],
   "note": "Agreement of links and wirings holds for all interleavings. The tick of the shown tree is proved for requests that come one at a time, edits only while no thread ticks the tree (for overlapping requests it is false: C108_refuted). Commands leave the tree alone if there is at most one root; with several roots SHUTDOWN, answered with success, removes the links between all nodes."
  },
  {
   "property": "C110",
   "status": "partial",
   "theorems": [
    "C110_tick_partial",
    "C110_asks",
    "C110_own_child_refuted"
   ],
   "note": "The part about inputs wired to the child is false: after setup such an input has no value and Node.tick refuses before the child is ticked, so the node is BROKEN (proved for every class of node). The rest is proved in full. getattr is a parameter."
  },
  {
   "property": "C111",
   "status": "partial",
   "theorems": [
    "C111_created",
    "C111_input",
    "C111_accepts_partial",
    "C111_large_refuted",
    "C111_dispatch"
   ],
   "note": "That the input takes every constant is false: an integer constant of 2^63 or more, as uint64 constants may be, is refused, so its child can never be chosen. It is proved for all that fit."
  },
  {
   "property": "C112",
   "status": "partial",
   "theorems": [
    "C112_start",
    "C112_ticks",
    "C112_stop_partial",
    "C112_rest",
    "C112_stop_refuted"
   ],
   "note": "The last sentence is false: shutdown does nothing when the tree is IDLE, EDITABLE or ERROR, so a default tree that was ticked until its result keeps all its nodes set up. It is proved when the command SHUTDOWN is given, succeeds and stops a thread or finds none. Besides, main never calls shutdown."
  },
  {
   "property": "C113",
   "status": "partial",
   "theorems": [
    "C113_node_partial",
    "C113_inherited",
    "C113_unknown",
    "C113_access",
    "C113_number",
    "C113_conversion_refuted"
   ],
   "note": "False for s, r and a: the result of the inherited conversion is dropped, so these letters have no effect (C113_inherited), which shows in the alignment of the text. Proved for all templates with the other conversions. C113_access covers attributes and items after a key, C113_number keys that are numbers. Braces in specifications are modelled but not in the templates."
  },
  {
   "property": "C114",
   "status": "proved",
   "theorems": [
    "C114_do",
    "C114_and_then",
    "C114_leak",
    "C114_unwrap",
    "C114_through",
    "C114_laws",
    "C114_equal",
    "C114_as_result",
    "C114_bind"
   ],
   "note": "C114_leak shows why the exception of do is excepted. C114_bind says that the chains of the rest of the model (bind) are those of the code. The variants for coroutines are not modelled; nothing uses them."
  },
  {
   "property": "C115",
   "status": "partial",
   "theorems": [
    "C115_same",
    "C115_differs",
    "C115_alone_partial",
    "C115_copy_refuted",
    "C115_root_refuted"
   ],
   "note": "False as stated: C115_copy_refuted shows that comparing corresponding nodes of two equal trees with more than one node never ends (RecursionError in Python), and C115_root_refuted that comparing a root with a node below another raises. What holds is proved: a node equals itself, yes implies equal attributes, and single nodes are compared rightly."
  },
  {
   "property": "C116",
   "status": "partial",
   "theorems": [
    "C116_types_partial",
    "C116_loosened_refuted",
    "C116_narrow_refuted",
    "C116_kept"
   ],
   "note": "The types hold (C116_types_partial, without options and NaN bounds, see C31). The flags are compared the wrong way round: a message may allow wiring where the class forbids it (C116_loosened_refuted, with Constant), and a narrower message is refused (C116_narrow_refuted, with Passthrough). C116_kept is what the check does ensure."
  },
  {
   "property": "C117",
   "status": "partial",
   "theorems": [
    "C117_plain",
    "C117_config_partial",
    "C117_reference",
    "C117_kinds",
    "C117_reference_refuted"
   ],
   "note": "Proved for containers that are no references and whose float bounds are not NaN. References do not compare their values: the configurations of two Constants with the values 7 and 8 are equal (C117_reference_refuted). C117_reference is what references do compare. numpy arrays are not modelled."
  }
 ]
}