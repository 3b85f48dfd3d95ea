{
 "claims": [
  {
   "property": "C01",
   "status": "proved",
   "theorems": [
    "C01_clock_never_goes_back",
    "C01_clock_of_a_run"
   ],
   "note": ""
  },
  {
   "property": "C02",
   "status": "partial",
   "theorems": [
    "C02_pqueue_clock_never_goes_back_partial",
    "C02_past_request_moves_clock_back_refuted",
    "C02_who_moves_the_clock_back_partial"
   ],
   "note": "REFUTED: a negative delay moves the clock back (witness, default scheduler). What holds is C01; the priority-queue scheduler's clock never goes back for forward-only agents either."
  },
  {
   "property": "C03",
   "status": "proved",
   "theorems": [
    "C03_every_activation_has_an_appointment",
    "C03_exact_wakeup",
    "C03_appointments_of_a_run",
    "C03_wakeup_in_a_run"
   ],
   "note": ""
  },
  {
   "property": "C04",
   "status": "proved",
   "theorems": [
    "C04_step_runs_exactly_the_due_agents",
    "C04_step_of_a_run"
   ],
   "note": ""
  },
  {
   "property": "C05",
   "status": "partial",
   "theorems": [
    "C05_pqueue_start_time_refuted",
    "C05_start_time_is_ignored_refuted",
    "C05_start_time_has_no_effect_partial"
   ],
   "note": "REFUTED: add(agent, when=t) ignores t in the default scheduler (the general theorem says that it has no effect at all); in the priority-queue scheduler it can drop another entry."
  },
  {
   "property": "C06",
   "status": "proved",
   "theorems": [
    "C06_pqueue_exhausted_schedule_is_inert",
    "C06_exhausted_schedule_is_inert",
    "C06_exhausted_run"
   ],
   "note": ""
  },
  {
   "property": "C07",
   "status": "partial",
   "theorems": [
    "C07_pqueue_failing_agent_blocks_the_others_refuted",
    "C07_pqueue_no_appointment_is_lost_partial",
    "C07_failure_makes_others_miss_their_turn_refuted",
    "C07_later_appointments_survive_partial"
   ],
   "note": "REFUTED: an exception drops the remaining agents of the same instant for ever (default scheduler) or leaves them late and the failing one first (priority queue); appointments for other instants survive in both."
  },
  {
   "property": "C08",
   "status": "proved",
   "theorems": [
    "C08_every_activation_has_an_appointment",
    "C08_exact_wakeup",
    "C08_clock_never_goes_back"
   ],
   "note": ""
  },
  {
   "property": "C09",
   "status": "partial",
   "theorems": [
    "C09_addition_cancels_another_agent_refuted",
    "C09_effect_of_an_addition_partial",
    "C09_additions_at_zero_keep_the_others_partial"
   ],
   "note": "REFUTED: at a clock value other than 0 an addition removes the first pending entry of another agent; the exact effect of an addition is proved."
  },
  {
   "property": "C10",
   "status": "partial",
   "theorems": [
    "C10_step_does_not_terminate_with_floats_refuted",
    "C10_step_does_not_terminate_refuted",
    "C10_step_terminates_partial"
   ],
   "note": "REFUTED: a negative delay makes step() loop for ever, and so does a positive one that is too small to move a floating-point clock; with non-negative delays, a positive default interval, no additions and no rounding it terminates."
  },
  {
   "property": "C11",
   "status": "proved",
   "theorems": [
    "C11_schedulers_agree"
   ],
   "note": ""
  },
  {
   "property": "C12",
   "status": "proved",
   "theorems": [
    "C12_lockstep_grid"
   ],
   "note": ""
  },
  {
   "property": "C13",
   "status": "partial",
   "theorems": [
    "C13_empty_lockstep_does_not_return_refuted",
    "C13_lockstep_returns_partial"
   ],
   "note": "REFUTED: a wrapper around a scheduler with no agents never returns from step(); with at least one appointment, non-negative delays, positive default interval and no additions during steps it returns."
  },
  {
   "property": "C14",
   "status": "partial",
   "theorems": [
    "C14_delay_of_zero_refuted",
    "C14_at_now_refuted",
    "C14_at_rounding_refuted",
    "C14_positive_delay_partial",
    "C14_at_later_exact_partial",
    "C14_at_later_binary64_partial"
   ],
   "note": "REFUTED: delay(0) and at(now) are replaced by the default interval, and with floats at(0.9) requested at 0.2 wakes the agent at 0.8999999999999999. Proved: positive delays are exact; at(t) is exact for later instants without rounding, and with floats for instants up to twice the current one."
  },
  {
   "property": "C15",
   "status": "proved",
   "theorems": [
    "C15_float_addition_never_goes_back",
    "C15_model_addition_is_ieee",
    "C15_clock_never_goes_back_binary64",
    "C15_positive_delays_need_not_move_the_clock"
   ],
   "note": ""
  },
  {
   "property": "C16",
   "status": "proved",
   "theorems": [
    "C16_nobody_acts_at_or_after_max_time",
    "C16_everything_before_max_time_was_done"
   ],
   "note": ""
  },
  {
   "property": "C17",
   "status": "proved",
   "theorems": [
    "C17_runs_stop_for_a_reason",
    "C17_runs_stop_as_soon_as_there_is_a_reason"
   ],
   "note": ""
  },
  {
   "property": "C18",
   "status": "partial",
   "theorems": [
    "C18_max_steps_does_not_bound_a_run_refuted",
    "C18_max_time_does_not_bound_a_run_refuted",
    "C18_finishes_with_max_time_partial",
    "C18_finishes_with_max_steps_partial"
   ],
   "note": "REFUTED: max_steps alone never stops a model whose agents have all died, and agents that add agents keep the clock below max_time. Proved: a run with a finite max_time ends if agents add no agents while they act and the default interval is positive; a run with max_steps ends if no agent dies."
  },
  {
   "property": "C19",
   "status": "proved",
   "theorems": [
    "C19_one_row_per_step",
    "C19_default_reporters",
    "C19_time_column_never_decreases"
   ],
   "note": ""
  },
  {
   "property": "C20",
   "status": "partial",
   "theorems": [
    "C20_empty_list_refuted",
    "C20_matrix_is_explored_partial"
   ],
   "note": "REFUTED for a matrix with an empty list of values: it has no combinations, but the model is run once without parameters (C20_empty_list_refuted). Proved for non-empty lists."
  },
  {
   "property": "C21",
   "status": "partial",
   "theorems": [
    "C21_fixed_parameters_are_missing_refuted",
    "C21_only_one_of_them_partial"
   ],
   "note": "REFUTED: with both parameters and matrix, the fixed parameters are run alone and the combinations of the matrix are run without them. Proved when only one of the two is given."
  },
  {
   "property": "C22",
   "status": "proved",
   "theorems": [
    "C22_lifecycle"
   ],
   "note": ""
  },
  {
   "property": "C23",
   "status": "partial",
   "theorems": [
    "C23_no_sim_end_after_a_failure_refuted",
    "C23_finished_iterations_are_exported_partial"
   ],
   "note": "REFUTED: sim_end is never called when an iteration raises. Proved: everything that finished before the failure was given to every exporter."
  },
  {
   "property": "C24",
   "status": "partial",
   "theorems": [
    "C24_num_processes_has_no_effect_refuted",
    "C24_parameter_num_processes_partial"
   ],
   "note": "REFUTED: the field num_processes has no effect on a run, for all simulations. Proved: a parameter of the model named num_processes is taken by run_parallel and behaves as described."
  },
  {
   "property": "C25",
   "status": "proved",
   "theorems": [
    "C25_pool_yields_the_successful_calls",
    "C25_serial_stops_at_the_first_failure"
   ],
   "note": ""
  },
  {
   "property": "C26",
   "status": "proved",
   "theorems": [
    "C26_seeds_of_a_run",
    "C26_seeds_are_different"
   ],
   "note": ""
  },
  {
   "property": "C27",
   "status": "partial",
   "theorems": [
    "C27_trailing_nul_refuted",
    "C27_same_length_partial",
    "C27_no_trailing_nul_partial",
    "C27_iteration_seeds_partial"
   ],
   "note": "REFUTED: trailing NUL bytes are ignored. Proved for strings of equal length, strings without a trailing NUL, and all seeds of iterations."
  },
  {
   "property": "C28",
   "status": "partial",
   "theorems": [
    "C28_shared_graph_refuted",
    "C28_new_graphs_partial"
   ],
   "note": "REFUTED for topologies given as a networkx graph: the graph is shared and keeps the agents of the first iteration, so the second one has no agents at all (and its run raises). Proved for topologies that are loaded or generated."
  },
  {
   "property": "C29",
   "status": "partial",
   "theorems": [
    "C29_reporters_leak_refuted",
    "C29_reporters_accumulate_partial"
   ],
   "note": "REFUTED: the dictionaries of the simulation are updated in place. Proved: exactly which reporters each iteration gets."
  },
  {
   "property": "C30",
   "status": "partial",
   "theorems": [
    "C30_loading_runs_nothing",
    "C30_queued_simulations_are_yielded_once",
    "C30_matrix_is_run_again_refuted",
    "C30_named_simulation_is_yielded_twice_refuted",
    "C30_leftover_queue_refuted",
    "C30_without_matrix_partial",
    "C30_files_without_simulations"
   ],
   "note": "REFUTED in three ways: matrices are run again, named simulations that are run are yielded twice, the queue of a file that raises is left for the next file. Proved: nothing is run while loading, the flag is reset, what is yielded and in which order."
  },
  {
   "property": "C31",
   "status": "partial",
   "theorems": [
    "C31_limits_of_the_file_are_dropped_refuted",
    "C31_output_is_ignored_refuted",
    "C31_effect_of_the_options_partial"
   ],
   "note": "REFUTED: the limits of the file are always dropped and --output is always ignored by the console command. Proved: the effect of all the other options."
  },
  {
   "property": "C32",
   "status": "partial",
   "theorems": [
    "C32_bodies_are_played_in_order",
    "C32_activation_after_a_failure_is_lost_refuted"
   ],
   "note": "REFUTED: the activation that follows a failure of the body does nothing (the finished generator is resumed and its StopIteration is taken as the end of the step). Proved: without failures the bodies are played in order, each resumed where it stopped."
  },
  {
   "property": "C33",
   "status": "partial",
   "theorems": [
    "C33_foreign_state_refuted",
    "C33_initial_state_is_declared_partial",
    "C33_state_is_always_declared_partial",
    "C33_effect_of_the_returned_value",
    "C33_other_values_are_errors",
    "C33_only_own_activations_change_the_state",
    "C33_set_state_at_the_start"
   ],
   "note": "REFUTED: a state of another agent or class can be returned and becomes the current state. Proved: the initial state is declared, the state is declared as long as only own states, names and None are used, and the effect of every returned value."
  },
  {
   "property": "C34",
   "status": "partial",
   "theorems": [
    "C34_two_letter_names_refuted",
    "C34_two_letter_names_fail_refuted",
    "C34_other_names_partial"
   ],
   "note": "REFUTED: a returned name of exactly two letters is unpacked into (state, delay). Proved for all other names."
  },
  {
   "property": "C35",
   "status": "partial",
   "theorems": [
    "C35_base_version_is_run_refuted",
    "C35_last_base_wins_refuted",
    "C35_table_of_states_partial",
    "C35_single_inheritance_partial",
    "C35_own_default_partial"
   ],
   "note": "REFUTED: a subclass that redefines the default state without marking it starts in the version of the base class; with two bases the version of the second one wins even if the first one overrides it. Proved: the table of states of every class, single inheritance, own default state."
  },
  {
   "property": "C36",
   "status": "partial",
   "theorems": [
    "C36_killed_agent_goes_on_refuted",
    "C36_suspended_state_goes_on_refuted",
    "C36_code_of_the_dead_is_not_run_partial",
    "C36_woken_at_most_once_partial"
   ],
   "note": "REFUTED: agents with a step of their own, and state machines that are suspended inside a state, go on after they are killed. Proved for the state machines that are not suspended: their code is not run again and they are woken at most once."
  },
  {
   "property": "C37",
   "status": "partial",
   "theorems": [
    "C37_some_defaults_are_ignored_refuted",
    "C37_precedence_partial",
    "C37_own_attributes_partial",
    "C37_copies_are_not_shared"
   ],
   "note": "REFUTED: the defaults for the attributes that the constructor sets itself (name, alive, ...) are ignored. Proved for all other attributes, and that the copies are not shared."
  },
  {
   "property": "C38",
   "status": "partial",
   "theorems": [
    "C38_override_is_lost_refuted",
    "C38_last_base_wins_partial",
    "C38_single_inheritance_partial",
    "C38_one_definition_partial"
   ],
   "note": "REFUTED: an override is lost when a later base comes with the inherited value. Proved: last base wins, single inheritance, names that are defined once."
  },
  {
   "property": "C39",
   "status": "partial",
   "theorems": [
    "C39_message_to_itself_refuted",
    "C39_every_message_once_in_order_partial",
    "C39_calm_handlers_do_not_fail"
   ],
   "note": "REFUTED for handlers that make a message reach their own inbox: process_messages raises after the first message (deque mutated during iteration) and the message will be handled again. Proved whenever process_messages does not raise, in particular for all handlers that neither raise nor message themselves."
  },
  {
   "property": "C40",
   "status": "partial",
   "theorems": [
    "C40_handled_twice_refuted",
    "C40_nothing_is_lost_partial"
   ],
   "note": "REFUTED: messages handled before the failure are handled again by the retry. Proved: nothing is lost."
  },
  {
   "property": "C41",
   "status": "partial",
   "theorems": [
    "C41_received_returns_nothing_refuted",
    "C41_unprocessed_partial",
    "C41_without_inbox_partial"
   ],
   "note": "REFUTED for all inboxes: the list returned is the inbox itself, already emptied. Proved: when it waits, when it times out, and that with process=False the messages are left in the inbox that it returns."
  },
  {
   "property": "C42",
   "status": "partial",
   "theorems": [
    "C42_false_answers_are_ignored_refuted",
    "C42_late_resumption_refuted",
    "C42_each_resumption_partial",
    "C42_the_receiver_answers",
    "C42_asks_stay_numbered"
   ],
   "note": "REFUTED: answers that are false in a boolean context are never returned, and an answer given before the deadline is lost if the asker is resumed after it. Proved: the outcome of every resumption in every execution, and that the receiver answers."
  },
  {
   "property": "C43",
   "status": "proved",
   "theorems": [
    "C43_broadcast",
    "C43_time_to_live"
   ],
   "note": ""
  },
  {
   "property": "C44",
   "status": "partial",
   "theorems": [
    "C44_first_attribute_ignored_refuted",
    "C44_empty_list_of_ids_refuted",
    "C44_exactly_the_matching_agents_partial",
    "C44_criteria_as_understood",
    "C44_the_selection_is_unique"
   ],
   "note": "REFUTED: only the last of the attribute criteria counts, and an empty list of ids selects everybody. Proved: exactly the matching agents for criteria with at most one attribute and non-empty lists, and what the criteria mean in the other cases."
  },
  {
   "property": "C45",
   "status": "partial",
   "theorems": [
    "C45_everybody_refuted",
    "C45_ids_never_matter_refuted",
    "C45_other_agents_partial"
   ],
   "note": "REFUTED: the ids given to a network agent's get_agents are dropped, so that everybody is returned. Proved for the other criteria."
  },
  {
   "property": "C46",
   "status": "partial",
   "theorems": [
    "C46_shared_node_refuted",
    "C46_shared_id_refuted",
    "C46_agents_of_adjacent_nodes_partial",
    "C46_agents_the_adjacent_nodes_have_partial"
   ],
   "note": "REFUTED when agents share a node or an id. Proved for all histories that put agents on free nodes and leave the ids to the environment, and for all environments in terms of the agents that the nodes have."
  },
  {
   "property": "C47",
   "status": "partial",
   "theorems": [
    "C47_one_agent_on_every_free_node_partial",
    "C47_populate_succeeds",
    "C47_failed_call_refuted"
   ],
   "note": "REFUTED after a call that raised: the nodes that it reserved stay without agent. Proved for all graphs, occupancies and classes when the constructors do not raise (the node_id of classes that do not take one is not set)."
  },
  {
   "property": "C48",
   "status": "partial",
   "theorems": [
    "C48_free_node_missed_refuted",
    "C48_agent_evicted_refuted",
    "C48_node_of_its_own_partial"
   ],
   "note": "REFUTED: the search draws with replacement and can miss a free node, and the name of the new node can be that of a node whose agent is then evicted. Proved: exactly which node is used for all draws, and that all others are left alone."
  },
  {
   "property": "C49",
   "status": "partial",
   "theorems": [
    "C49_add_node_partial",
    "C49_reserved_node_refuted"
   ],
   "note": "REFUTED for nodes reserved by a failed populate_network. Proved for all graphs, shuffles and classes with respect to the nodes that have no entry for an agent."
  },
  {
   "property": "C50",
   "status": "partial",
   "theorems": [
    "C50_node_and_edges_go_partial",
    "C50_node_already_gone_refuted"
   ],
   "note": "REFUTED for agents whose node is gone: die raises and the agent stays alive. Proved for all others."
  },
  {
   "property": "C51",
   "status": "proved",
   "theorems": [
    "C51_chosen_ids_are_different",
    "C51_ids_never_change"
   ],
   "note": ""
  },
  {
   "property": "C52",
   "status": "partial",
   "theorems": [
    "C52_restricted_reporter_loops_refuted",
    "C52_other_classes_partial",
    "C52_without_class_partial"
   ],
   "note": "REFUTED for all reporters, classes and agents: the lambda refers to itself, so an agent of the class ends in RecursionError and nothing is recorded. Proved: None for other classes, and everything without a class."
  },
  {
   "property": "C53",
   "status": "partial",
   "theorems": [
    "C53_roundtrip_partial",
    "C53_all_others_refuted",
    "C53_unflatten_then_flatten_partial",
    "C53_other_keys_partial"
   ],
   "note": "REFUTED for all dictionaries with a key that contains a dot or is not a string, with an empty inner dictionary or a dictionary under the empty key. Proved for exactly the others, and the reverse direction for flat dictionaries without conflicting keys."
  },
  {
   "property": "C54",
   "status": "partial",
   "theorems": [
    "C54_registry_is_restored_partial",
    "C54_imported_modules_partial",
    "C54_same_file_refuted",
    "C54_name_taken_refuted"
   ],
   "note": "REFUTED when a file is used again inside its own block, or when the name of its module is taken. Proved for all other programs."
  },
  {
   "property": "C55",
   "status": "partial",
   "theorems": [
    "C55_exact_partition_partial",
    "C55_every_draw_has_one_type_partial",
    "C55_ids_refuted",
    "C55_floating_point_refuted",
    "C55_class_only_partial"
   ],
   "note": "REFUTED in double precision (ten equal weights end before 1) and with entries that have ids (always). Proved in exact arithmetic for all positive weights, with the consequence that each draw belongs to exactly one type."
  },
  {
   "property": "C56",
   "status": "partial",
   "theorems": [
    "C56_numbers_partial",
    "C56_whole_multiples_partial",
    "C56_fractions_refuted",
    "C56_no_weights_refuted",
    "C56_zero_weight_refuted"
   ],
   "note": "REFUTED without weights (TypeError) and for weights that are not multiples of the smallest. Proved in exact arithmetic for all positive weights: exactly n agents, and shares rounded down; the stated shares for whole multiples."
  },
  {
   "property": "C57",
   "status": "partial",
   "theorems": [
    "C57_product_partial",
    "C57_every_place_partial",
    "C57_no_combination_refuted",
    "C57_refused_partial",
    "C57_why_refused_partial",
    "C57_without_template_partial",
    "C57_name_used_twice_refuted"
   ],
   "note": "REFUTED in the corner cases: with an empty list or no sample there is no combination and params_for_template raises IndexError (C57_no_combination_refuted); a name used both for a list and for a bound loses the values of the list and repeats configurations (C57_name_used_twice_refuted). In all other cases the full statement is proved: the number of configurations, the place of each combination and each sample, and that there is nothing else. The sampler, jinja and YAML are parameters."
  },
  {
   "property": "C58",
   "status": "proved",
   "theorems": [
    "C58_disk_left_alone"
   ],
   "note": ""
  },
  {
   "property": "C59",
   "status": "partial",
   "theorems": [
    "C59_nothing_is_lost_partial",
    "C59_same_second_refuted"
   ],
   "note": "REFUTED: the name of the backup has the time in seconds, so that of three versions, two of which were written in the same second, the first is lost (C59_same_second_refuted). Proved for all sequences of writes with different stamps for each file, with stamps of equal length."
  },
  {
   "property": "C60",
   "status": "partial",
   "theorems": [
    "C60_exceptions_partial",
    "C60_exceptions_refuted"
   ],
   "note": "REFUTED: open_or_reuse yields again in the handler of AttributeError and TypeError, and contextlib raises RuntimeError instead (C60_exceptions_refuted). Proved for all other exceptions and when nothing is dumped."
  },
  {
   "property": "C61",
   "status": "proved",
   "theorems": [
    "C61_prob_is_false_for_nonpositive",
    "C61_prob_is_true_from_one_on",
    "C61_prob_is_monotone"
   ],
   "note": ""
  },
  {
   "property": "C62",
   "status": "partial",
   "theorems": [
    "C62_content_never_becomes_discontent_refuted"
   ],
   "note": "REFUTED for all agents, draws and rates: line 109 is an expression statement, so a content agent stays content or becomes neutral."
  },
  {
   "property": "C63",
   "status": "partial",
   "theorems": [
    "C63_fibonacci_exact_partial",
    "C63_odds_exact_partial",
    "C63_fibonacci_floats_partial",
    "C63_odds_floats_partial",
    "C63_for_ever_refuted"
   ],
   "note": "REFUTED for Python floats: the 79th activation of a Fibonacci agent is at 14472334024676220, which is no number of Fibonacci (C63_for_ever_refuted). Proved with exact numbers, for all runs, any number of agents and any order (C63_fibonacci_exact_partial, C63_odds_exact_partial), and with floats up to instant 2^53 (C63_*_floats_partial; there without the claim that every number of activations is reached)."
  },
  {
   "property": "C64",
   "status": "proved",
   "theorems": [
    "C64_never_over_capacity"
   ],
   "note": "For all sequences of calls of enter and exit."
  },
  {
   "property": "C65",
   "status": "proved",
   "theorems": [
    "C65_money_is_conserved"
   ],
   "note": "For all grids, networks, draws and activations."
  },
  {
   "property": "C66",
   "status": "partial",
   "theorems": [
    "C66_discontent_neighbours_do_not_infect_refuted",
    "C66_neutral_agents_partial"
   ],
   "note": "REFUTED for all agents and draws: the count compares names with a State object, so it is always zero."
  },
  {
   "property": "C67",
   "status": "partial",
   "theorems": [
    "C67_sender_of_an_ask_refuted"
   ],
   "note": "REFUTED for all executions: the sender of an ask is the agent that was asked."
  },
  {
   "property": "C68",
   "status": "partial",
   "theorems": [
    "C68_lookup_by_id_refuted"
   ],
   "note": "REFUTED for all populations and ids: the lookup tests whether the id is among the agent objects, so no id is ever found."
  },
  {
   "property": "C69",
   "status": "partial",
   "theorems": [
    "C69_argument_changed_refuted",
    "C69_argument_kept_partial"
   ],
   "note": "REFUTED: the keyword arguments are added to the dictionary of the caller. Proved when there are no keyword arguments."
  },
  {
   "property": "C70",
   "status": "partial",
   "theorems": [
    "C70_id_in_use_refuted",
    "C70_all_ids_are_different_partial"
   ],
   "note": "REFUTED: the counter is not aware of explicit ids. Proved when all ids are chosen automatically."
  },
  {
   "property": "C71",
   "status": "partial",
   "theorems": [
    "C71_fixed_partial",
    "C71_distribution_partial",
    "C71_distribution_refuted"
   ],
   "note": "REFUTED for distributions: the default always wins. Proved for fixed agents, and for the names that only one of both has."
  },
  {
   "property": "C72",
   "status": "partial",
   "theorems": [
    "C72_fixed_partial",
    "C72_distribution_partial",
    "C72_order_refuted"
   ],
   "note": "REFUTED for distributions when only some entries decide: the flag leaks to later agents. Proved for fixed agents, and for distributions if all entries decide, or none, or the default is to be part of the network."
  },
  {
   "property": "C73",
   "status": "partial",
   "theorems": [
    "C73_numbers_of_types_refuted"
   ],
   "note": "REFUTED: it always raises TypeError (any is called with two arguments)."
  },
  {
   "property": "C74",
   "status": "proved",
   "theorems": [
    "C74_fixed_agents"
   ],
   "note": ""
  },
  {
   "property": "C75",
   "status": "partial",
   "theorems": [
    "C75_configuration_unchanged_partial",
    "C75_method_is_lost_refuted"
   ],
   "note": "REFUTED: params_for_template removes the method of the sampler from the configuration, so that a second expansion uses the default method (C75_method_is_lost_refuted, example C75_second_expansion). Proved for configurations without a method."
  },
  {
   "property": "C76",
   "status": "partial",
   "theorems": [
    "C76_csv_partial",
    "C76_gexf_refuted"
   ],
   "note": "REFUTED for gexf: the name of the file only has the number of the iteration, the graph for the next parameters replaces it (C76_gexf_refuted). Proved for csv, which appends."
  },
  {
   "property": "C77",
   "status": "partial",
   "theorems": [
    "C77_on_its_own_partial",
    "C77_sqlite_refuted",
    "C77_data_that_raises_partial"
   ],
   "note": "REFUTED for SQLite: nothing creates the output directory and sqlite cannot open the file (C77_sqlite_refuted). Proved for csv, gexf, dummy, YAML, summary and default (without other exporters); graphdrawing see C80."
  },
  {
   "property": "C78",
   "status": "partial",
   "theorems": [
    "C78_other_calls_partial",
    "C78_iteration_start_refuted"
   ],
   "note": "REFUTED: iteration_start is never called (C78_iteration_start_refuted). The calls of sim_start, iteration_end and sim_end and their order are proved for all simulations that are not dry runs."
  },
  {
   "property": "C79",
   "status": "partial",
   "theorems": [
    "C79_sqlite_partial",
    "C79_csv_refuted"
   ],
   "note": "REFUTED for csv: the files are always opened for appending and the old data stay (C79_csv_refuted). Proved for SQLite: after sim_start the database only has the configuration of the new simulation."
  },
  {
   "property": "C80",
   "status": "partial",
   "theorems": [
    "C80_drawing_refuted"
   ],
   "note": "REFUTED: the file is opened for reading, the exporter raises for every environment and disk and the disk is unchanged (C80_drawing_refuted)."
  },
  {
   "property": "C81",
   "status": "partial",
   "theorems": [
    "C81_nobody_leaves_refuted",
    "C81_with_get_agent_partial"
   ],
   "note": "REFUTED: exit calls self.get_agent, which CityPubs does not have, so it raises AttributeError for every agent and nobody leaves. C81_with_get_agent_partial proves the property for a method that finds the agents."
  },
  {
   "property": "C82",
   "status": "partial",
   "theorems": [
    "C82_counter_partial",
    "C82_counted_twice_refuted"
   ],
   "note": "REFUTED: an agent that enters twice (as a friend of two others) is counted twice. C82_counter_partial gives what the counter is."
  },
  {
   "property": "C83",
   "status": "proved",
   "theorems": [
    "C83_drinkers_are_inside",
    "C83_others_found_no_room"
   ],
   "note": "For all cities and patrons."
  },
  {
   "property": "C84",
   "status": "proved",
   "theorems": [
    "C84_one_unit_to_a_cellmate"
   ],
   "note": "The one that gets the unit may be the agent itself, which is also in the cell."
  },
  {
   "property": "C85",
   "status": "proved",
   "theorems": [
    "C85_gini_in_range",
    "C85_gini_of_equals",
    "C85_gini_in_any_order",
    "C85_gini_without_money"
   ],
   "note": "With fractions rather than floats."
  },
  {
   "property": "C86",
   "status": "partial",
   "theorems": [
    "C86_methods_refuted",
    "C86_properties_partial",
    "C86_only_the_marked_partial",
    "C86_others_are_kept_partial"
   ],
   "note": "REFUTED for all methods: the bound method is recorded instead of its value. Proved for all properties, also inherited and overridden ones."
  },
  {
   "property": "C87",
   "status": "partial",
   "theorems": [
    "C87_keyword_arguments_raise_refuted",
    "C87_missing_space_refuted",
    "C87_message_partial"
   ],
   "note": "REFUTED for all keyword arguments (ValueError or KeyError), and the environment does not separate the message from its arguments. Proved for the messages of agents without keyword arguments."
  },
  {
   "property": "C88",
   "status": "partial",
   "theorems": [
    "C88_level_is_not_used_refuted",
    "C88_property_partial"
   ],
   "note": "REFUTED for all classes: the metaclass takes the attribute out of the class before the constructor looks for it. Proved for properties."
  },
  {
   "property": "C89",
   "status": "partial",
   "theorems": [
    "C89_extra_arguments_refuted",
    "C89_arguments_partial"
   ],
   "note": "REFUTED for all dictionaries with other keys: NameError (agent_class is not defined), unless warn_extra is False. Proved in the other cases."
  },
  {
   "property": "C90",
   "status": "partial",
   "theorems": [
    "C90_static_methods_refuted",
    "C90_other_entries_partial"
   ],
   "note": "REFUTED for static methods with a public name: the class statement raises TypeError. Proved for all other entries."
  },
  {
   "property": "C91",
   "status": "proved",
   "theorems": [
    "C91_empty_name",
    "C91_assignment",
    "C91_listing"
   ],
   "note": "For all objects whose own names are not empty (with the empty name, keys raises IndexError: C91_empty_name)."
  },
  {
   "property": "C92",
   "status": "partial",
   "theorems": [
    "C92_iteration_refuted"
   ],
   "note": "REFUTED for all agents with a public attribute: a loop gives pairs, and values, popitem, clear and update with another agent raise TypeError."
  },
  {
   "property": "C93",
   "status": "proved",
   "theorems": [
    "C93_get"
   ],
   "note": ""
  },
  {
   "property": "C94",
   "status": "partial",
   "theorems": [
    "C94_deletion_refuted",
    "C94_reading_partial"
   ],
   "note": "REFUTED: deletion raises AttributeError for all absent names, and pop does so for names of the class even with a default. Proved for reading and membership."
  },
  {
   "property": "C95",
   "status": "partial",
   "theorems": [
    "C95_skip_is_ignored_refuted",
    "C95_keys_partial"
   ],
   "note": "REFUTED for all agents: skip is ignored. Proved without names to be skipped."
  },
  {
   "property": "C96",
   "status": "proved",
   "theorems": [
    "C96_environment"
   ],
   "note": ""
  },
  {
   "property": "C97",
   "status": "partial",
   "theorems": [
    "C97_membership_refuted",
    "C97_length_refuted"
   ],
   "note": "REFUTED for all environments with agents: the question raises TypeError, and the length counts attributes."
  },
  {
   "property": "C98",
   "status": "proved",
   "theorems": [
    "C98_same_attributes",
    "C98_ids"
   ],
   "note": ""
  },
  {
   "property": "C99",
   "status": "proved",
   "theorems": [
    "C99_other_methods"
   ],
   "note": ""
  },
  {
   "property": "C100",
   "status": "proved",
   "theorems": [
    "C100_qualified_names"
   ],
   "note": ""
  },
  {
   "property": "C101",
   "status": "proved",
   "theorems": [
    "C101_short_names",
    "C101_names_last"
   ],
   "note": ""
  },
  {
   "property": "C102",
   "status": "partial",
   "theorems": [
    "C102_builtins_refuted",
    "C102_same_name_refuted",
    "C102_missing_module_refuted",
    "C102_name_partial"
   ],
   "note": "REFUTED for classes with the name of a builtin or of an object of a registered module: something else is found. Proved for all other classes."
  },
  {
   "property": "C103",
   "status": "partial",
   "theorems": [
    "C103_same_name_refuted",
    "C103_source_partial"
   ],
   "note": "REFUTED for names that soil or another registered module has: that one is found. Proved for all other names."
  },
  {
   "property": "C104",
   "status": "partial",
   "theorems": [
    "C104_lists_refuted",
    "C104_argument_partial"
   ],
   "note": "REFUTED for all dictionaries with a list that has a number (or a class, list, tuple or empty text): its elements are replaced in place. C104_argument_partial says exactly when the argument is left alone."
  },
  {
   "property": "C105",
   "status": "partial",
   "theorems": [
    "C105_numbers_refuted",
    "C105_kept_partial",
    "C105_classes_partial"
   ],
   "note": "REFUTED for all lists: numbers become texts, empty texts and lists become dictionaries. C105_kept_partial says exactly when nothing is changed, C105_classes_partial what classes become."
  },
  {
   "property": "C106",
   "status": "proved",
   "theorems": [
    "C106_registered_agents",
    "C106_pqueue_registered_agents"
   ],
   "note": ""
  },
  {
   "property": "C107",
   "status": "partial",
   "theorems": [
    "C107_removed_agents_act_refuted",
    "C107_removals_are_ignored_partial"
   ],
   "note": "REFUTED: remove only takes the agent out of the registry; the queue keeps it and it acts at its time (C107_removed_agents_act_refuted, for both schedulers). Proved instead: for agents that do not look at the registry, a removal changes nothing about who acts when (C107_removals_are_ignored_partial)."
  },
  {
   "property": "C108",
   "status": "partial",
   "theorems": [
    "C108_default_interval_refuted",
    "C108_interval_partial"
   ],
   "note": "REFUTED: a class with default_interval but without interval cannot be created, and a parameter default_interval is set as an attribute after the scheduler got its interval (C108_default_interval_refuted). Proved instead: which interval the scheduler gets (C108_interval_partial)."
  },
  {
   "property": "C109",
   "status": "proved",
   "theorems": [
    "C109_exceptions_reach_the_caller",
    "C109_pqueue_exceptions_reach_the_caller"
   ],
   "note": ""
  },
  {
   "property": "C110",
   "status": "proved",
   "theorems": [
    "C110_nothing_happens_after_a_failed_export",
    "C110_failed_start"
   ],
   "note": ""
  },
  {
   "property": "C111",
   "status": "partial",
   "theorems": [
    "C111_names_of_parameters_refuted",
    "C111_parameters_reach_the_model_partial"
   ],
   "note": "REFUTED: parameters with the names of arguments of _run_model, of the environment or of the function that calls it make the run fail (C111_names_of_parameters_refuted). Proved instead: when the run returns, all parameters but three reserved ones reach the model (C111_parameters_reach_the_model_partial)."
  },
  {
   "property": "C112",
   "status": "partial",
   "theorems": [
    "C112_exporters_of_the_file_are_dropped_refuted",
    "C112_exporters_partial"
   ],
   "note": "REFUTED: the exporters of the simulation are replaced, and --csv adds csv again (C112_exporters_of_the_file_are_dropped_refuted). Proved instead: the exact list of exporters (C112_exporters_partial)."
  },
  {
   "property": "C113",
   "status": "partial",
   "theorems": [
    "C113_values_are_texts_refuted",
    "C113_nested_names_refuted",
    "C113_effect_partial",
    "C113_options_in_order_partial"
   ],
   "note": "REFUTED: values are evaluated, not treated as texts (C113_values_are_texts_refuted), and a nested parameter below one that has the name of a method of dictionaries cannot be set (C113_nested_names_refuted). Proved instead: the exact effect of one option on all paths, when it is refused (C113_effect_partial), and of several ones (C113_options_in_order_partial)."
  },
  {
   "property": "C114",
   "status": "proved",
   "theorems": [
    "C114_only_the_output_directory"
   ],
   "note": ""
  },
  {
   "property": "C115",
   "status": "proved",
   "theorems": [
    "C115_given_state",
    "C115_default_state",
    "C115_without_default_state",
    "C115_a_default_state_is_needed",
    "C115_no_state_no_step"
   ],
   "note": ""
  },
  {
   "property": "C116",
   "status": "proved",
   "theorems": [
    "C116_discontent_agents",
    "C116_agents_start_neutral"
   ],
   "note": ""
  },
  {
   "property": "C117",
   "status": "partial",
   "theorems": [
    "C117_content_neutral_is_ignored_refuted",
    "C117_rates_partial",
    "C117_deviations_partial"
   ],
   "note": "REFUTED: content_neutral is drawn around the parameter discontent_neutral, and the parameter content_neutral has no effect (C117_content_neutral_is_ignored_refuted). Proved for the seven other probabilities (C117_rates_partial, C117_deviations_partial)."
  },
  {
   "property": "C118",
   "status": "partial",
   "theorems": [
    "C118_all_agents_alike_refuted",
    "C118_without_seed_partial"
   ],
   "note": "REFUTED: with a seed each agent starts its own generator from the seed of the model, so all agents have the same probabilities (C118_all_agents_alike_refuted). Without a seed they depend on the generator of the agent (C118_without_seed_partial)."
  },
  {
   "property": "C119",
   "status": "proved",
   "theorems": [
    "C119_only_the_agent_moves",
    "C119_money_is_given"
   ],
   "note": ""
  },
  {
   "property": "C120",
   "status": "proved",
   "theorems": [
    "C120_news_follow_the_network",
    "C120_neutral_viewers"
   ],
   "note": ""
  },
  {
   "property": "C121",
   "status": "proved",
   "theorems": [
    "C121_nobody_forgets"
   ],
   "note": ""
  },
  {
   "property": "C122",
   "status": "partial",
   "theorems": [
    "C122_wise_viewers_never_recover_refuted",
    "C122_wise_viewers_partial"
   ],
   "note": "REFUTED (C122_wise_viewers_never_recover_refuted): has_been_cured is not set before somebody cures the viewer, so an infected wise viewer raises AttributeError, and if nobody is cured at the start nobody ever is. C122_wise_viewers_partial is the rule for viewers that have the attribute."
  },
  {
   "property": "C123",
   "status": "partial",
   "theorems": [
    "C123_defaults_are_no_numbers_refuted",
    "C123_television_refuted",
    "C123_given_ratios_partial"
   ],
   "note": "REFUTED (C123_defaults_are_no_numbers_refuted, C123_television_refuted): the defaults end in a comma and are tuples; unless the three ratios are given creation raises TypeError, and the default probabilities raise TypeError when used. C123_given_ratios_partial: with numeric ratios of positive sum the network is populated."
  },
  {
   "property": "C124",
   "status": "proved",
   "theorems": [
    "C124_activations_are_counted",
    "C124_neighbours_are_counted"
   ],
   "note": ""
  },
  {
   "property": "C125",
   "status": "partial",
   "theorems": [
    "C125_bass_agents_raise_refuted"
   ],
   "note": "REFUTED (C125_bass_agents_raise_refuted): step calls self.behaviour, which does not exist, so every activation raises AttributeError and the state functions are never run."
  },
  {
   "property": "C126",
   "status": "partial",
   "theorems": [
    "C126_imitators_stay_refuted",
    "C126_innovation_partial"
   ],
   "note": "REFUTED (C126_imitators_stay_refuted): get_neighbors(state_id=1, ...) matches nobody because the ids of states are texts; agents that imitate stay so for ever. C126_innovation_partial: the rule for agents outside."
  },
  {
   "property": "C127",
   "status": "proved",
   "theorems": [
    "C127_network_of_the_living"
   ],
   "note": ""
  },
  {
   "property": "C128",
   "status": "partial",
   "theorems": [
    "C128_birth_raises_refuted",
    "C128_orphans_partial"
   ],
   "note": "REFUTED when the father lives: C128_birth_raises_refuted shows that the activation raises at the first child (model.agents[self.mate] is no way to get an agent, and only ValueError is caught), with no offspring counted and the mother still pregnant. C128_orphans_partial proves the claim for a father that is dead."
  },
  {
   "property": "C129",
   "status": "proved",
   "theorems": [
    "C129_lives",
    "C129_aging"
   ],
   "note": ""
  },
  {
   "property": "C130",
   "status": "partial",
   "theorems": [
    "C130_no_accidents_refuted",
    "C130_victims_partial"
   ],
   "note": "REFUTED: C130_no_accidents_refuted shows that fewer than ten rabbits have no accidents whatever prob_death is, because it is multiplied by the rounded logarithm of their number. C130_victims_partial proves who dies, with this risk."
  },
  {
   "property": "C131",
   "status": "partial",
   "theorems": [
    "C131_killed_stays_refuted",
    "C131_return_die_partial",
    "C131_for_ever_partial"
   ],
   "note": "REFUTED: an agent that another one kills stays in the state in which it was. Proved: an agent that returns self.die() from a state at a finite instant is in the state dead, out of the schedule and idle, and stays there if nobody sets its state."
  },
  {
   "property": "C132",
   "status": "partial",
   "theorems": [
    "C132_urls_are_files_refuted",
    "C132_one_argument_partial"
   ],
   "note": "REFUTED: whatever text is given, a SQLite file is opened: no absolute path contains '://', so that URLs are never recognised. Proved: which arguments are errors, and that paths mean the right file."
  },
  {
   "property": "C133",
   "status": "partial",
   "theorems": [
    "C133_found_by_name_partial",
    "C133_group_not_found_refuted"
   ],
   "note": "REFUTED: results of simulations in a group are never found by their name. Proved without group, for all names that are not empty and all current directories."
  },
  {
   "property": "C134",
   "status": "partial",
   "theorems": [
    "C134_directory_stays_refuted",
    "C134_failed_module_stays_refuted",
    "C134_module_partial"
   ],
   "note": "REFUTED: the directory of a configuration file, and that of a Python file that fails, stays in sys.path, and the module of the latter in sys.modules. Proved for Python files with simulations that leave the interpreter alone (a module called imported_file is gone afterwards)."
  },
  {
   "property": "C135",
   "status": "proved",
   "theorems": [
    "C135_one_simulation_each",
    "C135_first_error",
    "C135_first_failure",
    "C135_no_mapping",
    "C135_exactly_one",
    "C135_exactly_one_failure",
    "C135_exactly_one_unreadable"
   ],
   "note": ""
  },
  {
   "property": "C136",
   "status": "partial",
   "theorems": [
    "C136_beside_the_file_partial",
    "C136_dictionaries_refuted"
   ],
   "note": "REFUTED: for dictionaries it is the directory above the current one. Proved for files."
  },
  {
   "property": "C137",
   "status": "partial",
   "theorems": [
    "C137_missing_file_refuted",
    "C137_value_error_is_hidden_refuted",
    "C137_other_errors_partial"
   ],
   "note": "REFUTED: configuration files that do not exist give nothing and no error; ValueError of a Python file is replaced by what reading it as YAML gives. Proved: other exceptions of Python files reach the caller."
  },
  {
   "property": "C138",
   "status": "partial",
   "theorems": [
    "C138_nothing_is_run_refuted",
    "C138_no_simulations_partial"
   ],
   "note": "REFUTED: AttributeError (run_simulation does not exist) whenever the files define a simulation."
  },
  {
   "property": "C139",
   "status": "partial",
   "theorems": [
    "C139_table_called_env_refuted",
    "C139_own_names_partial"
   ],
   "note": "REFUTED: a table called env replaces the variables of the model. Proved for tables with names of their own."
  },
  {
   "property": "C140",
   "status": "partial",
   "theorems": [
    "C140_no_agent_reporters_refuted",
    "C140_read_back_partial"
   ],
   "note": "REFUTED: results of runs without reporters of agents cannot be read. Proved for runs with reporters of agents and tables with names of their own; frames are abstract, and appending to a table is taken not to fail."
  },
  {
   "property": "C141",
   "status": "partial",
   "theorems": [
    "C141_name_of_the_model_partial",
    "C141_copy_keeps_the_name_refuted",
    "C141_same_identifier_refuted"
   ],
   "note": "REFUTED: a copy with another model keeps the name of the old one; simulations of the same name that are made at the same instant of the clock have the same identifier. Proved: the name on creation."
  },
  {
   "property": "C142",
   "status": "proved",
   "theorems": [
    "C142_source_file",
    "C142_no_source_file"
   ],
   "note": ""
  },
  {
   "property": "C143",
   "status": "partial",
   "theorems": [
    "C143_more_litters_refuted",
    "C143_only_males_partial"
   ],
   "note": "REFUTED: conception is not cleared by a birth, so that a female that has mated once has a litter every second activation (C143_more_litters_refuted). C143_only_males_partial proves the other half: only activations of fertile males start a pregnancy."
  },
  {
   "property": "C144",
   "status": "partial",
   "theorems": [
    "C144_two_parents_partial",
    "C144_dead_father_refuted"
   ],
   "note": "REFUTED: if the father has died, the birth raises after the first child (C144_dead_father_refuted). Proved with a living father in C144_two_parents_partial."
  },
  {
   "property": "C145",
   "status": "proved",
   "theorems": [
    "C145_first_day",
    "C145_grown_up",
    "C145_in_time"
   ],
   "note": ""
  },
  {
   "property": "C146",
   "status": "proved",
   "theorems": [
    "C146_mating",
    "C146_mating_basic",
    "C146_first"
   ],
   "note": ""
  },
  {
   "property": "C147",
   "status": "partial",
   "theorems": [
    "C147_basic_partial",
    "C147_always_zero_refuted"
   ],
   "note": "REFUTED for rabbit_improved_sim, whose environment inherits reports that count the classes of the basic example: always zero (C147_always_zero_refuted). Proved for the basic example in C147_basic_partial."
  },
  {
   "property": "C148",
   "status": "partial",
   "theorems": [
    "C148_no_links_refuted"
   ],
   "note": "REFUTED: befriend passes the two agents to add_edge(self, other) of network agents in the wrong places, so that each patron gets a loop: no edge between two different patrons appears in any history."
  },
  {
   "property": "C149",
   "status": "partial",
   "theorems": [
    "C149_counted_twice_refuted"
   ],
   "note": "REFUTED: the loop makes a patron its own neighbour, and enter counts it as self and as group: in all runs that start without edges the occupancy is exactly twice the number of patrons inside."
  },
  {
   "property": "C150",
   "status": "proved",
   "theorems": [
    "C150_evening",
    "C150_order"
   ],
   "note": ""
  },
  {
   "property": "C151",
   "status": "partial",
   "theorems": [
    "C151_alone_refuted"
   ],
   "note": "REFUTED: the agents that are looking for friends include the patron itself, so that the list is never empty: a patron that is alone looks for friends in all reachable worlds."
  },
  {
   "property": "C152",
   "status": "partial",
   "theorems": [
    "C152_still_inside_refuted",
    "C152_few_places_refuted"
   ],
   "note": "REFUTED: nobody calls exit: patrons at home are still inside in all reachable worlds, and at most half of the places (rounded down for each pub) are ever used."
  },
  {
   "property": "C153",
   "status": "proved",
   "theorems": [
    "C153_patrol"
   ],
   "note": ""
  },
  {
   "property": "C154",
   "status": "proved",
   "theorems": [
    "C154_init_once",
    "C154_exceptions_of_init"
   ],
   "note": ""
  },
  {
   "property": "C155",
   "status": "partial",
   "theorems": [
    "C155_state_and_node_partial",
    "C155_inbox_partial",
    "C155_no_inbox_refuted",
    "C155_afterwards_partial"
   ],
   "note": "REFUTED for the inbox: a class in which EventedAgent comes before NetworkAgent and FSM has no inbox when init is called (C155_no_inbox_refuted). Proved: the rest for all orders, the inbox if a network agent or a state machine comes first, and everything after the constructor."
  },
  {
   "property": "C156",
   "status": "partial",
   "theorems": [
    "C156_dead_and_scheduled_refuted",
    "C156_key_error_refuted",
    "C156_after_init_partial"
   ],
   "note": "REFUTED: an agent that dies in its init is scheduled, and with a node given add_agent raises KeyError after having scheduled it (C156_key_error_refuted). An agent that dies after its init leaves the schedule, and nobody else does (C156_after_init_partial)."
  },
  {
   "property": "C157",
   "status": "partial",
   "theorems": [
    "C157_nearby_partial",
    "C157_no_position_refuted"
   ],
   "note": "REFUTED for agents whose own node has no position: KeyError (C157_no_position_refuted). Proved if it has one and all agents asked for are of the network."
  },
  {
   "property": "C158",
   "status": "partial",
   "theorems": [
    "C158_subgraph_partial",
    "C158_other_agents_refuted"
   ],
   "note": "REFUTED if one of the agents asked for is not of the network: AttributeError (C158_other_agents_refuted); proved otherwise."
  },
  {
   "property": "C159",
   "status": "partial",
   "theorems": [
    "C159_positions_are_lost_refuted",
    "C159_rest_partial"
   ],
   "note": "REFUTED: dump_gexf takes the positions away from the nodes, so that geo_search finds nothing afterwards (C159_positions_are_lost_refuted); the rest of the network stays."
  },
  {
   "property": "C160",
   "status": "proved",
   "theorems": [
    "C160_one_driver",
    "C160_named"
   ],
   "note": ""
  },
  {
   "property": "C161",
   "status": "proved",
   "theorems": [
    "C161_earnings"
   ],
   "note": ""
  },
  {
   "property": "C162",
   "status": "proved",
   "theorems": [
    "C162_gone_home"
   ],
   "note": ""
  },
  {
   "property": "C163",
   "status": "partial",
   "theorems": [
    "C163_outside_refuted",
    "C163_destinations_partial",
    "C163_swapped",
    "C163_in_the_city"
   ],
   "note": "REFUTED: the coordinates of a destination are drawn with height and width exchanged, so in a city that is not square it may be outside, and then its driver raises an exception on the way. Proved: destinations are in the city if it is square, and nobody ever leaves the city."
  },
  {
   "property": "C164",
   "status": "proved",
   "theorems": [
    "C164_nearer",
    "C164_shortest"
   ],
   "note": ""
  },
  {
   "property": "C165",
   "status": "proved",
   "theorems": [
    "C165_drivers_stay"
   ],
   "note": ""
  },
  {
   "property": "C166",
   "status": "partial",
   "theorems": [
    "C166_lingers_refuted",
    "C166_leaves_partial",
    "C166_sixty_seconds_partial"
   ],
   "note": "REFUTED: driving_home looks at the position only when received() returns, and it returns only after a message or 60 seconds; the theorem has a run in which the passenger stays 51 seconds after it has arrived and its driver has the tip. What holds: a passenger at its destination leaves at an activation at which it starts to ride or its wait is over (C166_leaves_partial), and each wait ends at most 60 seconds after the activation that began it (C166_sixty_seconds_partial)."
  },
  {
   "property": "C167",
   "status": "partial",
   "theorems": [
    "C167_first_step_refuted",
    "C167_each_activation_refuted",
    "C167_no_network_partial"
   ],
   "note": "REFUTED. The states terrorist and leader of TerroristNetworkModel call super().terrorist() and super().leader(), which are state objects without arguments bound: a TypeError. C167_first_step_refuted: whenever an agent of that class starts as leader, as in the example, the first step raises; C167_each_activation_refuted: so does each of its activations. C167_no_network_partial: without that class nothing is ever raised."
  },
  {
   "property": "C168",
   "status": "proved",
   "theorems": [
    "C168_shares",
    "C168_own_belief"
   ],
   "note": "C168_shares and C168_own_belief, for all reached worlds."
  },
  {
   "property": "C169",
   "status": "partial",
   "theorems": [
    "C169_meets_partial",
    "C169_by_links_partial",
    "C169_nobody_refuted"
   ],
   "note": "REFUTED for a civilian that has neighbours and meets none of them: its belief shrinks as if it had met somebody of belief 0 (C169_nobody_refuted). Otherwise the formula holds with some non-negative weights, and the belief stays between its own and those met (C169_meets_partial); the weights are the numbers of links in all societies without TerroristNetworkModel (C169_by_links_partial)."
  },
  {
   "property": "C170",
   "status": "partial",
   "theorems": [
    "C170_own_belief_refuted"
   ],
   "note": "REFUTED. The mean of the beliefs is computed and not used: the new belief is a power of its own belief if there is any radical near, and its own otherwise (C170_own_belief_refuted), whatever the others believe."
  },
  {
   "property": "C171",
   "status": "proved",
   "theorems": [
    "C171_radical",
    "C171_never_back",
    "C171_states"
   ],
   "note": "C171_radical, C171_never_back and C171_states."
  },
  {
   "property": "C172",
   "status": "partial",
   "theorems": [
    "C172_stale_refuted",
    "C172_present_partial",
    "C172_no_network_partial"
   ],
   "note": "REFUTED. The two caches share the attribute _last_step: once betweenness has been computed in a step, degree returns the value of the old network (C172_stale_refuted). It holds if neither was computed before in this step, or with force (C172_present_partial), and in all runs without TerroristNetworkModel (C172_no_network_partial)."
  },
  {
   "property": "C173",
   "status": "proved",
   "theorems": [
    "C173_training",
    "C173_haven",
    "C173_haven_stays"
   ],
   "note": "C173_training, C173_haven and C173_haven_stays."
  },
  {
   "property": "C174",
   "status": "partial",
   "theorems": [
    "C174_all_agents_refuted",
    "C174_itself_refuted"
   ],
   "note": "REFUTED. get_agents(search) takes the selection as something else than ids and returns all agents: the result is the same for all results of the searches (C174_all_agents_refuted); and unless it links to a civilian before it comes to itself, it divides by its distance 0 to itself (C174_itself_refuted)."
  },
  {
   "property": "C175",
   "status": "partial",
   "theorems": [
    "C175_hidden_refuted",
    "C175_others_partial"
   ],
   "note": "REFUTED. The attributes of the class TerroristSpreadModel hide the parameters of the model of the same names (C175_hidden_refuted); only attributes that the class lacks are looked up in the model (C175_others_partial)."
  },
  {
   "property": "C176",
   "status": "partial",
   "theorems": [
    "C176_bounds_partial",
    "C176_above_maximum_refuted",
    "C176_no_recovery_refuted"
   ],
   "note": "REFUTED. The maximum is compared with the old value only: the new one may be above it (C176_above_maximum_refuted); and the state terrorist of a haven always returns itself (C176_no_recovery_refuted). What holds: no vulnerability goes above the larger of its old value and the power of the maximum; a haven that is a refuge raises none; one that is not lowers none, and changes none at its maximum or above (C176_bounds_partial)."
  },
  {
   "property": "C177",
   "status": "partial",
   "theorems": [
    "C177_for_a_place_refuted",
    "C177_leader_partial",
    "C177_terrorist_partial"
   ],
   "note": "REFUTED. get_neighbors in leader has no agent_class: a training area (whose only state has the id terrorist) or a haven left by civilians that is linked to it and more central makes a leader step down (C177_for_a_place_refuted). C177_leader_partial counts these places among the rivals; C177_terrorist_partial is the second half; both for societies without TerroristNetworkModel, whose activations raise (C167)."
  },
  {
   "property": "C178",
   "status": "proved",
   "theorems": [
    "C178_each_at_one_place"
   ],
   "note": ""
  },
  {
   "property": "C179",
   "status": "partial",
   "theorems": [
    "C179_occupation_counts_travellers",
    "C179_report_without_parallels_partial",
    "C179_report_refuted"
   ],
   "note": "REFUTED for the report: of parallel streets edge_occupation shows the last one, while only the one of key 0 is ever occupied (C179_report_refuted). Proved for the attribute itself, and for the report where all streets between the two nodes have the key 0."
  },
  {
   "property": "C180",
   "status": "proved",
   "theorems": [
    "C180_trips_take_their_time",
    "C180_jumps_take_no_time"
   ],
   "note": ""
  },
  {
   "property": "C181",
   "status": "partial",
   "theorems": [
    "C181_sets_out_at_once_refuted"
   ],
   "note": "REFUTED: the scheduler reads a delay of 0 as none (`or self.default_interval`), so each agent pauses for a default interval after every arrival (C181_sets_out_at_once_refuted, for all runs)."
  },
  {
   "property": "C182",
   "status": "proved",
   "theorems": [
    "C182_nobody_fails",
    "C182_dead_ends_fail",
    "C182_free_streets_fail",
    "C182_other_keys_fail"
   ],
   "note": ""
  },
  {
   "property": "C183",
   "status": "partial",
   "theorems": [
    "C183_move_to_a_target_refuted",
    "C183_move_to_a_target_partial"
   ],
   "note": "REFUTED: with gradual_move the local variable delay has no value if a target is given, so UnboundLocalError is raised after the occupation was increased. Without gradual_move it holds (partial)."
  },
  {
   "property": "C184",
   "status": "partial",
   "theorems": [
    "C184_square_cities_refuted",
    "C184_with_a_weight_partial",
    "C184_streets_partial"
   ],
   "note": "REFUTED: the constructor reads self.max_weight before anything sets it: AttributeError for all sides of two or more. C184_with_a_weight_partial is about an object that had the attribute; C184_streets_partial says which streets there are, and that they are 2 * side * (side - 1)."
  },
  {
   "property": "C185",
   "status": "proved",
   "theorems": [
    "C185_gini_reports_in_range"
   ],
   "note": ""
  },
  {
   "property": "C186",
   "status": "proved",
   "theorems": [
    "C186_everyone_is_called_in_each_step",
    "C186_everyone_is_called_in_each_step_of_a_queue",
    "C186_delays"
   ],
   "note": ""
  },
  {
   "property": "C187",
   "status": "proved",
   "theorems": [
    "C187_outbreak",
    "C187_outbreak_step"
   ],
   "note": ""
  },
  {
   "property": "C188",
   "status": "proved",
   "theorems": [
    "C188_numbers_add_up",
    "C188_numbers_add_up_step",
    "C188_just_been_infected"
   ],
   "note": ""
  },
  {
   "property": "C189",
   "status": "proved",
   "theorems": [
    "C189_resistance_lasts",
    "C189_resistance_lasts_step",
    "C189_who_acts_first",
    "C189_who_acts",
    "C189_who_acts_step"
   ],
   "note": ""
  },
  {
   "property": "C190",
   "status": "partial",
   "theorems": [
    "C190_one_edge_per_step",
    "C190_along_edges_step_partial",
    "C190_one_edge_per_step_refuted"
   ],
   "note": "REFUTED for soil_step.py (C190_one_edge_per_step_refuted: six edges in one step, as agents are infected at once and infect others in the same step); there agents are infected only where a path leads (C190_along_edges_step_partial). Proved for soil_states.py (C190_one_edge_per_step)."
  },
  {
   "property": "C191",
   "status": "proved",
   "theorems": [
    "C191_epidemic",
    "C191_epidemic_step",
    "C191_no_recovery",
    "C191_no_recovery_step"
   ],
   "note": ""
  },
  {
   "property": "C192",
   "status": "proved",
   "theorems": [
    "C192_extinction",
    "C192_extinction_step"
   ],
   "note": ""
  },
  {
   "property": "C193",
   "status": "partial",
   "theorems": [
    "C193_counts_steps_partial",
    "C193_counts_steps_step_partial",
    "C193_counts_steps_refuted",
    "C193_counts_steps_step_refuted"
   ],
   "note": "REFUTED: when all agents are resistant the queue is empty and schedule.steps stays as it is (C193_counts_steps_refuted, C193_counts_steps_step_refuted; by C18 such a run would not end either). Proved as long as some agent is not resistant (C193_counts_steps_partial, C193_counts_steps_step_partial)."
  },
  {
   "property": "C194",
   "status": "proved",
   "theorems": [
    "C194_ping_and_pongs",
    "C194_infinity",
    "C194_exact_instants"
   ],
   "note": ""
  },
  {
   "property": "C195",
   "status": "proved",
   "theorems": [
    "C195_times_run",
    "C195_times_run_exactly"
   ],
   "note": ""
  },
  {
   "property": "C196",
   "status": "proved",
   "theorems": [
    "C196_generator",
    "C196_generator_fails",
    "C196_edges"
   ],
   "note": ""
  },
  {
   "property": "C197",
   "status": "partial",
   "theorems": [
    "C197_n_edges_refuted",
    "C197_too_many_edges",
    "C197_n_edges_partial"
   ],
   "note": "REFUTED (C197_n_edges_refuted): a pair drawn twice counts once; C197_too_many_edges: with more than n(n-1)/2 edges all draws miss it; C197_n_edges_partial: the number is n_edges if and only if no pair is drawn twice."
  },
  {
   "property": "C198",
   "status": "proved",
   "theorems": [
    "C198_skills",
    "C198_fails"
   ],
   "note": ""
  },
  {
   "property": "C199",
   "status": "partial",
   "theorems": [
    "C199_current_model_refuted",
    "C199_current_model_partial"
   ],
   "note": "REFUTED: break_step in the code of an agent leaves that agent behind in the globals of the module, and its model wins over that of a later frame with only a variable model (C199_current_model_refuted); it holds in the code of models and agents, and in any frame if break_step was not used (C199_current_model_partial)."
  },
  {
   "property": "C200",
   "status": "partial",
   "theorems": [
    "C200_current_agent",
    "C200_no_agent_refuted",
    "C200_never_says",
    "C200_name_error"
   ],
   "note": "REFUTED: without agent the command raises NameError (or shows the agent of an earlier frame) and never says 'No agent available' (C200_no_agent_refuted, C200_never_says, C200_name_error); in a frame of an agent it shows it (C200_current_agent)."
  },
  {
   "property": "C201",
   "status": "partial",
   "theorems": [
    "C201_break_state_refuted",
    "C201_no_state",
    "C201_no_state_self",
    "C201_break_state_partial",
    "C201_self_partial"
   ],
   "note": "REFUTED: states have neither __code__ nor __func__, so no breakpoint is ever set on one (C201_break_state_refuted, C201_no_state, C201_no_state_self); it works for plain methods (C201_break_state_partial)."
  },
  {
   "property": "C202",
   "status": "partial",
   "theorems": [
    "C202_break_step_refuted",
    "C202_break_step_partial",
    "C202_agent_refuted"
   ],
   "note": "REFUTED: the condition compares with the steps at the time of the command, and in a frame of an agent the command raises (C202_break_step_refuted, C202_agent_refuted); C202_break_step_partial says when it stops."
  },
  {
   "property": "C203",
   "status": "partial",
   "theorems": [
    "C203_options_refuted",
    "C203_options_partial",
    "C203_skip_refuted",
    "C203_traceback_refuted"
   ],
   "note": "REFUTED: only the first call makes a debugger, later options are ignored; skip raises TypeError; the traceback given is ignored (C203_options_refuted, C203_skip_refuted, C203_traceback_refuted); without an earlier debugger skip_soil is used (C203_options_partial)."
  },
  {
   "property": "C204",
   "status": "partial",
   "theorems": [
    "C204_easy_refuted",
    "C204_never",
    "C204_easy_partial"
   ],
   "note": "REFUTED: easy is decorated with contextmanager but returns a list instead of yielding, so entering raises TypeError and the body of with is never run (C204_easy_refuted, C204_never); the simulations are run (C204_easy_partial)."
  },
  {
   "property": "C205",
   "status": "partial",
   "theorems": [
    "C205_pdb_refuted",
    "C205_pdb_easy_refuted",
    "C205_pdb_partial",
    "C205_easy_hides"
   ],
   "note": "REFUTED: the argument pdb is not used (C205_pdb_refuted, C205_pdb_easy_refuted) and easy hides the exception (C205_easy_hides); the option of the command line works in main (C205_pdb_partial)."
  },
  {
   "property": "C206",
   "status": "partial",
   "theorems": [
    "C206_timer",
    "C206_timer_fails_refuted",
    "C206_timer_fails_partial"
   ],
   "note": "REFUTED when the block raises: nothing is logged at the end (C206_timer_fails_refuted, C206_timer_fails_partial); it holds for blocks that end normally (C206_timer)."
  },
  {
   "property": "C207",
   "status": "proved",
   "theorems": [
    "C207_dry_run",
    "C207_dry_run_bytes"
   ],
   "note": ""
  },
  {
   "property": "C208",
   "status": "partial",
   "theorems": [
    "C208_close_twice_refuted",
    "C208_write_returns_refuted",
    "C208_like_a_file_partial"
   ],
   "note": "REFUTED: close raises ValueError the second time and write returns None (C208_close_twice_refuted, C208_write_returns_refuted); the rest is C208_like_a_file_partial."
  },
  {
   "property": "C209",
   "status": "partial",
   "theorems": [
    "C209_default_state_refuted",
    "C209_no_default",
    "C209_default_state_partial"
   ],
   "note": "REFUTED for state above default_state: the mark is put on the function and lost (C209_default_state_refuted, C209_no_default); it holds in the other order and for state(default=True) (C209_default_state_partial)."
  },
  {
   "property": "C210",
   "status": "partial",
   "theorems": [
    "C210_no_turn_refuted",
    "C210_everyone_gets_a_turn_partial"
   ],
   "note": "REFUTED in general: if agents keep adding agents that are due at once, the clock stays and an agent with an appointment never acts (C210_no_turn_refuted). If agents add nobody while they act it holds, with a bound on the number of steps (C210_everyone_gets_a_turn_partial)."
  },
  {
   "property": "C211",
   "status": "proved",
   "theorems": [
    "C211_steady_rate"
   ],
   "note": ""
  },
  {
   "property": "C212",
   "status": "partial",
   "theorems": [
    "C212_model_wins_refuted",
    "C212_class_wins_refuted",
    "C212_arguments_partial",
    "C212_step_partial",
    "C212_accepted_partial"
   ],
   "note": "REFUTED: an attribute of the model of the same name wins (C212_model_wins_refuted), and a method or property of the class such as state_id too (C212_class_wins_refuted); it holds for all other names (C212_arguments_partial, C212_step_partial)."
  },
  {
   "property": "C213",
   "status": "partial",
   "theorems": [
    "C213_other_state_refuted",
    "C213_no_state_refuted",
    "C213_states_partial"
   ],
   "note": "REFUTED: a class whose default state was redefined gets another initial state, or none (C213_other_state_refuted, C213_no_state_refuted). The table of states is the same, and so is the initial state if exactly one state of the table is marked as default (C213_states_partial)."
  },
  {
   "property": "C214",
   "status": "partial",
   "theorems": [
    "C214_lost_refuted",
    "C214_template_refuted",
    "C214_module_partial"
   ],
   "note": "REFUTED: classes made with w belong to the module abc, so their names find nothing or the template (C214_lost_refuted, C214_template_refuted); it holds if __module__ is given and the class is put there (C214_module_partial)."
  },
  {
   "property": "C215",
   "status": "partial",
   "theorems": [
    "C215_list_changed_refuted",
    "C215_default_grows_refuted",
    "C215_same_names_partial"
   ],
   "note": "REFUTED: the list, passed or default, is extended in place (C215_list_changed_refuted, C215_default_grows_refuted). The names do not depend on earlier calls (C215_same_names_partial)."
  },
  {
   "property": "C216",
   "status": "partial",
   "theorems": [
    "C216_main_refuted",
    "C216_homonym_refuted",
    "C216_round_trip_partial",
    "C216_known_partial"
   ],
   "note": "REFUTED for classes of the main program and for homonyms of objects of soil.agents (C216_main_refuted, C216_homonym_refuted); it holds for all other classes (C216_round_trip_partial)."
  },
  {
   "property": "C217",
   "status": "partial",
   "theorems": [
    "C217_no_trials_refuted",
    "C217_always_wrong_refuted",
    "C217_started_partial",
    "C217_started_again_partial",
    "C217_end_partial",
    "C217_order_partial"
   ],
   "note": "REFUTED: the names of trials are never sent, whatever is received (C217_no_trials_refuted); each simulation that ends is reported as an error (C217_always_wrong_refuted). Simulations are started with the right fields (C217_started_partial, C217_started_again_partial)."
  },
  {
   "property": "C218",
   "status": "proved",
   "theorems": [
    "C218_settings"
   ],
   "note": ""
  },
  {
   "property": "C219",
   "status": "partial",
   "theorems": [
    "C219_no_graph_refuted",
    "C219_graph_partial"
   ],
   "note": "REFUTED: no graph is ever sent, and each request closes the connection (C219_no_graph_refuted)."
  },
  {
   "property": "C220",
   "status": "partial",
   "theorems": [
    "C220_lost_refuted",
    "C220_refused_partial"
   ],
   "note": "REFUTED: the former configuration is lost (C220_lost_refuted); the rest is C220_refused_partial."
  },
  {
   "property": "C221",
   "status": "partial",
   "theorems": [
    "C221_options_refuted",
    "C221_options_partial"
   ],
   "note": "REFUTED: the port and dump are ignored, and the name is a list (C221_options_refuted); verbose, the defaults and the options of ModularServer are right (C221_options_partial)."
  },
  {
   "property": "C222",
   "status": "partial",
   "theorems": [
    "C222_again_refuted",
    "C222_once_partial",
    "C222_precedence_partial"
   ],
   "note": "REFUTED: a generator that takes a seed and raises a TypeError is called a second time, without the seed. Proved for generators that raise no TypeError, together with the order of topology, path and generator, and the parameters that are refused."
  },
  {
   "property": "C223",
   "status": "partial",
   "theorems": [
    "C223_builtins_refuted",
    "C223_found_partial",
    "C223_missing_partial"
   ],
   "note": "REFUTED for the names of builtins: create_network(generator=\"list\") makes something that is not a graph the network. Proved for other names, found or missing."
  },
  {
   "property": "C224",
   "status": "partial",
   "theorems": [
    "C224_none_refuted",
    "C224_path_partial"
   ],
   "note": "REFUTED for from_params without dir_path: None is added to sys.path. Proved for create_network."
  },
  {
   "property": "C225",
   "status": "partial",
   "theorems": [
    "C225_undefined_refuted",
    "C225_free_nodes_refuted",
    "C225_numbers_partial",
    "C225_refused_partial",
    "C225_fixed_partial"
   ],
   "note": "REFUTED: config.AgentConfig does not exist, so from_config always raises an AttributeError; with it, a NameError is raised if nodes are left free. The numbers of agents are proved for the rest of the function."
  },
  {
   "property": "C226",
   "status": "partial",
   "theorems": [
    "C226_measures_refuted",
    "C226_two_changes_refuted",
    "C226_controller_refuted",
    "C226_shown_partial",
    "C226_changes_partial",
    "C226_kept_partial"
   ],
   "note": "REFUTED: with the default measures (None) all renders fail; of two changes before a render the first is lost; JupyterViz does not take a controller. Proved with measures, and with a render after each change."
  },
  {
   "property": "C227",
   "status": "partial",
   "theorems": [
    "C227_no_turn_refuted",
    "C227_everyone_gets_a_turn_partial"
   ],
   "note": "REFUTED (C227_no_turn_refuted): an agent added after time 0 takes the place of the one that is due next, which never acts again. Proved when everyone is added before the first step: the agent acts after at most t - now + 1 further steps, each of which ends."
  },
  {
   "property": "C228",
   "status": "partial",
   "theorems": [
    "C228_rate_refuted",
    "C228_steady_rate_partial"
   ],
   "note": "REFUTED (C228_rate_refuted): after a later addition an agent may never act again. Proved when everyone is added once before the first step."
  },
  {
   "property": "C229",
   "status": "partial",
   "theorems": [
    "C229_unsettled_refuted",
    "C229_made_partial",
    "C229_anywhere_partial",
    "C229_no_room_partial",
    "C229_nodes_partial",
    "C229_money_partial",
    "C229_own_partial"
   ],
   "note": "REFUTED for social agents (C229_unsettled_refuted): MoneyAgent does not pass node_id on, so that NetworkAgent draws a node; agents may know the node of another one, and nodes are added. Proved: N agents, each on the node with its number, all of them scheduled and on the grid; the nodes they know differ; everything if each draws its own node, and for MoneyAgent."
  },
  {
   "property": "C230",
   "status": "partial",
   "theorems": [
    "C230_friends_refuted",
    "C230_friends_partial",
    "C230_outcast_partial",
    "C230_own_friend_refuted"
   ],
   "note": "REFUTED (C230_friends_refuted, C230_own_friend_refuted): an agent may have itself as its only friend, another none, although their nodes are adjacent; the centre of the graph is adjacent to itself. Proved for agents that draw their own node."
  },
  {
   "property": "C231",
   "status": "partial",
   "theorems": [
    "C231_twice_refuted",
    "C231_pale_refuted",
    "C231_network_partial",
    "C231_grid_partial"
   ],
   "note": "REFUTED (C231_twice_refuted, C231_pale_refuted): agents may be shown twice; ten coins are as pale as one. Proved: each agent has a node with its wealth; once if no nodes were added; up to nine coins richer is darker."
  },
  {
   "property": "C232",
   "status": "partial",
   "theorems": [
    "C232_all_told_refuted",
    "C232_race_refuted",
    "C232_told_up_to_the_last_update_partial",
    "C232_overlap_refuted"
   ],
   "note": "REFUTED in general (C232_all_told_refuted: what is logged after the last update of a run is lost; C232_race_refuted: so is what is logged in the midst of an update; C232_overlap_refuted: once another run begins, what is logged outside of its name makes no difference to what is ever sent). Proved: in runs one after another, without messages in the midst of an update, exactly what is logged under the name of each run up to its last update is sent, once and in order."
  },
  {
   "property": "C233",
   "status": "partial",
   "theorems": [
    "C233_own_loggers_refuted",
    "C233_nothing_told_refuted",
    "C233_only_what_is_under_a_name_partial"
   ],
   "note": "REFUTED: the loggers of a simulation are below soil, the run captures the logger with the name of the simulation: it hears its own simulation exactly if all parts of the name are soil, and otherwise nothing is sent, whatever happens. Proved: only what is logged under the name of some run can ever be sent."
  },
  {
   "property": "C234",
   "status": "partial",
   "theorems": [
    "C234_updates_for_ever_refuted",
    "C234_updates_end_partial",
    "C234_silence_partial"
   ],
   "note": "REFUTED if the client goes away during a run: an update waits for ever whatever happens. Proved otherwise: never more updates waiting than runs begun, one while a run lasts, and none after the end of a run on an open connection and that many updates."
  },
  {
   "property": "C235",
   "status": "partial",
   "theorems": [
    "C235_late_reporter_refuted",
    "C235_reporter_called_step_refuted",
    "C235_model_df_partial"
   ],
   "note": "REFUTED in general: adding a reporter after a collection makes model_df raise ValueError for ever, and a reporter called step does so for steps=False (C235_late_reporter_refuted, C235_reporter_called_step_refuted). With all reporters there from the beginning and none called step or time, the frames are exactly as stated (C235_model_df_partial)."
  },
  {
   "property": "C236",
   "status": "partial",
   "theorems": [
    "C236_shifted_refuted",
    "C236_same_time_refuted",
    "C236_after_the_end_refuted",
    "C236_agent_df_partial",
    "C236_by_steps_partial",
    "C236_late_reporter_partial"
   ],
   "note": "REFUTED in general: if the first collections found no agents, every row is labelled with the time of an earlier collection (C236_shifted_refuted); if two collections share a time, as after the last event, agent_df raises (C236_same_time_refuted, C236_after_the_end_refuted). With agents at every collection, increasing numbers of steps and distinct times the frame is as stated (C236_agent_df_partial); by steps only distinct numbers of steps are needed (C236_by_steps_partial)."
  },
  {
   "property": "C237",
   "status": "partial",
   "theorems": [
    "C237_plot_by_steps_refuted",
    "C237_plot_partial",
    "C237_given_partial"
   ],
   "note": "REFUTED in general: with steps=True and no frame given, plot always raises, as it drops the column time, which the default frame has as its index (C237_plot_by_steps_refuted). Over time, with collections as for C236, it draws exactly the reporters that are not ignored and the right counts (C237_plot_partial)."
  },
  {
   "property": "C238",
   "status": "partial",
   "theorems": [
    "C238_step_histories_partial",
    "C238_mesa_histories_partial",
    "C238_same_histories_partial",
    "C238_states_refuted"
   ],
   "note": "REFUTED for soil_states.py: in mesa_basic.py and soil_step.py the virus can get along several edges in a step, in soil_states.py never (C238_states_refuted). The other two versions have exactly the histories of an abstract process in which agents that are not resistant act in any order (C238_step_histories_partial, C238_mesa_histories_partial), hence the same (C238_same_histories_partial)."
  },
  {
   "property": "C239",
   "status": "partial",
   "theorems": [
    "C239_defaults_refuted"
   ],
   "note": "REFUTED: the recovery and resistance chances are 0 by default in the versions for soil, 0.3 and 0.5 in the one for mesa; with the defaults agents of the latter can become resistant, and never those of the former (C239_defaults_refuted)."
  },
  {
   "property": "C240",
   "status": "proved",
   "theorems": [
    "C240_config_assertions",
    "C240_outbreak"
   ],
   "note": "For all runs (C240_config_assertions, C240_outbreak). The same assertion on the steps is refuted for the versions for soil (C193)."
  },
  {
   "property": "C241",
   "status": "proved",
   "theorems": [
    "C241_example_agent",
    "C241_fsm_example"
   ],
   "note": "A run is any sequence of steps, additions and removals of a model with agents of the three classes; times are exact integers; the clock is finite when an agent is added; the agent is added once and, if removed, is still scheduled (C05)."
  },
  {
   "property": "C242",
   "status": "partial",
   "theorems": [
    "C242_infected_at_once_refuted",
    "C242_delayed_partial"
   ],
   "note": "REFUTED: after its first activation the agent is infected, whatever max_steps_neutral is (it waits in the state infected instead of neutral). Proved instead: it is activated twice, max_steps_neutral units of time apart, infected in between and dead after that."
  },
  {
   "property": "C243",
   "status": "partial",
   "theorems": [
    "C243_event_at_start_refuted",
    "C243_event_partial"
   ],
   "note": "REFUTED if event_time is 0, the time at which the generator is added: at(0) is a delay of 0, which counts as no delay, and the event happens one default interval later. Proved for all later event times, with exact times and rational probabilities (no rounding). Event times before the addition are requests for the past (C02)."
  },
  {
   "property": "C244",
   "status": "partial",
   "theorems": [
    "C244_spreads_on_refuted",
    "C244_probability_partial",
    "C244_dies_partial",
    "C244_lives_partial"
   ],
   "note": "REFUTED: with positive probability and factor, prob_neighbor_spread is positive for ever, and in the case shown a viewer is infected by a neighbour after the death of the generator. Proved: the bounds of the probability, that the generator dies if the factor is below 1 and that it lives for ever if not."
  },
  {
   "property": "C245",
   "status": "proved",
   "theorems": [
    "C245_quiet_before",
    "C245_along_the_network",
    "C245_for_ever",
    "C245_activation"
   ],
   "note": "A run: the generator and the viewers are added at the creation of the model, which is then stepped and from which agents are removed. Times are exact integers, probabilities and draws are rational numbers. 'Before the event' is before the second activation of the generator, whose time is that of C243."
  },
  {
   "property": "C246",
   "status": "partial",
   "theorems": [
    "C246_missed_refuted",
    "C246_twice_refuted",
    "C246_one_chance_partial",
    "C246_at_most_two_chances_partial"
   ],
   "note": "REFUTED: the scheduler shuffles the agents of an instant; one run in which the owner of a television has no chance though all draws are below 0.5, and one in which it has two.  What holds: with a unit default interval, a viewer that is neutral whenever it is activated has exactly one chance if the scheduler does not shuffle (C246_one_chance_partial) and at most two with any shuffle (C246_at_most_two_chances_partial)."
  },
  {
   "property": "C247",
   "status": "partial",
   "theorems": [
    "C247_alone_refuted",
    "C247_moves_partial",
    "C247_cells_partial"
   ],
   "note": "REFUTED on a grid of one cell: get_neighborhood is empty and the first step raises an IndexError (C247_alone_refuted). Proved on all other grids (C247_moves_partial, with the cells themselves in C247_cells_partial)."
  },
  {
   "property": "C248",
   "status": "proved",
   "theorems": [
    "C248_gini",
    "C248_limits"
   ],
   "note": "For all numbers of agents, sizes, draws, orders and numbers of steps; C248_limits says what happens without agents or cells."
  },
  {
   "property": "C249",
   "status": "proved",
   "theorems": [
    "C249_broadcast"
   ],
   "note": "For all numbers of agents and steps, shuffles and intervals (bcast_run is the program of the test)."
  },
  {
   "property": "C250",
   "status": "proved",
   "theorems": [
    "C250_ask",
    "C250_alone"
   ],
   "note": "For all numbers of steps; C250_alone is the case of one agent. With three or more agents (outside of the claim) questions wait: see C250_case."
  },
  {
   "property": "C251",
   "status": "proved",
   "theorems": [
    "C251_first_come_first_served",
    "C251_no_overtaking",
    "C251_who_asks_first_runs_first"
   ],
   "note": "C251_first_come_first_served, C251_no_overtaking and C251_who_asks_first_runs_first, over all histories without exceptions and requests for the past.  C251_not_with_shuffling shows that the default scheduler does not promise it."
  },
  {
   "property": "C252",
   "status": "proved",
   "theorems": [
    "C252_by_instant_and_id"
   ],
   "note": "C252_by_instant_and_id, for a fixed population (additions after the first step are lost anyway, see C09) whose requests are for later instants.  C252_the_orders_differ shows that the order is not the one of OrderedTimedActivation."
  },
  {
   "property": "C253",
   "status": "proved",
   "theorems": [
    "C253_take_turns",
    "C253_at_most_two"
   ],
   "note": "C253_take_turns without shuffling; C253_at_most_two for any shuffle that permutes; C253_not_with_shuffling is a run in which an agent runs twice and another is left out."
  },
  {
   "property": "C254",
   "status": "proved",
   "theorems": [
    "C254_styles_agree",
    "C254_waits_in_order"
   ],
   "note": "C254_styles_agree compares any two assignments of styles to agents; C254_waits_in_order gives what each activation asks for and the state.  A coroutine that awaits a delay is the generator that yields it (soil/time.py:27-28), so that coroutines are not a style of their own."
  },
  {
   "property": "C255",
   "status": "proved",
   "theorems": [
    "C255_instants_of_a_script"
   ],
   "note": "C255_instants_of_a_script, from C03 and C254_waits_in_order; C255_case has the instants and states of the tests."
  },
  {
   "property": "C256",
   "status": "proved",
   "theorems": [
    "C256_polling",
    "C256_less_than_a_delay_late"
   ],
   "note": "Activations, begin and end of the function in closed form, for any number of such agents; the number of waits exists, is unique, and is the least one. Exact arithmetic with finite instants (units of time are integers)."
  },
  {
   "property": "C257",
   "status": "proved",
   "theorems": [
    "C257_class_of_a_draw",
    "C257_shares"
   ],
   "note": "random.choices is modelled (accumulated weights and bisect) without rounding; draws are fractions k/n."
  },
  {
   "property": "C258",
   "status": "partial",
   "theorems": [
    "C258_negative_ratio_refuted",
    "C258_shares_partial"
   ],
   "note": "REFUTED: the ratio of wise viewers is 1 - r1 - r2, which is negative for three of the nine pairs (C258_negative_ratio_refuted): then herd viewers get less than their ratio. C258_shares_partial: all combinations are run once, and those with r1 + r2 <= 1 have the shares that they ask for."
  },
  {
   "property": "C259",
   "status": "partial",
   "theorems": [
    "C259_nobody_hears_the_news_refuted"
   ],
   "note": "REFUTED: no viewer has a television, so nobody ever hears the news, in any simulation of the example (C259_nobody_hears_the_news_refuted)."
  },
  {
   "property": "C260",
   "status": "proved",
   "theorems": [
    "C260_states_are_attributes",
    "C260_as_good_as_the_name",
    "C260_own_states",
    "C260_same_table"
   ],
   "note": "For all classes that can be made (inductively, with any bases), any further classes, models, keyword arguments and initial states. C260_same_table links the table of states to the model of runs."
  },
  {
   "property": "C261",
   "status": "partial",
   "theorems": [
    "C261_function_name_refuted",
    "C261_same_name_partial",
    "C261_other_name_partial"
   ],
   "note": "REFUTED: under the name of the function there is only a copy that is not bound to the agent, without delay and at (or the attribute of that name of the model). Proved for states with the name of their function; what can be done with the copy otherwise (it can be returned) is C261_other_name_partial."
  },
  {
   "property": "C262",
   "status": "partial",
   "theorems": [
    "C262_method_does_not_replace_refuted",
    "C262_state_replaces_partial"
   ],
   "note": "REFUTED for all classes: the metaclass puts the inherited state back. Proved: a state of the same name replaces it."
  },
  {
   "property": "C263",
   "status": "partial",
   "theorems": [
    "C263_function_called_step_refuted",
    "C263_state_called_step_refuted",
    "C263_class_can_be_made_partial",
    "C263_other_names_partial",
    "C263_step_partial"
   ],
   "note": "REFUTED: a function called step cannot be a state (ValueError when the class is created), and the agents of a class with a state named step cannot be activated. Proved for other names."
  },
  {
   "property": "C264",
   "status": "partial",
   "theorems": [
    "C264_numbers_become_texts",
    "C264_other_configurations_refuted",
    "C264_writable_partial"
   ],
   "note": "REFUTED for all simulations with a number in their matrix: numbers in lists are written as texts, so that every combination has texts instead (C264_numbers_become_texts says exactly which). Proved if there are no classes and only non-empty texts and dictionaries in lists."
  },
  {
   "property": "C265",
   "status": "proved",
   "theorems": [
    "C265_ring",
    "C265_rate"
   ],
   "note": "For any number of agents from 2 on; C250 has the cases of 1 and 2 agents."
  },
  {
   "property": "C266",
   "status": "proved",
   "theorems": [
    "C266_own_values",
    "C266_private_values",
    "C266_inherited_values",
    "C266_dead"
   ],
   "note": "Bodies with an entry called defaults are left out."
  },
  {
   "property": "C267",
   "status": "proved",
   "theorems": [
    "C267_nothing_lost",
    "C267_handled_in_time",
    "C267_may_time_out"
   ],
   "note": "C267_nothing_lost (any arithmetic, timeouts and delays), C267_handled_in_time (exact arithmetic; the limit is reached in C267_case) and C267_may_time_out (a message is told before the deadline of a wait, and the wait times out at the next poll with the message in the inbox)."
  },
  {
   "property": "C268",
   "status": "proved",
   "theorems": [
    "C268_try_friends",
    "C268_looking_for_friends"
   ],
   "note": ""
  },
  {
   "property": "C269",
   "status": "proved",
   "theorems": [
    "C269_to_and_fro"
   ],
   "note": ""
  },
  {
   "property": "C270",
   "status": "proved",
   "theorems": [
    "C270_goes_on",
    "C270_every_interval"
   ],
   "note": ""
  },
  {
   "property": "C271",
   "status": "partial",
   "theorems": [
    "C271_no_trace_partial",
    "C271_no_node_partial",
    "C271_takes_the_node_refuted",
    "C271_takes_some_node_refuted"
   ],
   "note": "REFUTED: with FSM before NetworkAgent (as in three of the examples) the refused agent keeps the node. Proved for NetworkAgent before FSM, and for missing nodes in both orders."
  },
  {
   "property": "C272",
   "status": "proved",
   "theorems": [
    "C272_steps",
    "C272_runs",
    "C272_every_interval"
   ],
   "note": ""
  },
  {
   "property": "C273",
   "status": "proved",
   "theorems": [
    "C273_neighbours",
    "C273_one_step"
   ],
   "note": ""
  }
 ]
}