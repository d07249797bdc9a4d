{
 "claims": [
  {
   "property": "C01",
   "status": "proved",
   "theorems": [
    "C01_queue_is_list",
    "C01_storage_frame"
   ],
   "note": ""
  },
  {
   "property": "C02",
   "status": "proved",
   "theorems": [
    "C02_full_put"
   ],
   "note": ""
  },
  {
   "property": "C03",
   "status": "proved",
   "theorems": [
    "C03_low_water_mark"
   ],
   "note": ""
  },
  {
   "property": "C04",
   "status": "proved",
   "theorems": [
    "C04_statistics"
   ],
   "note": ""
  },
  {
   "property": "C05",
   "status": "proved",
   "theorems": [
    "C05_ready_iff_pending"
   ],
   "note": ""
  },
  {
   "property": "C06",
   "status": "proved",
   "theorems": [
    "C06_read_effect",
    "C06_read_delivers_refuted"
   ],
   "note": ""
  },
  {
   "property": "C07",
   "status": "proved",
   "theorems": [
    "C07_layout",
    "C07_init_blocks",
    "C07_init_rejects",
    "C07_init_too_big",
    "C07_init_wrap_refuted",
    "C07_init_count_refuted"
   ],
   "note": ""
  },
  {
   "property": "C08",
   "status": "proved",
   "theorems": [
    "C08_no_double_allocation",
    "C08_never_faults",
    "C08_contents_safe"
   ],
   "note": ""
  },
  {
   "property": "C09",
   "status": "proved",
   "theorems": [
    "C09_conservation"
   ],
   "note": ""
  },
  {
   "property": "C10",
   "status": "proved",
   "theorems": [
    "C10_low_water_mark"
   ],
   "note": ""
  },
  {
   "property": "C11",
   "status": "proved",
   "theorems": [
    "C11_put_detects",
    "C11_double_put_undetected",
    "C11_double_put_refuted"
   ],
   "note": ""
  },
  {
   "property": "C12",
   "status": "proved",
   "theorems": [
    "C12_bit_mask",
    "C12_least_bit"
   ],
   "note": ""
  },
  {
   "property": "C13",
   "status": "proved",
   "theorems": [
    "C13_ready_set",
    "C13_empty_group",
    "C13_range_checked"
   ],
   "note": ""
  },
  {
   "property": "C14",
   "status": "proved",
   "theorems": [
    "C14_traverse"
   ],
   "note": ""
  },
  {
   "property": "C15",
   "status": "proved",
   "theorems": [
    "C15_last_call_decides",
    "C15_total"
   ],
   "note": ""
  },
  {
   "property": "C16",
   "status": "proved",
   "theorems": [
    "C16_publish"
   ],
   "note": ""
  },
  {
   "property": "C17",
   "status": "proved",
   "theorems": [
    "C17_counter_is_holders",
    "C17_reserve"
   ],
   "note": ""
  },
  {
   "property": "C18",
   "status": "proved",
   "theorems": [
    "C18_no_use_after_free"
   ],
   "note": ""
  },
  {
   "property": "C19",
   "status": "proved",
   "theorems": [
    "C19_gc",
    "C19_gc_nothing",
    "C19_no_leak",
    "C19_drained"
   ],
   "note": ""
  },
  {
   "property": "C20",
   "status": "proved",
   "theorems": [
    "C20_static_events_untouched"
   ],
   "note": ""
  },
  {
   "property": "C21",
   "status": "proved",
   "theorems": [
    "C21_first_fit",
    "C21_blocks_of_256_refuted"
   ],
   "note": ""
  },
  {
   "property": "C22",
   "status": "proved",
   "theorems": [
    "C22_leak_at_256",
    "C22_recycled_at_257",
    "C22_counter_mod_256"
   ],
   "note": ""
  },
  {
   "property": "C23",
   "status": "proved",
   "theorems": [
    "C23_defer",
    "C23_recall",
    "C23_defer_then_recall_all"
   ],
   "note": ""
  },
  {
   "property": "C24",
   "status": "proved",
   "theorems": [
    "C24_registry_is_map",
    "C24_register",
    "C24_unregister",
    "C24_activate",
    "C24_terminate_pending_refuted"
   ],
   "note": ""
  },
  {
   "property": "C25",
   "status": "proved",
   "theorems": [
    "C25_highest_first",
    "C25_idle"
   ],
   "note": ""
  },
  {
   "property": "C26",
   "status": "proved",
   "theorems": [
    "C26_log_replays",
    "C26_exactly_once",
    "C26_post",
    "C26_tick",
    "C26_posting_order"
   ],
   "note": ""
  },
  {
   "property": "C27",
   "status": "proved",
   "theorems": [
    "C27_drains"
   ],
   "note": ""
  },
  {
   "property": "C28",
   "status": "proved",
   "theorems": [
    "C28_one_shot",
    "C28_reinit_refuted"
   ],
   "note": ""
  },
  {
   "property": "C29",
   "status": "proved",
   "theorems": [
    "C29_periodic"
   ],
   "note": ""
  },
  {
   "property": "C30",
   "status": "proved",
   "theorems": [
    "C30_never_faults",
    "C30_countdown",
    "C30_stop_silent"
   ],
   "note": ""
  },
  {
   "property": "C31",
   "status": "proved",
   "theorems": [
    "C31_list_well_formed",
    "C31_restart_in_place"
   ],
   "note": ""
  },
  {
   "property": "C32",
   "status": "proved",
   "theorems": [
    "C32_exact_order",
    "C32_later_first"
   ],
   "note": ""
  },
  {
   "property": "C33",
   "status": "proved",
   "theorems": [
    "C33_undisturbed",
    "C33_self_restart_skews",
    "C33_early_refuted",
    "C33_null_refuted",
    "C33_cycle_refuted"
   ],
   "note": ""
  },
  {
   "property": "C34",
   "status": "proved",
   "theorems": [
    "C34_stream_is_window",
    "C34_most_recent",
    "C34_counter_bound_refuted"
   ],
   "note": ""
  },
  {
   "property": "C35",
   "status": "proved",
   "theorems": [
    "C35_reads"
   ],
   "note": ""
  },
  {
   "property": "C36",
   "status": "proved",
   "theorems": [
    "C36_round_trip",
    "C36_read_in_turns",
    "C36_overrun",
    "C36_default_record"
   ],
   "note": ""
  },
  {
   "property": "C37",
   "status": "proved",
   "theorems": [
    "C37_checksum",
    "C37_single_change_rejected"
   ],
   "note": ""
  },
  {
   "property": "C38",
   "status": "proved",
   "theorems": [
    "C38_sequence",
    "C38_across_reads"
   ],
   "note": ""
  },
  {
   "property": "C39",
   "status": "proved",
   "theorems": [
    "C39_fields_lossless",
    "C39_field_bytes",
    "C39_symbol_records"
   ],
   "note": ""
  },
  {
   "property": "C40",
   "status": "proved",
   "theorems": [
    "C40_switches",
    "C40_record_emitted",
    "C40_unit_test_events_refuted",
    "C40_out_of_range_refuted",
    "C40_query_bounds_refuted",
    "C40_group_number_refuted",
    "C40_all_groups_events_refuted"
   ],
   "note": ""
  },
  {
   "property": "C41",
   "status": "proved",
   "theorems": [
    "C41_symbols",
    "C41_misuse_rejected",
    "C41_large_slots_refuted",
    "C41_bound_check_refuted",
    "C41_all_signals_refuted",
    "C41_event_filter_refuted"
   ],
   "note": ""
  },
  {
   "property": "C42",
   "status": "proved",
   "theorems": [
    "C42_innermost_first"
   ],
   "note": ""
  },
  {
   "property": "C43",
   "status": "proved",
   "theorems": [
    "C43_order",
    "C43_default_order",
    "C43_configuration",
    "C43_life",
    "C43_shared_submachine_refuted",
    "C43_semantics",
    "C43_default_history_refuted"
   ],
   "note": ""
  },
  {
   "property": "C44",
   "status": "proved",
   "theorems": [
    "C44_leaf",
    "C44_active"
   ],
   "note": ""
  },
  {
   "property": "C45",
   "status": "proved",
   "theorems": [
    "C45_internal"
   ],
   "note": ""
  },
  {
   "property": "C46",
   "status": "proved",
   "theorems": [
    "C46_first_branch"
   ],
   "note": ""
  },
  {
   "property": "C47",
   "status": "proved",
   "theorems": [
    "C47_remembers",
    "C47_remembers_since",
    "C47_returns",
    "C47_default",
    "C47_own_history_refuted",
    "C47_final_refuted"
   ],
   "note": ""
  },
  {
   "property": "C48",
   "status": "proved",
   "theorems": [
    "C48_remembers",
    "C48_remembers_since",
    "C48_leaf",
    "C48_shared_submachine_refuted"
   ],
   "note": ""
  },
  {
   "property": "C49",
   "status": "proved",
   "theorems": [
    "C49_completion"
   ],
   "note": ""
  },
  {
   "property": "C50",
   "status": "proved",
   "theorems": [
    "C50_no_memory_errors",
    "C50_no_memory_errors_event",
    "C50_segments",
    "C50_too_deep",
    "C50_depth_checked_refuted",
    "C50_submachine_default_refuted",
    "C50_submachine_initial_refuted"
   ],
   "note": ""
  },
  {
   "property": "C51",
   "status": "proved",
   "theorems": [
    "C51_state",
    "C51_unchanged_refuted"
   ],
   "note": ""
  },
  {
   "property": "C52",
   "status": "proved",
   "theorems": [
    "C52_every_interleaving"
   ],
   "note": ""
  },
  {
   "property": "C53",
   "status": "proved",
   "theorems": [
    "C53_only_completions",
    "C53_returns",
    "C53_endless",
    "C53_default_history_refuted",
    "C53_completion_cycle_refuted",
    "C53_path_cycle_refuted"
   ],
   "note": ""
  },
  {
   "property": "C54",
   "status": "proved",
   "theorems": [
    "C54_one_at_a_time",
    "C54_starts_alone",
    "C54_runs_on",
    "C54_initial_first"
   ],
   "note": ""
  },
  {
   "property": "C55",
   "status": "proved",
   "theorems": [
    "C55_replay",
    "C55_in_order"
   ],
   "note": ""
  },
  {
   "property": "C56",
   "status": "proved",
   "theorems": [
    "C56_as_alone",
    "C56_application"
   ],
   "note": ""
  },
  {
   "property": "C57",
   "status": "proved",
   "theorems": [
    "C57_only_blocks"
   ],
   "note": ""
  },
  {
   "property": "C58",
   "status": "proved",
   "theorems": [
    "C58_one_system",
    "C58_resources_only",
    "C58_on_time",
    "C58_not_after_stop"
   ],
   "note": ""
  },
  {
   "property": "C59",
   "status": "proved",
   "theorems": [
    "C59_figures",
    "C59_figures_of_256_refuted",
    "C59_register_limit"
   ],
   "note": ""
  },
  {
   "property": "C60",
   "status": "proved",
   "theorems": [
    "C60_same",
    "C60_until_final",
    "C60_completion_refuted",
    "C60_final_refuted"
   ],
   "note": ""
  },
  {
   "property": "C61",
   "status": "proved",
   "theorems": [
    "C61_exact",
    "C61_elapsed",
    "C61_short",
    "C61_skew",
    "C61_second_refuted",
    "C61_fast_refuted",
    "C61_slow_refuted",
    "C61_wrap_refuted"
   ],
   "note": ""
  },
  {
   "property": "C62",
   "status": "proved",
   "theorems": [
    "C62_every_call",
    "C62_subscribers",
    "C62_publish"
   ],
   "note": ""
  },
  {
   "property": "C63",
   "status": "proved",
   "theorems": [
    "C63_s08",
    "C63_cortex",
    "C63_stm32",
    "C63_coldfire_one_level",
    "C63_coldfire_refuted",
    "C63_cortex_restore_refuted"
   ],
   "note": ""
  },
  {
   "property": "C64",
   "status": "proved",
   "theorems": [
    "C64_account",
    "C64_answer",
    "C64_ignored_refuted"
   ],
   "note": ""
  },
  {
   "property": "C65",
   "status": "proved",
   "theorems": [
    "C65_owner",
    "C65_guard_refuted",
    "C65_nested_refuted"
   ],
   "note": ""
  },
  {
   "property": "C66",
   "status": "proved",
   "theorems": [
    "C66_threads_safe",
    "C66_threads_counter",
    "C66_threads_memory",
    "C66_threads_order",
    "C66_threads_run_to_completion",
    "C66_recall_by_another_thread_refuted",
    "C66_post_of_a_queued_event_refuted"
   ],
   "note": ""
  },
  {
   "property": "C67",
   "status": "proved",
   "theorems": [
    "C67_no_lost_wakeup",
    "C67_thread_drains_its_queue",
    "C67_all_asleep"
   ],
   "note": ""
  },
  {
   "property": "C68",
   "status": "proved",
   "theorems": [
    "C68_one_call",
    "C68_as_alone",
    "C68_safe",
    "C68_activate_from_action_refuted",
    "C68_activate_from_exit_refuted"
   ],
   "note": ""
  },
  {
   "property": "C69",
   "status": "proved",
   "theorems": [
    "C69_counts"
   ],
   "note": ""
  },
  {
   "property": "C70",
   "status": "proved",
   "theorems": [
    "C70_external",
    "C70_local",
    "C70_innermost",
    "C70_not_external",
    "C70_not_local"
   ],
   "note": ""
  },
  {
   "property": "C71",
   "status": "proved",
   "theorems": [
    "C71_safe",
    "C71_safe_with_stop",
    "C71_counter",
    "C71_memory",
    "C71_order",
    "C71_run_to_completion",
    "C71_no_lost_wakeup",
    "C71_loop_drains_the_queues",
    "C71_most_urgent",
    "C71_asleep_means_done",
    "C71_stop_at_most_one_more",
    "C71_stop_while_asleep_refuted",
    "C71_post_after_stop_refuted",
    "C71_stop_in_start_hook_refuted",
    "C71_recall_by_another_thread_refuted"
   ],
   "note": ""
  },
  {
   "property": "C72",
   "status": "proved",
   "theorems": [
    "C72_post",
    "C72_publish",
    "C72_get",
    "C72_get_interrupted_refuted",
    "C72_defer",
    "C72_blocks",
    "C72_new",
    "C72_dec",
    "C72_recycle",
    "C72_one_pool_number_refuted",
    "C72_queue_count",
    "C72_leak_count",
    "C72_recycle_256_refuted"
   ],
   "note": ""
  },
  {
   "property": "C73",
   "status": "proved",
   "theorems": [
    "C73_reads",
    "C73_exact",
    "C73_synchronises",
    "C73_reads_records",
    "C73_reads_after_overrun",
    "C73_failure_arrives",
    "C73_overrun_refuted",
    "C73_256_bytes_lost_refuted",
    "C73_long_frames_refuted",
    "C73_long_message_refuted",
    "C73_init_overrun_refuted"
   ],
   "note": ""
  },
  {
   "property": "C74",
   "status": "proved",
   "theorems": [
    "C74_serves",
    "C74_no_fault",
    "C74_bounded",
    "C74_drains",
    "C74_own_terminate",
    "C74_own_ends",
    "C74_at_most_one",
    "C74_win32_next_event",
    "C74_early_start_refuted",
    "C74_asleep_win32_refuted",
    "C74_asleep_os_refuted",
    "C74_post_after_refuted",
    "C74_lost_terminate_refuted",
    "C74_left_behind_refuted"
   ],
   "note": ""
  },
  {
   "property": "C75",
   "status": "proved",
   "theorems": [
    "C75_records",
    "C75_no_effect",
    "C75_replay",
    "C75_only_running",
    "C75_stop_figure",
    "C75_period_refuted"
   ],
   "note": ""
  },
  {
   "property": "C76",
   "status": "proved",
   "theorems": [
    "C76_exclusive",
    "C76_in_order",
    "C76_in_order_pause",
    "C76_not_stuck",
    "C76_no_leak",
    "C76_counters",
    "C76_no_fault",
    "C76_no_fault_priority",
    "C76_all_served",
    "C76_pool_x86_64",
    "C76_pool_exhausted_refuted",
    "C76_queue_full_refuted",
    "C76_exclusive_pause_refuted",
    "C76_resume_refuted"
   ],
   "note": ""
  },
  {
   "property": "C77",
   "status": "proved",
   "theorems": [
    "C77_dispatch",
    "C77_init",
    "C77_run",
    "C77_static",
    "C77_initial_submachine_refuted"
   ],
   "note": ""
  },
  {
   "property": "C78",
   "status": "proved",
   "theorems": [
    "C78_ahsm",
    "C78_data",
    "C78_minus_refuted"
   ],
   "note": ""
  },
  {
   "property": "C79",
   "status": "proved",
   "theorems": [
    "C79_subm"
   ],
   "note": ""
  },
  {
   "property": "C80",
   "status": "proved",
   "theorems": [
    "C80_exact",
    "C80_paced",
    "C80_period",
    "C80_two_seconds",
    "C80_full_refuted"
   ],
   "note": ""
  },
  {
   "property": "C81",
   "status": "proved",
   "theorems": [
    "C81_never_faults",
    "C81_no_invention",
    "C81_in_order",
    "C81_ends",
    "C81_torn_refuted",
    "C81_linux_refuted"
   ],
   "note": ""
  },
  {
   "property": "C82",
   "status": "proved",
   "theorems": [
    "C82_never_faults",
    "C82_arrive",
    "C82_genuine_refuted"
   ],
   "note": ""
  },
  {
   "property": "C83",
   "status": "proved",
   "theorems": [
    "C83_nothing_left",
    "C83_only_registered",
    "C83_terminate",
    "C83_again",
    "C83_still_subscribed_refuted",
    "C83_post_after_refuted"
   ],
   "note": "The other kernel theorems quantify over executions that contain terminations. C83_terminate and C83_again are about the call without interrupts, from any reachable state; a termination with pending events is refuted in C24_terminate_pending_refuted, one of a subscriber in C83_still_subscribed_refuted, a post after the termination in C83_post_after_refuted."
  },
  {
   "property": "C84",
   "status": "proved",
   "theorems": [
    "C84_figures",
    "C84_records"
   ],
   "note": "C84_records is about the figures at the end of a critical section, which are those of the records made there (C72); the counter of gets from an empty queue (nempty) is left to C04."
  },
  {
   "property": "C85",
   "status": "proved",
   "theorems": [
    "C85_restarts",
    "C85_application",
    "C85_next_life",
    "C85_as_new_refuted"
   ],
   "note": "C85_next_life is about two runs of one machine; together with C85_restarts it applies to the machines in the application, whose guards may see the signal only. The difference to a new machine is refuted in C85_as_new_refuted."
  }
 ]
}