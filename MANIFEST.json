{
 "claims": [
  {
   "property": "C01",
   "status": "proved",
   "theorems": [
    "C01_space_heap_size",
    "C01_space_created",
    "C01_space_blocks_disjoint",
    "C01_space_history_safe"
   ],
   "note": ""
  },
  {
   "property": "C02",
   "status": "partial",
   "theorems": [
    "C02_space_malloc_first_fit_partial",
    "C02_space_malloc_huge_refuted"
   ],
   "note": "The full statement is false of the code; counterexample: C02_space_malloc_huge_refuted. The remaining theorems prove what does hold."
  },
  {
   "property": "C03",
   "status": "proved",
   "theorems": [
    "C03_space_free_releases",
    "C03_space_bad_free_detected",
    "C03_space_destroy_leak_check"
   ],
   "note": ""
  },
  {
   "property": "C04",
   "status": "proved",
   "theorems": [
    "C04_space_allocation_symmetric"
   ],
   "note": ""
  },
  {
   "property": "C05",
   "status": "partial",
   "theorems": [
    "C05_space_malloc_zero_refuted",
    "C05_space_malloc_zero_partial"
   ],
   "note": "The full statement is false of the code; counterexample: C05_space_malloc_zero_refuted. The remaining theorems prove what does hold."
  },
  {
   "property": "C06",
   "status": "partial",
   "theorems": [
    "C06_space_align_refuted",
    "C06_space_align_partial"
   ],
   "note": "The full statement is false of the code; counterexample: C06_space_align_refuted. The remaining theorems prove what does hold."
  },
  {
   "property": "C07",
   "status": "partial",
   "theorems": [
    "C07_space_calloc_short_refuted",
    "C07_space_calloc_null_refuted",
    "C07_space_calloc_one_partial"
   ],
   "note": "The full statement is false of the code; counterexample: C07_space_calloc_short_refuted, C07_space_calloc_null_refuted. The remaining theorems prove what does hold."
  },
  {
   "property": "C08",
   "status": "partial",
   "theorems": [
    "C08_symmetric_partial",
    "C08_full_size_refuted",
    "C08_tail_refuted",
    "C08_outside_refuted"
   ],
   "note": "The full statement is false of the code; counterexample: C08_full_size_refuted, C08_tail_refuted, C08_outside_refuted. The remaining theorems prove what does hold."
  },
  {
   "property": "C09",
   "status": "proved",
   "theorems": [
    "C09_free",
    "C09_malloc",
    "C09_access",
    "C09_no_deadlock"
   ],
   "note": ""
  },
  {
   "property": "C10",
   "status": "partial",
   "theorems": [
    "C10_dlmalloc_partial",
    "C10_symmetric_partial",
    "C10_no_align_partial",
    "C10_align_refuted"
   ],
   "note": "The full statement is false of the code; counterexample: C10_align_refuted. The remaining theorems prove what does hold."
  },
  {
   "property": "C11",
   "status": "proved",
   "theorems": [
    "C11_handle_roundtrip",
    "C11_handle_injective"
   ],
   "note": ""
  },
  {
   "property": "C12",
   "status": "proved",
   "theorems": [
    "C12_history_refines"
   ],
   "note": ""
  },
  {
   "property": "C13",
   "status": "proved",
   "theorems": [
    "C13_classification"
   ],
   "note": ""
  },
  {
   "property": "C14",
   "status": "proved",
   "theorems": [
    "C14_symmetry_agreed"
   ],
   "note": ""
  },
  {
   "property": "C15",
   "status": "proved",
   "theorems": [
    "C15_symm_alloc_agreed",
    "C15_symm_alloc_progress",
    "C15_symm_free_restores"
   ],
   "note": ""
  },
  {
   "property": "C16",
   "status": "proved",
   "theorems": [
    "C16_strided_members"
   ],
   "note": ""
  },
  {
   "property": "C17",
   "status": "partial",
   "theorems": [
    "C17_translate_exact_partial",
    "C17_invalid_team",
    "C17_query",
    "C17_bad_pe_refuted"
   ],
   "note": "The full statement is false of the code; counterexample: C17_bad_pe_refuted. The remaining theorems prove what does hold."
  },
  {
   "property": "C18",
   "status": "proved",
   "theorems": [
    "C18_grid"
   ],
   "note": ""
  },
  {
   "property": "C19",
   "status": "partial",
   "theorems": [
    "C19_errors_partial",
    "C19_bad_args_refuted"
   ],
   "note": "The full statement is false of the code; counterexample: C19_bad_args_refuted. The remaining theorems prove what does hold."
  },
  {
   "property": "C20",
   "status": "partial",
   "theorems": [
    "C20_one_node_partial",
    "C20_two_nodes_refuted"
   ],
   "note": "The full statement is false of the code; counterexample: C20_two_nodes_refuted. The remaining theorems prove what does hold."
  },
  {
   "property": "C21",
   "status": "partial",
   "theorems": [
    "C21_world_partial",
    "C21_user_team_refuted"
   ],
   "note": "The full statement is false of the code; counterexample: C21_user_team_refuted. The remaining theorems prove what does hold."
  },
  {
   "property": "C22",
   "status": "proved",
   "theorems": [
    "C22_right_pes",
    "C22_agree",
    "C22_distinct",
    "C22_no_deadlock",
    "C22_all_calls",
    "C22_outside"
   ],
   "note": ""
  },
  {
   "property": "C23",
   "status": "partial",
   "theorems": [
    "C23_broadcast_partial",
    "C23_wrong",
    "C23_broadcast_refuted"
   ],
   "note": "The full statement is false of the code; counterexample: C23_broadcast_refuted. The remaining theorems prove what does hold."
  },
  {
   "property": "C24",
   "status": "proved",
   "theorems": [
    "C24_collect",
    "C24_collect_team"
   ],
   "note": ""
  },
  {
   "property": "C25",
   "status": "proved",
   "theorems": [
    "C25_fcollect",
    "C25_fcollect_team",
    "C25_alltoall",
    "C25_alltoall_team",
    "C25_alltoalls",
    "C25_alltoalls_team"
   ],
   "note": ""
  },
  {
   "property": "C26",
   "status": "proved",
   "theorems": [
    "C26_allreduce",
    "C26_allreduce_team"
   ],
   "note": ""
  },
  {
   "property": "C27",
   "status": "partial",
   "theorems": [
    "C27_barrier_partial",
    "C27_barrier_am_refuted"
   ],
   "note": "The full statement is false of the code; counterexample: C27_barrier_am_refuted. The remaining theorems prove what does hold."
  },
  {
   "property": "C28",
   "status": "partial",
   "theorems": [
    "C28_iput_partial",
    "C28_iget_partial",
    "C28_large_refuted"
   ],
   "note": "The full statement is false of the code; counterexample: C28_large_refuted. The remaining theorems prove what does hold."
  },
  {
   "property": "C29",
   "status": "proved",
   "theorems": [
    "C29_cache_invisible"
   ],
   "note": ""
  },
  {
   "property": "C30",
   "status": "partial",
   "theorems": [
    "C30_get_direct_partial",
    "C30_get_am_all_fail",
    "C30_get_am_refuted",
    "C30_put",
    "C30_typed_get"
   ],
   "note": "The full statement is false of the code; counterexample: C30_get_am_refuted. The remaining theorems prove what does hold."
  },
  {
   "property": "C31",
   "status": "proved",
   "theorems": [
    "C31_exclusion",
    "C31_trace"
   ],
   "note": ""
  },
  {
   "property": "C32",
   "status": "proved",
   "theorems": [
    "C32_fifo"
   ],
   "note": ""
  },
  {
   "property": "C33",
   "status": "proved",
   "theorems": [
    "C33_bounded_wait",
    "C33_free_again"
   ],
   "note": ""
  },
  {
   "property": "C34",
   "status": "proved",
   "theorems": [
    "C34_test_exact",
    "C34_test_held"
   ],
   "note": ""
  },
  {
   "property": "C35",
   "status": "partial",
   "theorems": [
    "C35_lock_words_partial",
    "C35_lock_words_refuted"
   ],
   "note": "The full statement is false of the code; counterexample: C35_lock_words_refuted. The remaining theorems prove what does hold."
  },
  {
   "property": "C36",
   "status": "proved",
   "theorems": [
    "C36_matching",
    "C36_put",
    "C36_iput",
    "C36_get",
    "C36_iget"
   ],
   "note": ""
  },
  {
   "property": "C37",
   "status": "partial",
   "theorems": [
    "C37_flush_one_thread_partial",
    "C37_flush_threads_refuted"
   ],
   "note": "The full statement is false of the code; counterexample: C37_flush_threads_refuted. The remaining theorems prove what does hold."
  },
  {
   "property": "C38",
   "status": "partial",
   "theorems": [
    "C38_tags",
    "C38_tags_unchecked_refuted"
   ],
   "note": "The full statement is false of the code; counterexample: C38_tags_unchecked_refuted. The remaining theorems prove what does hold."
  },
  {
   "property": "C39",
   "status": "proved",
   "theorems": [
    "C39_issue_order",
    "C39_thread_order",
    "C39_call_order"
   ],
   "note": ""
  },
  {
   "property": "C40",
   "status": "proved",
   "theorems": [
    "C40_sequential",
    "C40_real_time",
    "C40_operation"
   ],
   "note": ""
  },
  {
   "property": "C41",
   "status": "partial",
   "theorems": [
    "C41_finalize_refuted",
    "C41_finalize_after_quiet_partial"
   ],
   "note": "The full statement is false of the code; counterexample: C41_finalize_refuted. The remaining theorems prove what does hold."
  },
  {
   "property": "C42",
   "status": "partial",
   "theorems": [
    "C42_ctx_quiet_direct_partial",
    "C42_ctx_quiet_am_refuted"
   ],
   "note": "The full statement is false of the code; counterexample: C42_ctx_quiet_am_refuted. The remaining theorems prove what does hold."
  },
  {
   "property": "C43",
   "status": "partial",
   "theorems": [
    "C43_quiet_one_thread_partial",
    "C43_untracked_threads_partial",
    "C43_tracking_threads_refuted"
   ],
   "note": "The full statement is false of the code; counterexample: C43_tracking_threads_refuted. The remaining theorems prove what does hold."
  },
  {
   "property": "C44",
   "status": "partial",
   "theorems": [
    "C44_barrier_all_partial",
    "C44_barrier_all_space_refuted"
   ],
   "note": "The full statement is false of the code; counterexample: C44_barrier_all_space_refuted. The remaining theorems prove what does hold."
  },
  {
   "property": "C45",
   "status": "partial",
   "theorems": [
    "C45_progress_partial",
    "C45_progress_refuted"
   ],
   "note": "The full statement is false of the code; counterexample: C45_progress_refuted. The remaining theorems prove what does hold."
  },
  {
   "property": "C46",
   "status": "proved",
   "theorems": [
    "C46_listed",
    "C46_every_string",
    "C46_special",
    "C46_round_trip"
   ],
   "note": ""
  },
  {
   "property": "C47",
   "status": "partial",
   "theorems": [
    "C47_direct_sound_partial",
    "C47_which_complete",
    "C47_forced_direct_refuted",
    "C47_lock_refuted",
    "C47_wait_refuted"
   ],
   "note": "The full statement is false of the code; counterexample: C47_forced_direct_refuted, C47_lock_refuted, C47_wait_refuted. The remaining theorems prove what does hold."
  },
  {
   "property": "C48",
   "status": "partial",
   "theorems": [
    "C48_exact_partial",
    "C48_exact_refuted",
    "C48_error_partial",
    "C48_fraction_partial"
   ],
   "note": "The full statement is false of the code; counterexample: C48_exact_refuted. The remaining theorems prove what does hold."
  },
  {
   "property": "C49",
   "status": "proved",
   "theorems": [
    "C49_level",
    "C49_again",
    "C49_aborts"
   ],
   "note": ""
  },
  {
   "property": "C50",
   "status": "proved",
   "theorems": [
    "C50_sizes",
    "C50_capacity"
   ],
   "note": ""
  },
  {
   "property": "C51",
   "status": "proved",
   "theorems": [
    "C51_wait_sound",
    "C51_wait_returns",
    "C51_wait_progress",
    "C51_test",
    "C51_test_progress",
    "C51_wait_changed"
   ],
   "note": ""
  },
  {
   "property": "C52",
   "status": "partial",
   "theorems": [
    "C52_rejected_refuted",
    "C52_never_rejected_refuted"
   ],
   "note": "The full statement is false of the code; counterexample: C52_rejected_refuted, C52_never_rejected_refuted. The remaining theorems prove what does hold."
  },
  {
   "property": "C53",
   "status": "proved",
   "theorems": [
    "C53_exclusive",
    "C53_no_ctx",
    "C53_wait_free",
    "C53_alone",
    "C53_detach"
   ],
   "note": ""
  },
  {
   "property": "C54",
   "status": "proved",
   "theorems": [
    "C54_handles_agree"
   ],
   "note": ""
  },
  {
   "property": "C55",
   "status": "partial",
   "theorems": [
    "C55_quiet_returns_partial",
    "C55_quiet_created_refuted",
    "C55_quiet_untracked_refuted",
    "C55_quiet_detached_refuted"
   ],
   "note": "The full statement is false of the code; counterexample: C55_quiet_created_refuted, C55_quiet_untracked_refuted, C55_quiet_detached_refuted. The remaining theorems prove what does hold."
  },
  {
   "property": "C56",
   "status": "partial",
   "theorems": [
    "C56_checked_partial",
    "C56_fast_refuted"
   ],
   "note": "The full statement is false of the code; counterexample: C56_fast_refuted. The remaining theorems prove what does hold."
  },
  {
   "property": "C57",
   "status": "proved",
   "theorems": [
    "C57_create",
    "C57_invalid",
    "C57_unchanged"
   ],
   "note": ""
  },
  {
   "property": "C58",
   "status": "partial",
   "theorems": [
    "C58_pe_accessible",
    "C58_accessible_partial",
    "C58_accessible_space_refuted",
    "C58_ptr"
   ],
   "note": "The full statement is false of the code; counterexample: C58_accessible_space_refuted. The remaining theorems prove what does hold."
  },
  {
   "property": "C59",
   "status": "proved",
   "theorems": [
    "C59_no_abort"
   ],
   "note": ""
  },
  {
   "property": "C60",
   "status": "proved",
   "theorems": [
    "C60_name"
   ],
   "note": ""
  },
  {
   "property": "C61",
   "status": "partial",
   "theorems": [
    "C61_calloc_partial",
    "C61_calloc_zero_partial",
    "C61_space_calloc_refuted"
   ],
   "note": "The full statement is false of the code; counterexample: C61_space_calloc_refuted. The remaining theorems prove what does hold."
  },
  {
   "property": "C62",
   "status": "partial",
   "theorems": [
    "C62_unattached_rejected_partial",
    "C62_unattached_dynamic_refuted"
   ],
   "note": "The full statement is false of the code; counterexample: C62_unattached_dynamic_refuted. The remaining theorems prove what does hold."
  },
  {
   "property": "C63",
   "status": "partial",
   "theorems": [
    "C63_ctx_bounds_partial",
    "C63_ctx_bounds_am_refuted"
   ],
   "note": "The full statement is false of the code; counterexample: C63_ctx_bounds_am_refuted. The remaining theorems prove what does hold."
  },
  {
   "property": "C64",
   "status": "partial",
   "theorems": [
    "C64_quiet_visible_partial",
    "C64_release_refuted"
   ],
   "note": "The full statement is false of the code; counterexample: C64_release_refuted. The remaining theorems prove what does hold."
  },
  {
   "property": "C65",
   "status": "partial",
   "theorems": [
    "C65_any_number_refuted"
   ],
   "note": "The full statement is false of the code; counterexample: C65_any_number_refuted. The remaining theorems prove what does hold."
  },
  {
   "property": "C66",
   "status": "partial",
   "theorems": [
    "C66_fence_orders_partial",
    "C66_untracked_threads_partial",
    "C66_threads_refuted"
   ],
   "note": "The full statement is false of the code; counterexample: C66_threads_refuted. The remaining theorems prove what does hold."
  },
  {
   "property": "C67",
   "status": "proved",
   "theorems": [
    "C67_no_leak"
   ],
   "note": ""
  },
  {
   "property": "C68",
   "status": "proved",
   "theorems": [
    "C68_free_order"
   ],
   "note": ""
  },
  {
   "property": "C69",
   "status": "proved",
   "theorems": [
    "C69_team_broadcast"
   ],
   "note": ""
  },
  {
   "property": "C70",
   "status": "proved",
   "theorems": [
    "C70_gpu_features",
    "C70_round_trip",
    "C70_special"
   ],
   "note": ""
  },
  {
   "property": "C71",
   "status": "partial",
   "theorems": [
    "C71_environment_refuted",
    "C71_environment_partial"
   ],
   "note": "The full statement is false of the code; counterexample: C71_environment_refuted. The remaining theorems prove what does hold."
  },
  {
   "property": "C72",
   "status": "partial",
   "theorems": [
    "C72_progress_thread_partial",
    "C72_choice",
    "C72_progress_thread_refuted"
   ],
   "note": "The full statement is false of the code; counterexample: C72_progress_thread_refuted. The remaining theorems prove what does hold."
  },
  {
   "property": "C73",
   "status": "partial",
   "theorems": [
    "C73_life_cycle_partial",
    "C73_user_mpi_refuted"
   ],
   "note": "The full statement is false of the code; counterexample: C73_user_mpi_refuted. The remaining theorems prove what does hold."
  },
  {
   "property": "C74",
   "status": "partial",
   "theorems": [
    "C74_invalid_quiet_refuted"
   ],
   "note": "The full statement is false of the code; counterexample: C74_invalid_quiet_refuted. The remaining theorems prove what does hold."
  },
  {
   "property": "C75",
   "status": "partial",
   "theorems": [
    "C75_realloc_return_partial",
    "C75_realloc_entry_refuted",
    "C75_contents_partial",
    "C75_space_block_refuted"
   ],
   "note": "The full statement is false of the code; counterexample: C75_realloc_entry_refuted, C75_space_block_refuted. The remaining theorems prove what does hold."
  },
  {
   "property": "C76",
   "status": "proved",
   "theorems": [
    "C76_disjoint",
    "C76_inside",
    "C76_align",
    "C76_calloc",
    "C76_frame",
    "C76_no_ub"
   ],
   "note": ""
  },
  {
   "property": "C77",
   "status": "partial",
   "theorems": [
    "C77_released_partial",
    "C77_reuse_partial",
    "C77_tail_refuted"
   ],
   "note": "The full statement is false of the code; counterexample: C77_tail_refuted. The remaining theorems prove what does hold."
  },
  {
   "property": "C78",
   "status": "partial",
   "theorems": [
    "C78_completes",
    "C78_returns",
    "C78_bounded",
    "C78_polled_partial",
    "C78_no_polling_refuted"
   ],
   "note": "The full statement is false of the code; counterexample: C78_no_polling_refuted. The remaining theorems prove what does hold."
  },
  {
   "property": "C79",
   "status": "partial",
   "theorems": [
    "C79_async",
    "C79_bounded",
    "C79_manual_partial",
    "C79_calls_partial",
    "C79_blocking_refuted"
   ],
   "note": "The full statement is false of the code; counterexample: C79_blocking_refuted. The remaining theorems prove what does hold."
  },
  {
   "property": "C80",
   "status": "partial",
   "theorems": [
    "C80_message_partial",
    "C80_get",
    "C80_threads_refuted"
   ],
   "note": "The full statement is false of the code; counterexample: C80_threads_refuted. The remaining theorems prove what does hold."
  },
  {
   "property": "C81",
   "status": "proved",
   "theorems": [
    "C81_barrier_data",
    "C81_get_after_barrier"
   ],
   "note": ""
  },
  {
   "property": "C82",
   "status": "proved",
   "theorems": [
    "C82_same_as_am",
    "C82_operation",
    "C82_sequential",
    "C82_quiet",
    "C82_later"
   ],
   "note": ""
  },
  {
   "property": "C83",
   "status": "proved",
   "theorems": [
    "C83_counter_direct",
    "C83_counter_am",
    "C83_tickets"
   ],
   "note": ""
  },
  {
   "property": "C84",
   "status": "proved",
   "theorems": [
    "C84_race_free"
   ],
   "note": ""
  },
  {
   "property": "C85",
   "status": "proved",
   "theorems": [
    "C85_critical_section",
    "C85_no_lost_update"
   ],
   "note": ""
  },
  {
   "property": "C86",
   "status": "partial",
   "theorems": [
    "C86_held",
    "C86_no_growth",
    "C86_finalize_partial",
    "C86_clean",
    "C86_unmap_refuted",
    "C86_cs_refuted"
   ],
   "note": "The full statement is false of the code; counterexample: C86_unmap_refuted, C86_cs_refuted. The remaining theorems prove what does hold."
  },
  {
   "property": "C87",
   "status": "proved",
   "theorems": [
    "C87_no_deadlock",
    "C87_sections",
    "C87_finish"
   ],
   "note": ""
  },
  {
   "property": "C88",
   "status": "partial",
   "theorems": [
    "C88_lookup",
    "C88_quiet_partial",
    "C88_create_refuted",
    "C88_attach_refuted",
    "C88_detach_refuted"
   ],
   "note": "The full statement is false of the code; counterexample: C88_create_refuted, C88_attach_refuted, C88_detach_refuted. The remaining theorems prove what does hold."
  },
  {
   "property": "C89",
   "status": "partial",
   "theorems": [
    "C89_ends",
    "C89_handled",
    "C89_no_thread_partial",
    "C89_no_thread_refuted",
    "C89_safe_partial",
    "C89_only_signal",
    "C89_signal_refuted"
   ],
   "note": "The full statement is false of the code; counterexample: C89_no_thread_refuted, C89_signal_refuted. The remaining theorems prove what does hold."
  },
  {
   "property": "C90",
   "status": "proved",
   "theorems": [
    "C90_no_fault",
    "C90_walk",
    "C90_first_match",
    "C90_finalize"
   ],
   "note": ""
  },
  {
   "property": "C91",
   "status": "proved",
   "theorems": [
    "C91_generator",
    "C91_routines",
    "C91_indices"
   ],
   "note": ""
  },
  {
   "property": "C92",
   "status": "partial",
   "theorems": [
    "C92_defined_partial",
    "C92_char_refuted"
   ],
   "note": "The full statement is false of the code; counterexample: C92_char_refuted. The remaining theorems prove what does hold."
  },
  {
   "property": "C93",
   "status": "partial",
   "theorems": [
    "C93_reaches_partial",
    "C93_const",
    "C93_const_refuted"
   ],
   "note": "The full statement is false of the code; counterexample: C93_const_refuted. The remaining theorems prove what does hold."
  },
  {
   "property": "C94",
   "status": "partial",
   "theorems": [
    "C94_placed_partial",
    "C94_null_partial",
    "C94_huge_refuted"
   ],
   "note": "The full statement is false of the code; counterexample: C94_huge_refuted. The remaining theorems prove what does hold."
  },
  {
   "property": "C95",
   "status": "proved",
   "theorems": [
    "C95_filed",
    "C95_refines",
    "C95_defined"
   ],
   "note": ""
  },
  {
   "property": "C96",
   "status": "partial",
   "theorems": [
    "C96_rma_partial",
    "C96_host",
    "C96_am_partial",
    "C96_direct_partial",
    "C96_rma_refuted",
    "C96_amo_partial",
    "C96_amo_refuted",
    "C96_amo_am_refuted",
    "C96_other_partial",
    "C96_calloc_refuted",
    "C96_space"
   ],
   "note": "The full statement is false of the code; counterexample: C96_rma_refuted, C96_amo_refuted, C96_amo_am_refuted, C96_calloc_refuted. The remaining theorems prove what does hold."
  },
  {
   "property": "C97",
   "status": "proved",
   "theorems": [
    "C97_source",
    "C97_dest",
    "C97_kept"
   ],
   "note": ""
  },
  {
   "property": "C98",
   "status": "partial",
   "theorems": [
    "C98_exposed",
    "C98_same_partial",
    "C98_wait_refuted",
    "C98_atomic_refuted"
   ],
   "note": "The full statement is false of the code; counterexample: C98_wait_refuted, C98_atomic_refuted. The remaining theorems prove what does hold."
  },
  {
   "property": "C99",
   "status": "partial",
   "theorems": [
    "C99_own",
    "C99_switch",
    "C99_async",
    "C99_mode",
    "C99_accepted",
    "C99_default_partial",
    "C99_thread_refuted",
    "C99_all_refuted",
    "C99_prints",
    "C99_shown_modes"
   ],
   "note": "The full statement is false of the code; counterexample: C99_thread_refuted, C99_all_refuted. The remaining theorems prove what does hold."
  },
  {
   "property": "C100",
   "status": "partial",
   "theorems": [
    "C100_put_partial",
    "C100_get_partial",
    "C100_accepted",
    "C100_fcollect_partial",
    "C100_alltoall_partial",
    "C100_allreduce_partial",
    "C100_broadcast_partial",
    "C100_put_refuted",
    "C100_get_refuted",
    "C100_fcollect_refuted"
   ],
   "note": "The full statement is false of the code; counterexample: C100_put_refuted, C100_get_refuted, C100_fcollect_refuted. The remaining theorems prove what does hold."
  },
  {
   "property": "C101",
   "status": "partial",
   "theorems": [
    "C101_linked_partial",
    "C101_declared",
    "C101_mixed_partial",
    "C101_wait_refuted",
    "C101_passes",
    "C101_all"
   ],
   "note": "The full statement is false of the code; counterexample: C101_wait_refuted. The remaining theorems prove what does hold."
  },
  {
   "property": "C102",
   "status": "partial",
   "theorems": [
    "C102_answers_partial",
    "C102_others",
    "C102_no_memory_refuted"
   ],
   "note": "The full statement is false of the code; counterexample: C102_no_memory_refuted. The remaining theorems prove what does hold."
  },
  {
   "property": "C103",
   "status": "partial",
   "theorems": [
    "C103_start_partial",
    "C103_absent",
    "C103_other_device",
    "C103_left_partial",
    "C103_left_refuted",
    "C103_fast_refuted",
    "C103_empty_refuted",
    "C103_second_driver_refuted"
   ],
   "note": "The full statement is false of the code; counterexample: C103_left_refuted, C103_fast_refuted, C103_empty_refuted, C103_second_driver_refuted. The remaining theorems prove what does hold."
  },
  {
   "property": "C104",
   "status": "partial",
   "theorems": [
    "C104_sessions",
    "C104_others_partial",
    "C104_set",
    "C104_written_refuted"
   ],
   "note": "The full statement is false of the code; counterexample: C104_written_refuted. The remaining theorems prove what does hold."
  },
  {
   "property": "C105",
   "status": "partial",
   "theorems": [
    "C105_accepts_partial",
    "C105_choices",
    "C105_locks",
    "C105_multiple_locked",
    "C105_fast_partial",
    "C105_printed",
    "C105_repeat_partial",
    "C105_none_refuted",
    "C105_debug_refuted",
    "C105_package_refuted",
    "C105_unknown_refuted",
    "C105_repeat_refuted",
    "C105_ze_refuted"
   ],
   "note": "The full statement is false of the code; counterexample: C105_none_refuted, C105_debug_refuted, C105_package_refuted, C105_unknown_refuted, C105_repeat_refuted, C105_ze_refuted. The remaining theorems prove what does hold."
  },
  {
   "property": "C106",
   "status": "partial",
   "theorems": [
    "C106_never_wrong_partial",
    "C106_alive_partial",
    "C106_released_partial",
    "C106_spaces",
    "C106_direct_refuted",
    "C106_heap_refuted"
   ],
   "note": "The full statement is false of the code; counterexample: C106_direct_refuted, C106_heap_refuted. The remaining theorems prove what does hold."
  },
  {
   "property": "C107",
   "status": "partial",
   "theorems": [
    "C107_layout",
    "C107_delivered_partial",
    "C107_defined",
    "C107_numbers",
    "C107_answer",
    "C107_large_refuted",
    "C107_atomic",
    "C107_atomics",
    "C107_put_partial",
    "C107_get_partial",
    "C107_iput",
    "C107_iget",
    "C107_symmetric_atomic",
    "C107_symmetric_put_partial",
    "C107_symmetric_get_partial",
    "C107_symmetric_iput",
    "C107_symmetric_iget"
   ],
   "note": "The full statement is false of the code; counterexample: C107_large_refuted. The remaining theorems prove what does hold."
  },
  {
   "property": "C108",
   "status": "proved",
   "theorems": [
    "C108_same",
    "C108_not_early",
    "C108_arguments"
   ],
   "note": ""
  },
  {
   "property": "C109",
   "status": "partial",
   "theorems": [
    "C109_history",
    "C109_context_hint",
    "C109_default_hint_partial",
    "C109_unbuilt",
    "C109_short",
    "C109_shown",
    "C109_default_hint_refuted"
   ],
   "note": "The full statement is false of the code; counterexample: C109_default_hint_refuted. The remaining theorems prove what does hold."
  },
  {
   "property": "C110",
   "status": "partial",
   "theorems": [
    "C110_sized_partial",
    "C110_strided",
    "C110_size_refuted"
   ],
   "note": "The full statement is false of the code; counterexample: C110_size_refuted. The remaining theorems prove what does hold."
  },
  {
   "property": "C111",
   "status": "proved",
   "theorems": [
    "C111_assembled",
    "C111_header",
    "C111_places"
   ],
   "note": ""
  }
 ]
}