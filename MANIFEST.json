{
 "claims": [
  {
   "property": "C01",
   "status": "proved",
   "theorems": [
    "C01_ownership",
    "C01_handle_targets",
    "C01_no_undefined_behaviour"
   ],
   "note": ""
  },
  {
   "property": "C02",
   "status": "proved",
   "theorems": [
    "C02_one_shot",
    "C02_no_reuse",
    "C02_resume",
    "C02_resume_with",
    "C02_receiver",
    "C02_can_resume"
   ],
   "note": ""
  },
  {
   "property": "C03",
   "status": "proved",
   "theorems": [
    "C03_completion",
    "C03_returns",
    "C03_return_statement",
    "C03_context_function_left",
    "C03_injected_function_left"
   ],
   "note": ""
  },
  {
   "property": "C04",
   "status": "proved",
   "theorems": [
    "C04_untouched",
    "C04_continued"
   ],
   "note": ""
  },
  {
   "property": "C05",
   "status": "proved",
   "theorems": [
    "C05_stack_life",
    "C05_freed_once"
   ],
   "note": ""
  },
  {
   "property": "C06",
   "status": "proved",
   "theorems": [
    "C06_no_stack_is_lost",
    "C06_quiescent",
    "C06_before_next_call"
   ],
   "note": ""
  },
  {
   "property": "C07",
   "status": "proved",
   "theorems": [
    "C07_unwinds_completely",
    "C07_destructor_empty",
    "C07_destructor_completes",
    "C07_assignment_completes"
   ],
   "note": ""
  },
  {
   "property": "C08",
   "status": "proved",
   "theorems": [
    "C08_objects",
    "C08_all_destroyed"
   ],
   "note": ""
  },
  {
   "property": "C09",
   "status": "proved",
   "theorems": [
    "C09_never_started"
   ],
   "note": ""
  },
  {
   "property": "C10",
   "status": "proved",
   "theorems": [
    "C10_enter_once"
   ],
   "note": ""
  },
  {
   "property": "C11",
   "status": "proved",
   "theorems": [
    "C11_injected",
    "C11_runs_once"
   ],
   "note": ""
  },
  {
   "property": "C12",
   "status": "proved",
   "theorems": [
    "C12_exception_in_target",
    "C12_raised_by"
   ],
   "note": ""
  },
  {
   "property": "C13",
   "status": "proved",
   "theorems": [
    "C13_exceptions_stay",
    "C13_terminate"
   ],
   "note": ""
  },
  {
   "property": "C14",
   "status": "proved",
   "theorems": [
    "C14_assertions",
    "C14_ucontext_assertions",
    "C14_ucontext_assertion_met",
    "C14_ucontext_refuted"
   ],
   "note": ""
  },
  {
   "property": "C15",
   "status": "proved",
   "theorems": [
    "C15_move_construct",
    "C15_self_move",
    "C15_move_assign_empty",
    "C15_move_assign_unwinds",
    "C15_swap"
   ],
   "note": ""
  },
  {
   "property": "C16",
   "status": "proved",
   "theorems": [
    "C16_bool",
    "C16_less_order",
    "C16_less_distinct"
   ],
   "note": ""
  },
  {
   "property": "C17",
   "status": "proved",
   "theorems": [
    "C17_failed_allocation",
    "C17_nothing_lost"
   ],
   "note": ""
  },
  {
   "property": "C18",
   "status": "proved",
   "theorems": [
    "C18_callcc"
   ],
   "note": ""
  },
  {
   "property": "C19",
   "status": "proved",
   "theorems": [
    "C19_threads"
   ],
   "note": ""
  },
  {
   "property": "C20",
   "status": "proved",
   "theorems": [
    "C20_layout_fits",
    "C20_layout_fits_ucontext"
   ],
   "note": "fcontext and ucontext layout; precondition size >= sizeof(record)+319"
  },
  {
   "property": "C21",
   "status": "proved",
   "theorems": [
    "C21_preallocated"
   ],
   "note": ""
  },
  {
   "property": "C22",
   "status": "proved",
   "theorems": [
    "C22_undersized_stack_wraps",
    "C22_size_check_refuted"
   ],
   "note": "exact characterisation of the wrap plus witness that an undersized stack is accepted"
  },
  {
   "property": "C23",
   "status": "proved",
   "theorems": [
    "C23_protected_size",
    "C23_guard_page",
    "C23_overflow_is_stopped",
    "C23_stack_is_usable",
    "C23_windows_guard_refuted",
    "C23_overflow_refuted"
   ],
   "note": "for sizes that do not overflow (C23_overflow_refuted); Windows: PAGE_GUARD is one-shot, C23_windows_guard_refuted"
  },
  {
   "property": "C24",
   "status": "proved",
   "theorems": [
    "C24_alloc_history",
    "C24_allocate",
    "C24_deallocate",
    "C24_release_gives_back_block"
   ],
   "note": ""
  },
  {
   "property": "C25",
   "status": "proved",
   "theorems": [
    "C25_pool_lifetime",
    "C25_no_ub",
    "C25_effect",
    "C25_exhausted_pool_is_reported",
    "C25_constructor",
    "C25_naive_order_is_ub",
    "C25_failed_getcontext",
    "C25_failed_getcontext_rvalue_refuted"
   ],
   "note": "intrusive_ptr semantics as documented; reference count without wrap"
  },
  {
   "property": "C26",
   "status": "proved",
   "theorems": [
    "C26_jump_resumes_suspended_call",
    "C26_switch_creates_context",
    "C26_toc_pointer",
    "C26_ppc64_descriptor_fpr_refuted",
    "C26_mips64_gp_refuted",
    "C26_ppc64_fpr_refuted",
    "C26_x64_ms_tsx_refuted",
    "C26_arm_pe_fp_refuted",
    "C26_x32_jump_resumes_suspended_call"
   ],
   "note": "every port; what single ports lose is refuted separately"
  },
  {
   "property": "C27",
   "status": "proved",
   "theorems": [
    "C27_make_returns",
    "C27_first_jump_enters_function",
    "C27_argument_in_memory_is_safe",
    "C27_backtrace_ends_at_entry",
    "C27_entry_address_register",
    "C27_sparc64_source",
    "C27_toc_pointer",
    "C27_ppc64_descriptor_area_refuted",
    "C27_ppc32_xcoff_area_refuted",
    "C27_ppc64_macho_fn_refuted",
    "C27_ppc64_macho_refuted",
    "C27_ppc64_macho_stack_refuted",
    "C27_x86_macho_alignment_refuted",
    "C27_ppc32_macho_alignment_refuted",
    "C27_x64_guard_refuted",
    "C27_x32_first_jump_enters_function"
   ],
   "note": "every port; deviations of single ports are the _refuted theorems"
  },
  {
   "property": "C28",
   "status": "proved",
   "theorems": [
    "C28_ontop_enters_function_on_target",
    "C28_entry_address_register",
    "C28_ontop_return_completes_suspended_call",
    "C28_toc_pointer",
    "C28_ppc64_macho_refuted",
    "C28_arm64_pe_refuted",
    "C28_arm_pe_refuted",
    "C28_x32_ontop_enters_function_on_target"
   ],
   "note": "every port except arm/arm64 Windows, which are refuted"
  },
  {
   "property": "C29",
   "status": "proved",
   "theorems": [
    "C29_history_resume",
    "C29_history_ontop",
    "C29_history_first_entry"
   ],
   "note": "every port, any number of contexts"
  },
  {
   "property": "C30",
   "status": "proved",
   "theorems": [
    "C30_control_words_per_context",
    "C30_control_words_ontop",
    "C30_ppc32_xcoff_refuted",
    "C30_x64_guard_refuted",
    "C30_tsx_refuted"
   ],
   "note": "every port that switches control words; BOOST_USE_TSX and the x86_64 guard word refuted"
  },
  {
   "property": "C31",
   "status": "proved",
   "theorems": [
    "C31_traits_stable",
    "C31_maximum_iff_bounded",
    "C31_page_size_is_the_systems",
    "C31_limit_is_the_systems",
    "C31_minimum_constant",
    "C31_windows",
    "C31_default_constant",
    "C31_default_ge_minimum_refuted"
   ],
   "note": ""
  },
  {
   "property": "C32",
   "status": "proved",
   "theorems": [
    "C32_main_record_exists_while_initialized",
    "C32_nested_initializers",
    "C32_last_destructor"
   ],
   "note": ""
  },
  {
   "property": "C33",
   "status": "partial",
   "theorems": [
    "C33_life_partial",
    "C33_switch_partial",
    "C33_destroy_unstarted_refuted",
    "C33_inject_unstarted_refuted",
    "C33_resume_while_unwinding_refuted",
    "C33_resume_in_destructor_refuted",
    "C33_main_handle_lost_refuted"
   ],
   "note": "refuted as stated by concrete runs of the ucontext machine (P_UctxRef.v); proved for calm histories"
  },
  {
   "property": "C34",
   "status": "partial",
   "theorems": [
    "C34_release_partial",
    "C34_no_undefined_behaviour_partial",
    "C34_one_handle_partial",
    "C34_use_after_free_refuted"
   ],
   "note": "refuted in general (C34_use_after_free_refuted); release rule, absence of undefined behaviour and handle uniqueness proved for all calm histories"
  },
  {
   "property": "C35",
   "status": "partial",
   "theorems": [
    "C35_injected_once_partial",
    "C35_throwing_refuted",
    "C35_switching_refuted"
   ],
   "note": "refuted for throwing and for switching injected functions; exactly-once proved for all histories in which injected functions do neither"
  },
  {
   "property": "C36",
   "status": "partial",
   "theorems": [
    "C36_terminates_iff",
    "C36_touches_exactly",
    "C36_covers_strides_partial",
    "C36_every_line_refuted",
    "C36_termination_refuted"
   ],
   "note": "the stride is four cache lines: 'every cache line' refuted (C36_every_line_refuted); termination refuted near the end of the address space; exact touched set and exact termination condition proved"
  },
  {
   "property": "C37",
   "status": "proved",
   "theorems": [
    "C37_exchange",
    "C37_tuple_head_tail",
    "C37_tuple_size",
    "C37_apply",
    "C37_disable_overload"
   ],
   "note": ""
  },
  {
   "property": "C38",
   "status": "proved",
   "theorems": [
    "C38_pointer_halves",
    "C38_ilp32_packing"
   ],
   "note": ""
  },
  {
   "property": "C39",
   "status": "partial",
   "theorems": [
    "C39_shadow_roundtrip",
    "C39_shadow_size_refuted",
    "C39_shadow_size_exact"
   ],
   "note": "bookkeeping round trip proved; size proportionality refuted (C39_shadow_size_refuted)"
  },
  {
   "property": "C40",
   "status": "proved",
   "theorems": [
    "C40_return_terminates_process",
    "C40_mips64_refuted",
    "C40_x64_cet_refuted"
   ],
   "note": "every port except mips64 and x86_64 with shadow stacks, which are refuted"
  },
  {
   "property": "C41",
   "status": "proved",
   "theorems": [
    "C41_constructor"
   ],
   "note": ""
  },
  {
   "property": "C42",
   "status": "proved",
   "theorems": [
    "C42_winding_down_terminates",
    "C42_control_returns"
   ],
   "note": ""
  },
  {
   "property": "C43",
   "status": "proved",
   "theorems": [
    "C43_fresh_context_has_its_stack_bounds",
    "C43_fresh_context_has_no_fiber_data",
    "C43_resumed_context_has_its_tib",
    "C43_i386_fresh_exception_list"
   ],
   "note": ""
  },
  {
   "property": "C44",
   "status": "partial",
   "theorems": [
    "C44_failure_leaves_heap",
    "C44_whole_pages_leave_rest",
    "C44_other_sizes_overwrite",
    "C44_live_block_overwritten_refuted"
   ],
   "note": "proved for failure and for whole-page requests; refuted for other sizes (C44_other_sizes_overwrite, C44_live_block_overwritten_refuted): the MAP_FIXED mapping zeroes the rest of the last page"
  },
  {
   "property": "C45",
   "status": "proved",
   "theorems": [
    "C45_move_construct",
    "C45_self_move",
    "C45_swap",
    "C45_move_assign",
    "C45_resume",
    "C45_bool",
    "C45_construct",
    "C45_failed_allocation",
    "C45_release_captured",
    "C45_release_stack",
    "C45_release_complete",
    "C45_failed_getcontext",
    "C45_failed_getcontext_complete",
    "C45_hypotheses_met"
   ],
   "note": ""
  },
  {
   "property": "C46",
   "status": "partial",
   "theorems": [
    "C46_objects_partial",
    "C46_results_partial",
    "C46_exceptions_partial",
    "C46_hypotheses_met"
   ],
   "note": "Under the hypothesis calm (UctxSpec.v): nobody destroys a fiber that was not started, resumes from a context that is being unwound, or resumes a finished context. The theorems named C33_*_refuted show that the implementation violates the documentation without it."
  },
  {
   "property": "C47",
   "status": "proved",
   "theorems": [
    "C47_step",
    "C47_untouched"
   ],
   "note": ""
  },
  {
   "property": "C48",
   "status": "proved",
   "theorems": [
    "C48_no_control_protection_fault",
    "C48_shadow_stack_mirrors_calls",
    "C48_suspended_context_is_resumable",
    "C48_exhausted_only_by_nesting",
    "C48_ontop_on_fresh_context_refuted",
    "C48_nesting_limit",
    "C48_shadow_stack_too_small_refuted"
   ],
   "note": "instruction semantics as in the Intel SDM; findings: C48_ontop_on_fresh_context_refuted (C functions only), C48_shadow_stack_too_small_refuted (the 4 KiB shadow stack is exhausted by 512 nested calls)"
  },
  {
   "property": "C49",
   "status": "proved",
   "theorems": [
    "C49_winding_down_terminates",
    "C49_control_returns",
    "C49_terminate"
   ],
   "note": "no assumption about the user; std::terminate characterised exactly"
  },
  {
   "property": "C50",
   "status": "partial",
   "theorems": [
    "C50_runtime_follows_switches_partial",
    "C50_release_partial",
    "C50_suspended_partial",
    "C50_fake_stacks_never_released",
    "C50_fake_stack_leak_refuted",
    "C50_tsan_failed_getcontext_refuted",
    "C50_hypotheses_met"
   ],
   "note": "proved for well-behaved (calm) histories; the release of fake stacks and the failed-getcontext TSan case are false of the code and refuted"
  },
  {
   "property": "C51",
   "status": "partial",
   "theorems": [
    "C51_fibers_follow_contexts_partial",
    "C51_fibers_deleted_partial",
    "C51_thread_restored_partial",
    "C51_hypotheses_met",
    "C51_thread_restored_refuted",
    "C51_create_fails_refuted",
    "C51_convert_fails_refuted"
   ],
   "note": "proved for well-behaved (calm) histories; behaviour of the Windows API is an environment model; the false clauses are refuted"
  },
  {
   "property": "C52",
   "status": "proved",
   "theorems": [
    "C52_suspension",
    "C52_suspending_call",
    "C52_resume",
    "C52_inject",
    "C52_create",
    "C52_handle_values"
   ],
   "note": "links the fiber machine (L3) with the assembler machine (L2); the ontop theorem does not cover the two Windows arm ports (no ontop model there)"
  },
  {
   "property": "C53",
   "status": "proved",
   "theorems": [
    "C53_refines",
    "C53_placement",
    "C53_block_of_allocation",
    "C53_record_kept",
    "C53_create",
    "C53_exit_releases_own_stack",
    "C53_free",
    "C53_functor",
    "C53_code_on_own_stack",
    "C53_every_construction",
    "C53_every_exit"
   ],
   "note": "refines C52: the stack of each context is what create_fiber1/2 make of the allocator's block; the exit and functor theorems do not cover the two Windows arm ports (no ontop model there)"
  },
  {
   "property": "C54",
   "status": "proved",
   "theorems": [
    "C54_refines",
    "C54_accounting",
    "C54_allocate",
    "C54_deallocate",
    "C54_stack_accessible",
    "C54_every_placement"
   ],
   "note": "composes C53 with the allocator world of C24; pooled allocation is seen as a block of its own (C25 is about the pool's reference counts)"
  },
  {
   "property": "C55",
   "status": "proved",
   "theorems": [
    "C55_includes_atomic",
    "C55_completes",
    "C55_refines",
    "C55_refines_quiet",
    "C55_never_stuck",
    "C55_result",
    "C55_private",
    "C55_changes_own",
    "C55_no_race",
    "C55_resume",
    "C55_inject",
    "C55_enter",
    "C55_make"
   ],
   "note": "sequentially consistent memory; absence of races between routines is what carries this to weaker memory models"
  },
  {
   "property": "C56",
   "status": "proved",
   "theorems": [
    "C56_includes_immediate",
    "C56_handover",
    "C56_refines",
    "C56_never_stuck",
    "C56_reads_latest",
    "C56_result",
    "C56_resume",
    "C56_inject",
    "C56_enter",
    "C56_make"
   ],
   "note": "coherence order per byte, no order between bytes; load buffering is not in the model; the synchronization of a hand-over is a premise of the calls (w_make, w_first, w_call), C56_handover shows what it has to transport"
  },
  {
   "property": "C57",
   "status": "proved",
   "theorems": [
    "C57_jump",
    "C57_ontop",
    "C57_first_jump",
    "C57_make",
    "C57_without_interrupts",
    "C57_refines",
    "C57_suspension",
    "C57_resume",
    "C57_inject",
    "C57_create"
   ],
   "note": "sparc64 is excluded (no_windows): there an interrupt also spills register windows to frames above the stack pointer; handlers do not switch contexts; an alternate signal stack is the case of a handler that writes nothing below the stack pointer"
  },
  {
   "property": "C58",
   "status": "proved",
   "theorems": [
    "C58_shadow_jump_text",
    "C58_shadow_ontop_text",
    "C58_shadow_make_text",
    "C58_shadow_trampoline_text",
    "C58_listings_are_the_ports",
    "C58_configurations",
    "C58_every_file",
    "C58_jump_of_the_text",
    "C58_make_of_the_text",
    "C58_first_jump_of_the_text",
    "C58_ontop_of_the_text",
    "C58_sparc64_make_of_the_text",
    "C58_cases_occur",
    "C58_every_port_has_a_listing",
    "C58_every_port_is_built",
    "C58_guard_text",
    "C58_x86_64_on_i386_refuted"
   ],
   "note": "AsmText*.v hold the files byte for byte (tools/gen_asm_text.py); trusted are the tables of instructions AsmIsa*.v; configurations in l_other are not claimed (x86_64: stack guard together with BOOST_USE_TSX, shadow stacks or x32, shadow stacks with x32; mips without __PIC__); sparc64's make is the port's for even stack addresses (C58_sparc64_make_of_the_text)"
  },
  {
   "property": "C59",
   "status": "proved",
   "theorems": [
    "C59_unambiguous",
    "C59_selected_code",
    "C59_every_alternative",
    "C59_files_exist",
    "C59_arm64_clang_refuted",
    "C59_every_listing",
    "C59_untested",
    "C59_untested_targets",
    "C59_ppc32_tail",
    "C59_ppc32_tail_universal_refuted",
    "C59_cmake_code",
    "C59_cmake_m32_refuted",
    "C59_cmake_foreign_refuted",
    "C59_cmake_power_refuted",
    "C59_cmake_arm_gas_refuted",
    "C59_cmake_text",
    "C59_cmake_library",
    "C59_cmake_backend",
    "C59_defined_once",
    "C59_backend",
    "C59_default_stack",
    "C59_default_stack_refuted",
    "C59_backend_cygwin_refuted",
    "C59_forced_unwind_refuted",
    "C59_forced_unwind_fcontext",
    "C59_library_backend"
   ],
   "note": "BuildText.v holds build/Jamfile.v2, CMakeLists.txt, the headers and src/*.cpp byte for byte (tools/gen_build_text.py); Jam.v reads the Jamfile, Pp.v preprocesses the headers (definedness is tracked, value tests are arbitrary), Cm.v runs CMakeLists.txt (C59_cmake_text: for all values of its variables the run succeeds and its result is the model in Build.v); the exceptions named in the statement are the theorems ending in _refuted"
  }
 ]
}