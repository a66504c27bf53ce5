{
 "claims": [
  {
   "property": "C01",
   "status": "proved",
   "theorems": [
    "C01_dlist_histories",
    "C01_dlist_frame",
    "C01_dlist_walks"
   ],
   "note": "any history over any number of lists in one heap; heap-level model of doublylinkedlist.c"
  },
  {
   "property": "C02",
   "status": "proved",
   "theorems": [
    "C02_foreach_is_sequence_loop",
    "C02_foreach_tolerates_removal",
    "C02_foreach_null_args"
   ],
   "note": "arbitrary actions that do not relink unvisited entries; removal/free of the current entry"
  },
  {
   "property": "C03",
   "status": "proved",
   "theorems": [
    "C03_slist_histories",
    "C03_slist_no_leak"
   ],
   "note": "Whole API incl. create/destroy, malloc failures, arbitrary callbacks; memory exactly holds the sequences."
  },
  {
   "property": "C04",
   "status": "proved",
   "theorems": [
    "C04_writes_big_endian",
    "C04_reads_big_endian",
    "C04_round_trip",
    "C04_uuid_round_trip"
   ],
   "note": "All widths, signed and unsigned; surrounding bytes unchanged. The C shift of an int byte>=128 by 24 is given its two's complement result."
  },
  {
   "property": "C05",
   "status": "proved",
   "theorems": [
    "C05_encode_bytes_is_rfc4648",
    "C05_encode_buffer_is_rfc4648",
    "C05_encoded_length",
    "C05_decode_inverts_encode",
    "C05_null_args"
   ],
   "note": "All byte strings, all padding phases, allocation failures."
  },
  {
   "property": "C06",
   "status": "partial",
   "theorems": [
    "C06_decode_memory_safe",
    "C06_decode_failures",
    "C06_decode_exact_contents",
    "C06_decode_determined_partial",
    "C06_decode_determined_refuted"
   ],
   "note": "Memory safety proved for every text; exact contents for every text. The 'all bytes computed from the text' half is false of the code for malformed text (A=== returns an unwritten byte): refuted, and proved for well-formed text."
  },
  {
   "property": "C07",
   "status": "proved",
   "theorems": [
    "C07_from_string_decides_the_format",
    "C07_from_string_null_args",
    "C07_to_string_denotes",
    "C07_round_trip",
    "C07_to_string_failure"
   ],
   "note": "c_pal's PRI_UUID_T format is assumed (lower-case 8-4-4-4-12)"
  },
  {
   "property": "C08",
   "status": "proved",
   "theorems": [
    "C08_average_of_last_window",
    "C08_overflow_is_undefined",
    "C08_unbounded_use_refuted",
    "C08_create_and_null_args"
   ],
   "note": "holds while int64 sums and the int32 addition counter do not overflow; the exact bound is proved, and reaching it refuted as a finding"
  },
  {
   "property": "C09",
   "status": "proved",
   "theorems": [
    "C09_buffer_is_a_byte_sequence",
    "C09_no_leak",
    "C09_memory_is_owned"
   ],
   "note": "source arrays are caller memory distinct from the buffer's own storage"
  },
  {
   "property": "C10",
   "status": "proved",
   "theorems": [
    "C10_string_is_a_character_sequence",
    "C10_no_leak",
    "C10_memory_is_owned",
    "C10_self_concat_refuted"
   ],
   "note": "All of strings.c over a heap with failing allocations. Appending a string to itself is undefined behaviour (refuted), excluded from the allowed calls. vsnprintf is an oracle."
  },
  {
   "property": "C11",
   "status": "proved",
   "theorems": [
    "C11_new_JSON",
    "C10_string_is_a_character_sequence"
   ],
   "note": "The exact output is in the effect of NewJSON; the theorem reads it back with an independent JSON string reader."
  },
  {
   "property": "C12",
   "status": "proved",
   "theorems": [
    "C12_map_is_an_association_list",
    "C12_update_with_own_value_refuted"
   ],
   "note": "forward simulation by insertion-ordered association lists for any history, any failing allocations, no leak; the strings passed must be the caller's own (refuted otherwise)"
  },
  {
   "property": "C13",
   "status": "partial",
   "theorems": [
    "C13_filter_guards_partial",
    "C13_filter_lost_refuted"
   ],
   "note": "while the filter is in place nothing it rejects is stored; the full claim is false: the filter is lost on the last delete, on a failing Add to an empty map and on cloning an empty map"
  },
  {
   "property": "C14",
   "status": "proved",
   "theorems": [
    "C14_map_to_json"
   ],
   "note": "simulation statement: result reads as a JSON object with exactly the entries; NULL only for wide characters, size or allocation failure, with nothing leaked"
  },
  {
   "property": "C15",
   "status": "proved",
   "theorems": [
    "C15_contents_live_as_long_as_references"
   ],
   "note": "Any number of threads, any interleaving of atomic steps, any allocation failures. Release of custom-free memory is modelled as freeing the context block, so twice or never is a crash or a leak."
  },
  {
   "property": "C16",
   "status": "proved",
   "theorems": [
    "C16_views_are_slices",
    "C16_thandle_views_are_slices"
   ],
   "note": "CONSTBUFFER and CONSTBUFFER_THANDLE; a call that should succeed answers NULL only if an allocation failed during it."
  },
  {
   "property": "C17",
   "status": "proved",
   "theorems": [
    "C17_serialization_round_trip",
    "C17_thandle_serialization"
   ],
   "note": "CONSTBUFFER and CONSTBUFFER_THANDLE; the caller's alloc function is modelled as malloc."
  },
  {
   "property": "C18",
   "status": "partial",
   "theorems": [
    "C18_sealed_contents_change_refuted",
    "C18_seal_partial",
    "C18_thandle_seal_copies"
   ],
   "note": "False of CONSTBUFFER_SealWritableHandle, whose sealed handle shares the writable handle's memory: refuted by a run; proved there for callers that keep no pointer into the sealed buffer. CONSTBUFFER_THANDLE copies when it seals, so the property holds of it: C18_thandle_seal_copies."
  },
  {
   "property": "C19",
   "status": "proved",
   "theorems": [
    "C19_sequence_operations"
   ],
   "note": "All functions of constbuffer_array.c over a heap with reference counts and failing allocations refine operations on sequences."
  },
  {
   "property": "C20",
   "status": "partial",
   "theorems": [
    "C20_slice_partial",
    "C20_empty_array_refuted",
    "C20_no_buffers_refuted",
    "C20_no_buffers_leak_refuted"
   ],
   "note": "Proved for slices of at least one buffer. With buffer_count 0 the code reads outside the array or leaks two references: refuted by concrete runs."
  },
  {
   "property": "C21",
   "status": "partial",
   "theorems": [
    "C21_references_partial",
    "C20_no_buffers_leak_refuted"
   ],
   "note": "Proved for every history without slices of no buffers (those leak, see C20_no_buffers_leak_refuted), every failure pattern."
  },
  {
   "property": "C22",
   "status": "partial",
   "theorems": [
    "C22_round_trip",
    "C22_unbatch_partial",
    "C22_wrap_refuted"
   ],
   "note": "Round trip proved in full. unbatch of a malformed batch is proved whenever the 32-bit sum of announced counts does not wrap; where it wraps the claim is false of the code (C22_wrap_refuted)."
  },
  {
   "property": "C23",
   "status": "partial",
   "theorems": [
    "C23_split_partial",
    "C23_wrap_refuted"
   ],
   "note": "proved for every array and maximum except when total bytes + max - 1 exceeds UINT32_MAX, where the piece count wraps to 0 and the code writes out of bounds (C23_wrap_refuted)"
  },
  {
   "property": "C24",
   "status": "partial",
   "theorems": [
    "C24_split_to_arrays_partial",
    "C24_index_wraps_refuted",
    "C24_number_of_pieces"
   ],
   "note": "Proved for every array of fewer than UINT32_MAX buffers, and of UINT32_MAX buffers if their bytes are at most max or not a multiple of max. Otherwise it is false: the index of the loop wraps and the result is written out of bounds (C24_index_wraps_refuted)."
  },
  {
   "property": "C25",
   "status": "partial",
   "theorems": [
    "C25_split_and_join_partial",
    "C25_null",
    "C25_too_many_delimiters_refuted",
    "C26_freed_once_after_last_reference"
   ],
   "note": "Fewer than 2^32-1 delimiters. The number of parts is kept in 32 bits: with 2^32 delimiters the string comes back undivided (refuted)."
  },
  {
   "property": "C26",
   "status": "proved",
   "theorems": [
    "C26_freed_once_after_last_reference",
    "C26_strings_and_pointers"
   ],
   "note": "A custom free function is modelled as freeing the context block (for RC_PTR: the context and the pointer)."
  },
  {
   "property": "C27",
   "status": "partial",
   "theorems": [
    "C27_append_suffix_partial",
    "C27_null_args",
    "C27_slash_refuted",
    "C27_very_long_name_refuted"
   ],
   "note": "Proved for backslash-separated paths of at most INT_MAX characters; false for '/' (suffix goes into a directory name) and for names of 2^32 characters: both refuted with witnesses."
  },
  {
   "property": "C28",
   "status": "proved",
   "theorems": [
    "C28_mutual_exclusion",
    "C28_no_lost_wake_up",
    "C28_no_deadlock"
   ],
   "note": "critical_section.c, any number of threads, every interleaving (sequentially consistent), spurious wake-ups; wait_on_address/wake_by_address_single as documented"
  },
  {
   "property": "C29",
   "status": "proved",
   "theorems": [
    "C29_context_layout",
    "C29_create_refuses"
   ],
   "note": "All addresses, sizes, alignments, memory contents."
  },
  {
   "property": "C30",
   "status": "proved",
   "theorems": [
    "C30_cancel_at_most_once",
    "C30_cancel_exactly_once"
   ],
   "note": "async_op.c:137-168; exactly-once holds once the calls made have returned (a losing call may return before the winning call has run the cancel function, see ex_two_cancel)"
  },
  {
   "property": "C31",
   "status": "partial",
   "theorems": [
    "C31_token_partial",
    "C31_exactly_once_partial",
    "C31_exactly_once_refuted",
    "C31_registration_order",
    "C31_no_deadlock",
    "C31_memory",
    "C31_create"
   ],
   "note": "any number of threads, all interleavings; a registration made while the token is being canceled may never be called back (refuted with a run); everything else of the property is proved"
  },
  {
   "property": "C32",
   "status": "proved",
   "theorems": [
    "C32_dispatch",
    "C32_registration_order",
    "C32_no_deadlock",
    "C32_memory"
   ],
   "note": "any number of threads, all interleavings; specification in DispSpec.v"
  },
  {
   "property": "C33",
   "status": "partial",
   "theorems": [
    "C33_events_ok_partial",
    "C33_not_both_partial",
    "C33_all_called_back_partial",
    "C33_close_waits_partial",
    "C33_threadpool_failure_refuted",
    "C33_close_hangs_refuted"
   ],
   "note": "Proved for any number of threads and any schedule, if the threadpool accepts all work and operations are either not cancelled, or their handles kept and cancelled only before the callbacks start and not during close. False otherwise: if threadpool_schedule_work fails the peer's callback is lost and channel_close never returns."
  },
  {
   "property": "C34",
   "status": "partial",
   "theorems": [
    "C34_cancel_safe_partial",
    "C34_after_completion_refuted",
    "C34_successor_refuted",
    "C34_while_closing_refuted",
    "C34_callbacks_start_refuted"
   ],
   "note": "Safe before the match and while callbacks are scheduled but not started, with no close in progress and all handles kept. False as stated: four reachable crashes, the first after completion (the operation's channel is NULL)."
  },
  {
   "property": "C35",
   "status": "partial",
   "theorems": [
    "C35_tracker_is_a_map_partial",
    "C35_documented_register_arguments_refuted",
    "C35_destroy_keeps_objects"
   ],
   "note": "Every sequence of calls, every allocation-failure pattern. Partial: register_object on NULL arguments returns MU_FAILURE, not the documented REGISTER_OBJECT_ERROR (refuted); act refuses the NULL key that register accepts; destroy keeps the structs of registered objects."
  },
  {
   "property": "C36",
   "status": "proved",
   "theorems": [
    "C36_tarray_grows_without_losing_data",
    "C36_ensure_capacity"
   ],
   "note": "TARRAY: refinement to lists for every history of create/ensure_capacity/get/set/free and every allocation outcome; THANDLE reference count not modelled"
  },
  {
   "property": "C37",
   "status": "partial",
   "theorems": [
    "C37_partial_map_partial",
    "C37_allocate",
    "C37_dispose_once",
    "C37_page_size_wraps_refuted",
    "C37_oversized_refused"
   ],
   "note": "PAGED_SPARSE_ARRAY: refinement to partial maps with addresses, page accounting and dispose calls, for every history and allocation outcome, when the size of a page in bytes fits 64 bits; refuted without that (line 232 wraps); THANDLE reference count not modelled"
  },
  {
   "property": "C38",
   "status": "proved",
   "theorems": [
    "C38_rows_are_a_partial_map",
    "C38_rows_are_independent"
   ],
   "note": "TWO_D_ARRAY: refinement to partial maps for every history and every allocation outcome; THANDLE reference count not modelled"
  },
  {
   "property": "C39",
   "status": "partial",
   "theorems": [
    "C39_never_overlaps",
    "C39_run_follows_partial",
    "C39_no_deadlock_partial",
    "C39_closed_is_quiet",
    "C39_create",
    "C39_run_follows_refuted",
    "C39_no_deadlock_refuted"
   ],
   "note": "The result of threadpool_schedule_work_item is ignored: when it fails the call answers OK, the function never runs and calls may wait for ever (refuted). Proved as long as no such failure has happened."
  },
  {
   "property": "C40",
   "status": "partial",
   "theorems": [
    "C40_never_overlaps",
    "C40_run_follows_partial",
    "C40_no_deadlock",
    "C40_closed_is_quiet",
    "C40_create",
    "C40_run_follows_refuted"
   ],
   "note": "A close that comes after a schedule_process that answered OK discards the pending run (refuted). Proved for runs that are due while the worker thread stays open."
  },
  {
   "property": "C41",
   "status": "proved",
   "theorems": [
    "C41_callback",
    "C41_no_deadlock",
    "C41_between_calls"
   ],
   "note": "Any number of threads. Assumes of c_pal's timer that cancelling it, and giving it up, waits for the expiries being dealt with and calls off the others; that restart succeeds (watchdog_reset ignores its result); and the protocol: stop is called once, alone."
  },
  {
   "property": "C42",
   "status": "partial",
   "theorems": [
    "C42_one_threadpool_partial",
    "C42_no_leak_partial",
    "C42_get_alive_refuted"
   ],
   "note": "Proved for every number of threads and every interleaving in which get does not overlap deinit; C42_get_alive_refuted shows that without that restriction (which no requirement states) get uses a freed threadpool, so the unrestricted statement is false of the code."
  },
  {
   "property": "C43",
   "status": "proved",
   "theorems": [
    "C43_events_ok",
    "C43_error_no_callback",
    "C43_all_done",
    "C43_expected_also_retried_refuted"
   ],
   "note": "For configurations whose expected answer is not one to retry on (needed: C43_expected_also_retried_refuted). The clock is in exact nanoseconds instead of doubles; one call of the wrapper is modelled, calls share nothing."
  },
  {
   "property": "C44",
   "status": "partial",
   "theorems": [
    "C44_events_ok_partial",
    "C44_waits_for_callback",
    "C44_wait_may_fail_refuted",
    "C44_wakes_after_return"
   ],
   "note": "Proved for executions in which InterlockedHL_WaitForValue does not fail. If it fails, the wrapper returns SYNC_WRAPPER_OTHER_ERROR and the callback then writes to the dead stack context (C44_wait_may_fail_refuted). The wake-up may use the address of the context after the wrapper returned (C44_wakes_after_return)."
  },
  {
   "property": "C45",
   "status": "proved",
   "theorems": [
    "C45_names_the_set_flags",
    "C45_listed_and_unknown_make_the_value"
   ],
   "note": "All declaration lists and 32-bit values; FLAG_VALUE taken as a value, not as macro text."
  },
  {
   "property": "C46",
   "status": "proved",
   "theorems": [
    "C46_memory_freed_once_after_last_reference",
    "C46_creating_calls"
   ],
   "note": "CONSTBUFFER_THANDLE modelled function by function as concurrent code; the custom free function is modelled as freeing its context block."
  },
  {
   "property": "C47",
   "status": "partial",
   "theorems": [
    "C47_lines_partial",
    "C47_no_line_lost",
    "C47_errors",
    "C47_text_after_carriage_return_lost_refuted",
    "C47_pipe_left_open_refuted",
    "C26_freed_once_after_last_reference"
   ],
   "note": "For output without stray carriage returns. Text after a carriage return inside a line is dropped without an error (refuted); the pipe is not closed when reading from it fails (refuted)."
  },
  {
   "property": "C48",
   "status": "proved",
   "theorems": [
    "C48_tuple_arrays",
    "C26_freed_once_after_last_reference"
   ],
   "note": "Handles in the tuples are RC_STRING and RC_PTR references."
  },
  {
   "property": "C49",
   "status": "proved",
   "theorems": [
    "C49_folder",
    "C49_folder_calls",
    "C49_sub_folder",
    "C49_null",
    "C49_closed"
   ],
   "note": "For every directory content, every (history-dependent) behaviour of the action and every allocation pattern. The contents of a folder do not change while it is enumerated; the action sets its out argument when it succeeds."
  },
  {
   "property": "C50",
   "status": "partial",
   "theorems": [
    "C50_notifications_partial",
    "C50_no_leak_partial",
    "C50_notification_during_deinit_refuted",
    "C50_get_during_deinit_refuted"
   ],
   "note": "Any number of threads, every interleaving in which init and deinit overlap neither each other nor get, and no notification overlaps deinit. Without that the code uses a freed dispatcher (two refutations); callers cannot prevent a notification from overlapping deinit."
  },
  {
   "property": "C51",
   "status": "proved",
   "theorems": [
    "C51_copy_and_free",
    "C51_thandle",
    "C51_values"
   ],
   "note": "handlers over the heap of constbuffer_array; one thread; THANDLE handler instantiated with array handles"
  },
  {
   "property": "C52",
   "status": "proved",
   "theorems": [
    "C52_hash",
    "C52_same_bytes"
   ],
   "note": "MurmurHash2 is an arbitrary function of the bytes"
  },
  {
   "property": "C53",
   "status": "partial",
   "theorems": [
    "C53_tp_no_use_after_free",
    "C53_tp_destroyed",
    "C53_tp_no_deadlock_partial",
    "C53_no_use_after_free",
    "C53_destroyed",
    "C53_no_deadlock"
   ],
   "note": "Calls made from within the worker function count as users' calls. C53_tp_no_deadlock_partial assumes that no scheduling of a work item has failed; without that it is refuted by C39_no_deadlock_refuted."
  },
  {
   "property": "C54",
   "status": "proved",
   "theorems": [
    "C54_no_use_after_free",
    "C54_freed_only_when_unused",
    "C54_freed_when_unused",
    "C54_no_deadlock"
   ],
   "note": "The registrations' own reference counts are not modelled: a registration is disposed of by the call that gives up its last reference. Callbacks do not call back into the token."
  },
  {
   "property": "C55",
   "status": "proved",
   "theorems": [
    "C55_arrays_freed_once_after_last_reference",
    "C55_creating_calls",
    "C55_reading_calls"
   ],
   "note": "constbuffer_array used from several threads; slices in bytes of at least one buffer"
  },
  {
   "property": "C56",
   "status": "proved",
   "theorems": [
    "C56_histories",
    "C56_not_before_last_reference",
    "C56_freed",
    "C56_no_deadlock"
   ],
   "note": "The reference count is that of THANDLE (c_pal): one atomic step each for an increment and a decrement. Targets do not call their own dispatcher."
  },
  {
   "property": "C57",
   "status": "proved",
   "theorems": [
    "C57_histories",
    "C57_there_while_referenced",
    "C57_disposed_of_after_last",
    "C57_disposed_of_with_last",
    "C57_no_deadlock"
   ],
   "note": "Over the models of C31 and C54. Each change of a count is one atomic action; the dispose function is called in the action that decrements the count to 0. The callbacks are those of C31: they do not call the token they are called by."
  },
  {
   "property": "C58",
   "status": "proved",
   "theorems": [
    "C58_histories",
    "C58_histories_with_null",
    "C58_not_before_last_reference",
    "C58_freed",
    "C58_no_deadlock"
   ],
   "note": "every interleaving; values within the stated limits (C08 has the exact limits for one thread)"
  },
  {
   "property": "C59",
   "status": "proved",
   "theorems": [
    "C59_nothing_else_exists",
    "C59_create",
    "C59_destroy"
   ],
   "note": "all histories of creations and destructions, sequential; every step of a creation may fail"
  },
  {
   "property": "C60",
   "status": "proved",
   "theorems": [
    "C60_exists_while_referenced",
    "C60_defined",
    "C60_not_before_last",
    "C60_last"
   ],
   "note": "all histories of creations, copies and drops, one thread; THANDLE modelled as a count"
  }
 ]
}