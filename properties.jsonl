{"id": "C01", "title": "DList behaves as a sequence", "statement": "Starting from an initialised list head, any sequence of DList_InsertTailList, DList_InsertHeadList, DList_AppendTailList, DList_RemoveEntryList, DList_RemoveHeadList and DList_RemoveTailList leaves a circular list whose forward walk is exactly the sequence obtained by the corresponding list operations and whose backward walk is its reverse; IsListEmpty is true exactly on the empty sequence; RemoveEntryList's result is true exactly when the list becomes empty; entries not involved are not written.", "quantifier": "every well-formed list of any length, every entry position, every operation history, every heap outside the list", "why_tests_cant": "unit tests use lists of at most three entries; link corruption depends on the position and length", "anchors": [{"file": "src/doublylinkedlist.c", "symbols": ["DList_InitializeListHead", "DList_IsListEmpty", "DList_InsertTailList", "DList_InsertHeadList", "DList_AppendTailList", "DList_RemoveEntryList", "DList_RemoveHeadList", "DList_RemoveTailList"]}]}
{"id": "C02", "title": "DList_ForEach visits each entry once and tolerates removal of the current entry", "statement": "DList_ForEach calls the action on the entries in list order, each at most once, stops at the first action that fails (and then returns non-zero) or clears continueProcessing (and then returns zero), and still visits all remaining entries when the action unlinks and frees the entry it was given.", "quantifier": "every list length, every action behaviour (including removing the entry it is called with)", "why_tests_cant": "the space of callbacks and removal patterns is unbounded", "anchors": [{"file": "src/doublylinkedlist.c", "symbols": ["DList_ForEach"]}]}
{"id": "C03", "title": "SINGLYLINKEDLIST behaves as a sequence", "statement": "Any history of add, add_head, remove, remove_if, find, foreach, get_head_item, get_next_item on a SINGLYLINKEDLIST gives the results of the same history on a plain sequence, and a failed call (bad argument, allocation failure, item not in list) leaves the list unchanged; an item appended after any removal history (including removal of the last item) is found at the end.", "quantifier": "every operation history, every list length, every allocation-failure pattern, every predicate", "why_tests_cant": "stale tail pointers only show after particular removal/insert orders", "anchors": [{"file": "src/singlylinkedlist.c", "symbols": ["singlylinkedlist_add", "singlylinkedlist_remove", "singlylinkedlist_remove_if", "singlylinkedlist_foreach", "singlylinkedlist_find", "singlylinkedlist_add_head"]}]}
{"id": "C04", "title": "memory_data reads and writes are big-endian inverses", "statement": "write_uintN_t stores exactly N/8 bytes, most significant first, and read_uintN_t of those bytes returns the value written, for N in 8,16,32,64 and for the signed variants; read_uuid_t returns the 16 bytes unchanged; bytes outside the N/8 written are not touched.", "quantifier": "every value of every width, every surrounding memory content", "why_tests_cant": "2^64 values; tests try a handful of constants", "anchors": [{"file": "src/memory_data.c", "symbols": ["read_uint8_t", "read_uint16_t", "read_uint32_t", "read_uint64_t", "read_int16_t", "read_int32_t", "read_int64_t", "write_uint16_t", "write_uint32_t", "write_uint64_t", "read_uuid_t", "write_uuid_t"]}]}
{"id": "C05", "title": "Base64 encoding is RFC 4648 and decode inverts encode", "statement": "For every byte string, Azure_Base64_Encode_Bytes yields the RFC 4648 padded base64 text of it (length 4*ceil(n/3)), and Azure_Base64_Decode of that text yields a buffer with exactly the original bytes.", "quantifier": "every byte string of every length", "why_tests_cant": "round trip must hold for all contents and all three padding phases", "anchors": [{"file": "src/azure_base64.c", "symbols": ["Azure_Base64_Encode_Bytes", "Azure_Base64_Encode", "Azure_Base64_Decode", "Base64_Encode_Internal"]}]}
{"id": "C06", "title": "Base64 decode is memory safe and result-determined for any text", "statement": "For every NUL-terminated text, Azure_Base64_Decode reads no byte past the terminator, writes no byte outside the buffer it allocated, and either fails or returns a buffer all of whose bytes were computed from the text.", "quantifier": "every NUL-terminated string over all 256 character values, including malformed base64", "why_tests_cant": "malformed inputs are unbounded and out-of-bounds or uninitialised bytes are not visible to assertions", "anchors": [{"file": "src/azure_base64.c", "symbols": ["Azure_Base64_Decode", "Base64decode", "Base64decode_len", "numberOfBase64Characters", "base64toValue"]}]}
{"id": "C07", "title": "uuid text round trip and exact acceptance", "statement": "uuid_to_string produces the 36 character lower-case hex form with dashes at 8,13,18,23; uuid_from_string of it gives back the same 16 bytes; uuid_from_string succeeds exactly on strings whose first 36 characters have that shape (either hex case) and never reads past the terminator.", "quantifier": "every uuid, every NUL-terminated input string", "why_tests_cant": "16^32 uuids and unbounded malformed strings", "anchors": [{"file": "src/uuid_string.c", "symbols": ["uuid_from_string", "uuid_to_string"]}]}
{"id": "C08", "title": "Sliding window average is the mean of the last window values", "statement": "After any sequence of fewer than 2^31 successful sliding_window_average_by_count_add calls whose window sums (and differences new - evicted) fit in int64_t, get returns the double quotient (sum / count) of the last min(number of adds, window_count) values added, and 0.0 before any add. Exactly when the sequence leaves these limits the add that does so overflows a signed integer (undefined behaviour).", "quantifier": "every window size, every sequence of added values", "why_tests_cant": "depends on unbounded histories (ring wrap-around, counter overflow)", "anchors": [{"file": "src/sliding_window_average_by_count.c", "symbols": ["sliding_window_average_by_count_create", "sliding_window_average_by_count_add", "sliding_window_average_by_count_get"]}]}
{"id": "C09", "title": "BUFFER behaves as a byte string with atomic failure", "statement": "Any history of BUFFER_create/build/append_build/pre_build/content/size/enlarge/shrink/unbuild/append/prepend/fill/clone/u_char/length gives the observable contents of the same operations on byte strings; a call that returns failure leaves contents and length unchanged, for any pattern of allocation failures; no byte outside the owned block is read or written.", "quantifier": "every operation history, every content, every allocation-failure pattern", "why_tests_cant": "failure atomicity and bounds need all (size, failure point) combinations", "anchors": [{"file": "src/buffer.c", "symbols": ["BUFFER_create", "BUFFER_build", "BUFFER_append_build", "BUFFER_pre_build", "BUFFER_enlarge", "BUFFER_shrink", "BUFFER_append", "BUFFER_prepend", "BUFFER_fill", "BUFFER_clone", "BUFFER_unbuild"]}]}
{"id": "C10", "title": "STRING behaves as a C string with atomic failure", "statement": "Any history of STRING construct/clone/construct_n/concat/concat_with_STRING/copy/copy_n/quote/empty/replace/compare/length/c_str operations gives the observable text of the same operations on byte strings without NUL; the text is always NUL-terminated inside its block; a failed call leaves the text unchanged.", "quantifier": "every text, every history, every allocation-failure pattern, also when the two operands are the same handle", "why_tests_cant": "aliasing and failure points are unbounded", "anchors": [{"file": "src/strings.c", "symbols": ["STRING_construct", "STRING_clone", "STRING_construct_n", "STRING_concat", "STRING_concat_with_STRING", "STRING_copy", "STRING_copy_n", "STRING_quote", "STRING_empty", "STRING_replace", "STRING_compare", "STRING_new_quoted"]}]}
{"id": "C11", "title": "STRING_new_JSON yields a JSON string literal that decodes to the source", "statement": "STRING_new_JSON fails exactly on sources containing a byte >= 128 (or on allocation failure); otherwise the result is a valid JSON string literal which a JSON decoder maps back to exactly the source, and the bytes written fit exactly in the allocation.", "quantifier": "every NUL-terminated source string", "why_tests_cant": "exact allocation arithmetic and decodability over all byte combinations", "anchors": [{"file": "src/strings.c", "symbols": ["STRING_new_JSON"]}]}
{"id": "C12", "title": "MAP behaves as an insertion-ordered finite map with atomic failure", "statement": "Any history of Map_Add/AddOrUpdate/Delete/ContainsKey/ContainsValue/GetValueFromKey/GetInternals/Clone behaves as the same history on an insertion-ordered association list with distinct keys; failing calls (duplicate key, missing key, filter reject, allocation failure) leave the contents unchanged and return the documented code.", "quantifier": "every operation history, all keys and values, every allocation-failure pattern", "why_tests_cant": "rollback code runs only on mid-operation allocation failures", "anchors": [{"file": "src/map.c", "symbols": ["Map_Add", "Map_AddOrUpdate", "Map_Delete", "Map_Clone", "Map_ContainsKey", "Map_ContainsValue", "Map_GetValueFromKey", "Map_GetInternals"]}]}
{"id": "C13", "title": "A MAP's filter callback guards every insertion", "statement": "For a map created with a filter callback (or cloned from one), every later Map_Add / Map_AddOrUpdate consults the filter, so no rejected (key,value) pair is ever stored.", "quantifier": "every operation history on the map and its clones", "why_tests_cant": "the filter can be lost only after specific delete/failure histories", "anchors": [{"file": "src/map.c", "symbols": ["Map_Create", "Map_Add", "Map_AddOrUpdate", "Map_Delete", "Map_Clone", "Map_DecreaseStorageKeysValues"]}]}
{"id": "C14", "title": "Map_ToJSON emits a JSON object of the entries in order", "statement": "Map_ToJSON of a map whose keys and values are ASCII yields a JSON object text that decodes to exactly the map's entries in order; with any non-ASCII key or value it fails and returns NULL.", "quantifier": "every map content", "why_tests_cant": "escaping and separators over unbounded contents", "anchors": [{"file": "src/map.c", "symbols": ["Map_ToJSON"]}]}
{"id": "C15", "title": "CONSTBUFFER contents live exactly as long as references exist, under concurrency", "statement": "With any number of threads doing CONSTBUFFER_IncRef/DecRef/GetContent and creating views with CreateFromOffsetAndSize on references they own, no interleaving accesses a released buffer, the memory (and a custom free function) is released exactly once and only after the last reference to the buffer and to all views derived from it is dropped, and nothing leaks when all are dropped.", "quantifier": "every number of threads, every interleaving of atomic steps, every tree of views", "why_tests_cant": "schedules are unbounded; refcount races are not reproducible", "anchors": [{"file": "src/constbuffer.c", "symbols": ["CONSTBUFFER_IncRef", "CONSTBUFFER_DecRef", "CONSTBUFFER_CreateFromOffsetAndSize", "CONSTBUFFER_CreateWithCustomFree", "CONSTBUFFER_GetContent"]}]}
{"id": "C16", "title": "CONSTBUFFER views are exact slices", "statement": "CONSTBUFFER_CreateFromOffsetAndSize(h, offset, size) fails exactly when offset+size exceeds h's size (no wrap-around acceptance), and otherwise the result's content is bytes [offset, offset+size) of h; nested views compose; CONSTBUFFER_CONTAIN_SAME is true exactly for equal byte contents (or both NULL).", "quantifier": "every buffer, every 32-bit offset and size", "why_tests_cant": "2^64 offset/size pairs incl. wrap-around", "anchors": [{"file": "src/constbuffer.c", "symbols": ["CONSTBUFFER_CreateFromOffsetAndSize", "CONSTBUFFER_HANDLE_contain_same"]}, {"file": "src/constbuffer_thandle.c", "symbols": ["CONSTBUFFER_THANDLE_CreateFromOffsetAndSize", "CONSTBUFFER_THANDLE_contain_same"]}]}
{"id": "C17", "title": "CONSTBUFFER serialization round trip and rejection", "statement": "to_buffer / to_fixed_size_buffer write exactly get_serialization_size bytes (fixed: fail exactly when the destination is too small and then write nothing relevant); from_buffer of these bytes followed by anything returns an equal buffer and reports that exact number of consumed bytes; from_buffer fails on every input that is too short, has an unknown version or whose declared size exceeds the available bytes, never reading past the end.", "quantifier": "every content up to the serialisable size, every malformed input", "why_tests_cant": "all byte strings of all lengths", "anchors": [{"file": "src/constbuffer.c", "symbols": ["CONSTBUFFER_to_buffer", "CONSTBUFFER_to_fixed_size_buffer", "CONSTBUFFER_from_buffer", "CONSTBUFFER_get_serialization_size"]}, {"file": "src/constbuffer_thandle.c", "symbols": ["CONSTBUFFER_THANDLE_to_buffer", "CONSTBUFFER_THANDLE_from_buffer"]}, {"file": "inc/c_util/constbuffer_format.h", "symbols": []}]}
{"id": "C18", "title": "A sealed writable buffer's contents never change", "statement": "After CONSTBUFFER_SealWritableHandle / CONSTBUFFER_THANDLE_SealWritableHandle, the contents seen through the sealed handle are the bytes at the time of the seal, whatever is later written through the writable buffer pointer.", "quantifier": "every write history before and after sealing", "why_tests_cant": "depends on aliasing over unbounded write histories", "anchors": [{"file": "src/constbuffer.c", "symbols": ["CONSTBUFFER_SealWritableHandle", "CONSTBUFFER_GetWritableBuffer"]}, {"file": "src/constbuffer_thandle.c", "symbols": ["CONSTBUFFER_THANDLE_SealWritableHandle"]}]}
{"id": "C19", "title": "constbuffer_array operations are sequence operations", "statement": "constbuffer_array_create/create_empty/create_with_move_buffers/create_from_array_array/create_from_buffer_index_and_count/add_front/add_back/remove_front/remove_back/remove_empty_buffers/get_buffer/get_buffer_count/get_all_buffers_size/contain_same return exactly the sequence the operation denotes, leave their inputs unchanged, and fail exactly on the documented conditions (index ranges, 32-bit overflow of count or total size, allocation failure).", "quantifier": "every array, all 32-bit indices and counts, every allocation-failure pattern", "why_tests_cant": "overflow and range conditions over all 32-bit values", "anchors": [{"file": "src/constbuffer_array.c", "symbols": ["constbuffer_array_create", "constbuffer_array_create_from_array_array", "constbuffer_array_create_from_buffer_index_and_count", "constbuffer_array_add_front", "constbuffer_array_add_back", "constbuffer_array_remove_front", "constbuffer_array_remove_back", "constbuffer_array_remove_empty_buffers", "constbuffer_array_get_all_buffers_size", "CONSTBUFFER_ARRAY_HANDLE_contain_same"]}]}
{"id": "C20", "title": "constbuffer_array_create_from_buffer_offset_and_count is an exact slice", "statement": "On success the result's bytes are the requested sub-range: the selected buffers with start_buffer_offset bytes dropped from the first and the last cut to end_buffer_size; out-of-range requests fail; no memory outside the array is read and no reference is leaked.", "quantifier": "every array, all 32-bit arguments", "why_tests_cant": "corner cases (empty array, zero count) over all 32-bit arguments", "anchors": [{"file": "src/constbuffer_array.c", "symbols": ["constbuffer_array_create_from_buffer_offset_and_count"]}]}
{"id": "C21", "title": "constbuffer_array reference ownership is balanced", "statement": "For any history of constbuffer_array operations and any allocation-failure pattern, each constituent buffer holds exactly one reference per live array slot plus the caller's own references; once all arrays are released every buffer has exactly the caller's references left and every array block has been freed exactly once.", "quantifier": "every operation history, every failure pattern", "why_tests_cant": "leaks and double releases arise in unbounded histories and failure branches", "anchors": [{"file": "src/constbuffer_array.c", "symbols": ["constbuffer_array_create", "constbuffer_array_dec_ref", "constbuffer_array_create_from_buffer_index_and_count", "constbuffer_array_remove_front", "constbuffer_array_remove_empty_buffers"]}]}
{"id": "C22", "title": "Batching then unbatching constbuffer arrays is the identity", "statement": "constbuffer_array_unbatcher_nv_unbatch of constbuffer_array_batcher_nv_batch(payloads) returns the same payload arrays in order; unbatch either fails or returns payloads that all lie within the supplied buffers, for every input array however malformed.", "quantifier": "every list of payload arrays, every (malformed) header", "why_tests_cant": "headers range over all byte strings; 32-bit sums may wrap", "anchors": [{"file": "src/constbuffer_array_batcher_nv.c", "symbols": ["constbuffer_array_batcher_nv_batch", "constbuffer_array_batcher_nv_unbatch"]}]}
{"id": "C23", "title": "constbuffer_array_splitter_split preserves data and bounds every piece", "statement": "On success the concatenation of the resulting buffers equals the concatenation of the input, every resulting buffer but the last has exactly max_buffer_size bytes and the last has between 1 and max_buffer_size; on failure no reference is lost or kept.", "quantifier": "every buffer array, every 32-bit max_buffer_size", "why_tests_cant": "all size combinations incl. 32-bit overflow of the piece count", "anchors": [{"file": "src/constbuffer_array_splitter.c", "symbols": ["constbuffer_array_splitter_split"]}]}
{"id": "C24", "title": "constbuffer_array_splitter_split_to_array_of_array preserves data and bounds every array", "statement": "On success the concatenation of the resulting arrays' bytes equals the input's bytes, each array but the last has exactly max_size bytes and the last has at most max_size bytes, and the number of arrays is ceil(total/max_size) (one for empty input).", "quantifier": "every buffer array (any mixture of empty and large buffers), every 32-bit maximum", "why_tests_cant": "nested loop with carried state over all size combinations", "anchors": [{"file": "src/constbuffer_array_splitter.c", "symbols": ["constbuffer_array_splitter_split_to_array_of_array"]}]}
{"id": "C25", "title": "rc_string_utils_split_by_char splits and joins back", "statement": "The returned strings joined with the delimiter give the input, no returned string contains the delimiter, and the number of strings is one more than the number of delimiters; on any allocation failure NULL is returned and nothing is leaked.", "quantifier": "every string, every delimiter, every failure pattern", "why_tests_cant": "unbounded strings and delimiter placements", "anchors": [{"file": "src/rc_string_utils.c", "symbols": ["rc_string_utils_split_by_char"]}, {"file": "src/rc_string_array.c", "symbols": ["rc_string_array_create", "rc_string_array_destroy"]}]}
{"id": "C26", "title": "Reference counted strings and pointers release their resource exactly once", "statement": "For every history of assigning/moving/releasing references to an RC_STRING or RC_PTR (by any number of threads), the string stays readable and equal to its source while a reference exists, and the supplied free function is called exactly once, with the supplied context, when the last reference goes away; if creation fails the free function is never called.", "quantifier": "every history and interleaving of reference operations, every creation variant and failure", "why_tests_cant": "unbounded histories/schedules", "anchors": [{"file": "src/rc_string.c", "symbols": ["rc_string_create", "rc_string_create_with_move_memory", "rc_string_create_with_custom_free", "rc_string_recreate"]}, {"file": "src/rc_ptr.c", "symbols": ["rc_ptr_create_with_move_pointer"]}]}
{"id": "C27", "title": "filename_append_suffix inserts the suffix before the extension", "statement": "filename_append_suffix(f, s) returns f with s inserted immediately before the last '.' of the final path component if there is one, otherwise appended; it fails only on NULL arguments or allocation failure; path components are not altered.", "quantifier": "every file name (including directories with dots) and suffix", "why_tests_cant": "unbounded path shapes", "anchors": [{"file": "src/filename_helper.c", "symbols": ["filename_append_suffix"]}]}
{"id": "C28", "title": "critical_section gives mutual exclusion without lost wake-ups", "statement": "With any number of threads and any interleaving, at most one thread is between critical_section_enter and critical_section_leave, and whenever the section is free and some thread is blocked in enter, a wake-up is in flight or another thread is about to retry, so a waiter is not left asleep forever.", "quantifier": "every number of threads, every interleaving, spurious wake-ups included", "why_tests_cant": "schedules are unbounded", "anchors": [{"file": "src/critical_section.c", "symbols": ["critical_section_enter", "critical_section_leave"]}]}
{"id": "C29", "title": "async_op's context is aligned, in bounds, and maps back to the operation", "statement": "For every context size and power-of-two alignment accepted by async_op_create, the context pointer is a multiple of the alignment, the context lies inside the allocated block without overlapping the operation's own fields, and async_op_from_context of it returns the operation; sizes that would overflow are rejected.", "quantifier": "every base address, context size and alignment", "why_tests_cant": "address arithmetic over all sizes and addresses", "anchors": [{"file": "src/async_op.c", "symbols": ["async_op_create", "async_op_from_context", "get_next_aligned_address", "get_prev_aligned_with_size_address"]}]}
{"id": "C30", "title": "async_op_cancel invokes the cancel function at most once", "statement": "Whatever the number of threads calling async_op_cancel on the same operation, and whatever the interleaving, the cancel function runs at most once, and exactly once if at least one call completes while the operation is running.", "quantifier": "every number of threads, every interleaving", "why_tests_cant": "schedules are unbounded", "anchors": [{"file": "src/async_op.c", "symbols": ["async_op_cancel"]}]}
{"id": "C31", "title": "cancellation_token calls every registered callback exactly once", "statement": "Every callback whose registration succeeded before or after the token is cancelled and was not unregistered before the cancellation is called exactly once; cancelling twice fails without calling anything again; is_canceled is monotone.", "quantifier": "every history and every interleaving of register, unregister and cancel", "why_tests_cant": "races between registration and cancellation are schedule dependent", "anchors": [{"file": "src/cancellation_token.c", "symbols": ["cancellation_token_register_notify", "cancellation_token_cancel", "cancellation_token_is_canceled"]}]}
{"id": "C32", "title": "TCALL_DISPATCHER calls exactly the registered targets in registration order", "statement": "TCALL_DISPATCHER_DISPATCH_CALL calls every target registered and not yet unregistered at that time exactly once, in registration order with its own context; once unregister has returned, the target is never called again, under every interleaving.", "quantifier": "every history, every interleaving", "why_tests_cant": "unbounded registration histories and schedules", "anchors": [{"file": "inc/c_util/tcall_dispatcher_ll.h", "symbols": ["TCALL_DISPATCHER_LL_REGISTER_TARGET_DEFINE", "TCALL_DISPATCHER_LL_UNREGISTER_TARGET_DEFINE", "TCALL_DISPATCHER_LL_DISPATCH_CALL_DEFINE", "TCALL_DISPATCHER_LL_FREE_DEFINE"]}]}
{"id": "C33", "title": "channel matches pulls and pushes in FIFO order, each completed exactly once", "statement": "For any history of channel_push, channel_pull, cancellation and close, the i-th non-cancelled push is matched with the i-th non-cancelled pull; every accepted operation's callback runs exactly once, with OK and the matching data, or CANCELLED, or ABANDONED after close; at no time are both an unmatched push and an unmatched pull pending.", "quantifier": "every history of operations", "why_tests_cant": "histories are unbounded", "anchors": [{"file": "src/channel.c", "symbols": ["channel_push", "channel_pull", "channel_close", "channel_open", "cancel_op", "dequeue_operation", "enqueue_operation", "execute_callbacks", "abandon_pending_operations"]}]}
{"id": "C34", "title": "channel operations can be cancelled safely at any time", "statement": "Calling async_op_cancel on a channel operation is safe at any time while the caller holds a reference to it: before it is matched, while its callbacks are scheduled, and after it completed.", "quantifier": "every point in the operation's life at which cancel may arrive", "why_tests_cant": "schedule dependent", "anchors": [{"file": "src/channel.c", "symbols": ["cancel_op", "execute_callbacks", "dequeue_operation"]}]}
{"id": "C35", "title": "object_lifetime_tracker is a map from keys to stacks of objects", "statement": "Any history of register_object / unregister_object / act / destroy_all_objects_for_key behaves as a map from keys to registration-ordered object lists: destroy_all destroys exactly the objects registered under the key, each once, most recently registered first, and forgets the key; act calls its function exactly on registered pairs; result codes follow the documentation; a failed registration leaves the tracker unchanged.", "quantifier": "every history, all keys and objects, every allocation-failure pattern", "why_tests_cant": "unbounded histories and failure points", "anchors": [{"file": "src/object_lifetime_tracker.c", "symbols": ["object_lifetime_tracker_register_object", "object_lifetime_tracker_unregister_object", "object_lifetime_tracker_destroy_all_objects_for_key", "object_lifetime_tracker_act"]}]}
{"id": "C36", "title": "TARRAY_ENSURE_CAPACITY grows without losing data", "statement": "After a successful TARRAY_ENSURE_CAPACITY(n) the capacity is at least n (and less than twice n when it grew), earlier elements are unchanged, capacity never decreases; requests above 2^31 fail and failures leave the array unchanged; the growth computation never wraps and always terminates.", "quantifier": "every capacity and request, every allocation outcome", "why_tests_cant": "32-bit doubling over all capacities", "anchors": [{"file": "inc/c_util/tarray_ll.h", "symbols": ["TARRAY_LL_ENSURE_CAPACITY_DEFINE", "TARRAY_LL_CREATE_WITH_CAPACITY_DEFINE"]}]}
{"id": "C37", "title": "PAGED_SPARSE_ARRAY behaves as a partial map over indices", "statement": "Any history of ALLOCATE/RELEASE/GET behaves as a set of allocated indices below max_size: ALLOCATE succeeds exactly on unallocated in-range indices, GET on allocated ones, distinct indices get distinct storage inside their page, item_dispose_func is called exactly once per released or disposed element, and a page is freed exactly when its last element is released.", "quantifier": "every max_size/page_size, every history, every allocation outcome", "why_tests_cant": "bitmap and count bookkeeping over unbounded histories; size arithmetic over 64-bit values", "anchors": [{"file": "inc/c_util/paged_sparse_array_ll.h", "symbols": ["PAGED_SPARSE_ARRAY_LL_CREATE_DEFINE", "PAGED_SPARSE_ARRAY_LL_ALLOCATE_DEFINE", "PAGED_SPARSE_ARRAY_LL_RELEASE_DEFINE", "PAGED_SPARSE_ARRAY_LL_GET_DEFINE", "PAGED_SPARSE_ARRAY_LL_DISPOSE_DEFINE"]}]}
{"id": "C38", "title": "TWO_D_ARRAY rows are allocated, freed and read independently", "statement": "Any history of ALLOCATE_NEW_ROW/FREE_ROW/GET_ROW behaves as a partial map from row index to rows of col_size elements; operations on one row do not affect others; rows are freed exactly once, also by disposal.", "quantifier": "every size, every history, every allocation outcome", "why_tests_cant": "unbounded histories", "anchors": [{"file": "inc/c_util/two_d_array_ll.h", "symbols": ["TWO_D_ARRAY_LL_CREATE_DEFINE", "TWO_D_ARRAY_LL_ALLOCATE_NEW_ROW_DEFINE", "TWO_D_ARRAY_LL_FREE_ROW_DEFINE", "TWO_D_ARRAY_LL_GET_ROW_DEFINE"]}]}
{"id": "C39", "title": "tp_worker_thread runs its function after every schedule and never concurrently", "statement": "With any number of threads calling tp_worker_thread_schedule_process, the worker function never overlaps itself and every call that returned OK is followed by a start of the worker function that happens after the call began.", "quantifier": "every number of threads, every interleaving", "why_tests_cant": "schedules are unbounded", "anchors": [{"file": "src/tp_worker_thread.c", "symbols": ["tp_worker_thread_schedule_process", "on_threadpool_work", "tp_worker_thread_open"]}]}
{"id": "C40", "title": "worker_thread runs its function after every schedule", "statement": "Every worker_thread_schedule_process call that returned OK is followed by a run of the worker function that started after the call, unless prevented by nothing but termination of the process; in particular also when worker_thread_close is called later.", "quantifier": "every number of threads, every interleaving", "why_tests_cant": "schedules are unbounded", "anchors": [{"file": "src/worker_thread.c", "symbols": ["worker_thread_schedule_process", "worker_thread_func", "worker_thread_close", "internal_close"]}]}
{"id": "C41", "title": "watchdog calls its callback at most once per expiry and never after stop", "statement": "After watchdog_stop has returned the expired callback does not run and is not running; watchdog_reset waits for a callback that is running, and after it the callback is not called for an expiry of an earlier period; each started or reset period calls the callback at most once; all that under every interleaving of timer expiry, any number of concurrent resets, and stop.", "quantifier": "every interleaving of timer callback and API calls", "why_tests_cant": "timer races are schedule dependent", "anchors": [{"file": "src/watchdog.c", "symbols": ["watchdog_start", "watchdog_reset", "watchdog_stop", "watchdog_expired_callback"]}]}
{"id": "C42", "title": "watchdog_threadpool hands out the live threadpool only", "statement": "Under every interleaving of init, get and deinit, exactly one initialisation succeeds per deinit, and watchdog_threadpool_get returns either NULL or a reference to a threadpool that stays alive while that reference is held.", "quantifier": "every number of threads, every interleaving", "why_tests_cant": "schedules are unbounded", "anchors": [{"file": "src/watchdog_threadpool.c", "symbols": ["watchdog_threadpool_init", "watchdog_threadpool_get", "watchdog_threadpool_deinit"]}]}
{"id": "C43", "title": "async retry wrapper completes exactly once and respects backoff and timeout", "statement": "For every behaviour of the wrapped asynchronous function, if the wrapper returns OK then the user callback is called exactly once over all retries, if it returns an error the callback is never called; the context and copied arguments are freed exactly once; successive sleeps are 1,2,4,...,min(2^k,10000) ms; no sleep is started that would pass the timeout.", "quantifier": "every sequence of synchronous results, callback results, clock readings and scheduling outcomes", "why_tests_cant": "unbounded retry sequences", "anchors": [{"file": "inc/c_util/async_retry_wrapper.h", "symbols": ["GENERATE_ASYNC_RETRY_WRAPPER_FUNCTION", "GENERATE_ASYNC_RETRY_WRAPPER_CALLBACK", "GENERATE_ASYNC_RETRY_WRAPPER_EXECUTE_RETRY_FUNCTION"]}]}
{"id": "C44", "title": "sync wrapper returns only after the callback completed and never leaks out arguments", "statement": "The generated synchronous wrapper returns SYNC_WRAPPER_OK only after the completion callback stored all out arguments; if copying any out argument fails, all out arguments copied before it are freed exactly once and the error is returned; the callback never touches the wrapper's stack context after the wrapper returned.", "quantifier": "every number of out arguments, every copy outcome, every interleaving of callback and waiter", "why_tests_cant": "schedule dependent; unbounded argument lists", "anchors": [{"file": "inc/c_util/sync_wrapper.h", "symbols": ["GENERATE_SYNC_WRAPPER_FUNCTION", "GENERATE_SYNC_WRAPPER_CALLBACK"]}]}
{"id": "C45", "title": "FLAGS_TO_STRING names exactly the set flags", "statement": "FLAGS_TO_STRING(X)(v) lists, in declaration order and separated by ' | ', exactly those declared flags all of whose bits are set in v and not consumed by an earlier flag, followed by UNKNOWN_FLAG(0x...) exactly when other bits remain; with disjoint single-bit flags the union of the named bits and the unknown part is v.", "quantifier": "every flag declaration list, every 32-bit value", "why_tests_cant": "2^32 values times all declarations", "anchors": [{"file": "inc/c_util/flags_to_string.h", "symbols": ["FLAGS_TO_STRING_DEFINE_FUNCTION", "MAKE_SEPARATOR_AND_VALUE"]}]}
{"id": "C46", "title": "CONSTBUFFER_THANDLE ownership", "statement": "For CONSTBUFFER_THANDLE objects (copied, moved, custom free, views) any history of reference operations frees the underlying memory exactly once through the right free function, after the last reference to the buffer and all its views is dropped.", "quantifier": "every history of reference operations, every tree of views, every creation failure", "why_tests_cant": "unbounded histories", "anchors": [{"file": "src/constbuffer_thandle.c", "symbols": ["CONSTBUFFER_THANDLE_CreateWithMoveMemory", "CONSTBUFFER_THANDLE_CreateWithCustomFree", "CONSTBUFFER_THANDLE_CreateFromOffsetAndSize", "CONSTBUFFER_dispose"]}]}
{"id": "C47", "title": "external_command_helper_execute returns the command's lines", "statement": "On success the returned lines are exactly the lines of the command's output without their line terminators, in order, and the exit code is the command's; any line that does not fit the 2048-byte buffer or any failure yields an error with no lines returned and nothing leaked.", "quantifier": "every output text, every allocation outcome", "why_tests_cant": "unbounded outputs", "anchors": [{"file": "src/external_command_helper.c", "symbols": ["external_command_helper_execute"]}]}
{"id": "C48", "title": "thandle tuple arrays release every element exactly once", "statement": "THANDLE_TUPLE_ARRAY_CREATE yields count tuples with all handles NULL and DESTROY releases every handle stored in any tuple exactly once and frees the block once.", "quantifier": "every count and every assignment of handles to tuple fields", "why_tests_cant": "unbounded counts", "anchors": [{"file": "inc/c_util/thandle_tuple_array.h", "symbols": ["THANDLE_TUPLE_ARRAY_CREATE", "THANDLE_TUPLE_ARRAY_DESTROY"]}]}
{"id": "C49", "title": "for_each_in_folder / for_each_in_sub_folder visit each eligible entry once", "statement": "for_each_in_folder calls the action once per directory entry in enumeration order; for_each_in_sub_folder calls it once per entry of each sub-directory other than '.' and '..', one sub-directory after the other. Both stop on the first failure (returning non-zero). An action that asks to stop ends the enumeration of the folder it was called for (which is one sub-directory for for_each_in_sub_folder) and is not a failure. Every enumeration handle is closed and every string freed, exactly once.", "quantifier": "every directory content, every action behaviour", "why_tests_cant": "unbounded directories and callback behaviours", "anchors": [{"file": "src/for_each_in_folder.c", "symbols": ["for_each_in_folder"]}, {"file": "src/for_each_in_sub_folder.c", "symbols": ["for_each_in_sub_folder"]}]}
{"id": "C50", "title": "thread notifications reach exactly the registered functions", "statement": "Between a successful thread_notifications_dispatcher_init and deinit, every thread notification calls exactly the functions registered with the dispatcher that get_call_dispatcher returns, once each, in registration order, with the notification's reason; before and after, notifications do nothing. init fails, with no effect and nothing leaked, exactly when the module is already initialised or something cannot be created. A dispatcher obtained from get stays usable until the caller releases it, also after deinit, and is destroyed exactly when the last reference goes.", "quantifier": "every history and interleaving of init, deinit, get, register, unregister, release and notifications, every failure pattern", "why_tests_cant": "depends on the order of unboundedly many calls and on interleavings with operating-system threads", "anchors": [{"file": "src/thread_notifications_dispatcher.c", "symbols": ["thread_notifications_dispatcher_init", "thread_notifications_dispatcher_deinit", "thread_notifications_dispatcher_get_call_dispatcher", "thread_notifications_lackey_dll_cb"]}]}
{"id": "C51", "title": "the copy and free handlers of asynchronous calls make independent copies and balance references", "statement": "A copy handler (strings, arrays of CONSTBUFFER_ARRAY handles, ref-counted handles, THANDLEs, values) that succeeds stores in *dst a value equal to the source: a string of the same characters in its own block, an array of the same handles in its own block with one more reference to each, the same handle with one more reference, the same value. NULL is copied as NULL. It fails exactly when dst is NULL, when an array of zero items is asked for, or when memory runs out, and then no reference and no memory has changed hands. The matching free handler releases exactly what the copy took; freeing NULL does nothing.", "quantifier": "every history of copies, copies of copies and frees, mixed with any calls of the array module, every source, every failure of memory", "why_tests_cant": "references and blocks must balance over every history and every allocation failure, for strings and arrays of every length", "anchors": [{"file": "src/async_type_helper.c", "symbols": ["DEFINE_ASYNC_TYPE_HELPER_COPY_HANDLER", "constbuffer_array_ptr_copy", "constbuffer_array_ptr_free"]}, {"file": "inc/c_util/async_type_helper_ref_counted_handler.h", "symbols": ["DEFINE_ASYNC_TYPE_HELPER_REF_COUNTED_HANDLER"]}, {"file": "inc/c_util/async_type_helper_thandle_handler.h", "symbols": ["DEFINE_ASYNC_TYPE_HELPER_THANDLE_HANDLER"]}, {"file": "inc/c_util/async_type_helper_copy_value_handler.h", "symbols": ["DEFINE_ASYNC_TYPE_HELPER_COPY_VALUE_HANDLER"]}, {"file": "src/constbuffer_array_sync_wrapper.c", "symbols": []}]}
{"id": "C52", "title": "hash_compute_hash hashes exactly the given bytes", "statement": "hash_compute_hash succeeds exactly when buffer and hash are not NULL and 0 < length < INT_MAX; it then stores a hash that is a function of the first length bytes of the buffer only, and reads no other byte; when it fails it stores nothing.", "quantifier": "every buffer, every size_t length, every hash function", "why_tests_cant": "all lengths and contents", "anchors": [{"file": "src/hash.cpp", "symbols": ["hash_compute_hash"]}]}
{"id": "C53", "title": "destroying a worker thread leaves nothing behind", "statement": "tp_worker_thread_destroy and worker_thread_destroy may be called in any state, open or closed, as long as no user's call is in progress and none follows. Whatever the pool or the created thread is doing meanwhile, nothing uses the memory after it has been freed. When destroy returns, the worker thread is closed, the worker function is not running and will not run again, no work item is scheduled, the pool and the work item have been given back or the created thread has ended and been joined, and the memory has been freed once. While destroy waits, something can go on that it waits for.", "quantifier": "any number of threads, every history of calls before destroy, every interleaving with the pool's or the created thread", "why_tests_cant": "a use after free appears only when the thread that runs the function is at some particular instruction while destroy runs", "anchors": [{"file": "src/tp_worker_thread.c", "symbols": ["tp_worker_thread_destroy", "tp_worker_thread_close_internal", "tp_worker_on_threadpool_work"]}, {"file": "src/worker_thread.c", "symbols": ["worker_thread_destroy", "internal_close", "worker_thread_func"]}]}
{"id": "C54", "title": "a cancellation token lives exactly as long as it is needed", "statement": "A CANCELLATION_TOKEN is freed when, and only when, the last of the users' references to it and the last of the registrations made with it are gone, in whatever order that happens and whichever threads do it. As long as a user has a reference or a registration, or a call that was given the token is running, the token is there: a registration may be disposed of after the users have dropped their last reference to the token. No call touches the token after it has been freed, it is freed once, and at that moment nothing is registered with it and no callback of it is running. The answers and callbacks of calls are those of C31 meanwhile.", "quantifier": "any number of threads, references and registrations, every sequence of registering, cancelling, copying and dropping references and disposing of registrations, every interleaving, every failure of memory", "why_tests_cant": "a missing or superfluous reference shows only when the last two references are dropped by two threads at particular moments", "anchors": [{"file": "src/cancellation_token.c", "symbols": ["cancellation_token_dispose", "cancellation_token_registration_dispose", "cancellation_token_register_notify", "cancellation_token_create"]}, {"file": "inc/c_util/cancellation_token.h", "symbols": ["CANCELLATION_TOKEN"]}]}
{"id": "C55", "title": "arrays of constant buffers shared between threads", "statement": "Threads may use the same constbuffer_arrays, views of them, and the buffers in them at the same time, each thread needing only one reference through which it reaches what it names. An array reads as the same sequence of buffers with the same contents as long as somebody can reach it, whatever other threads do. Every call that makes an array (from handles, from a block of handles that is moved in, from part of another array, from a slice in bytes, by concatenation, by adding or removing at either end, without the empty buffers) gives exactly the sequence that the operation on sequences gives, or fails: because of its arguments, or because memory ran out, and then the caller still has what it had. Arrays, the blocks moved into them, and buffers are freed once, when the last reference to them is gone: the references of threads, of arrays, of views and of slices count. No call touches memory that is not there, and every call ends.", "quantifier": "any number of threads, every sequence of calls the interface allows, views of views of any depth, every interleaving of the accesses to memory, every failure of memory", "why_tests_cant": "a reference that is taken too late or dropped too early shows only when another thread drops the last one at a particular moment, for particular arrangements of views", "anchors": [{"file": "src/constbuffer_array.c", "symbols": ["constbuffer_array_create", "constbuffer_array_create_with_move_buffers", "constbuffer_array_create_from_buffer_index_and_count", "constbuffer_array_create_from_buffer_offset_and_count", "constbuffer_array_create_from_array_array", "constbuffer_array_add_front", "constbuffer_array_remove_back", "constbuffer_array_inc_ref", "constbuffer_array_dec_ref", "constbuffer_array_get_buffer", "constbuffer_array_remove_empty_buffers"]}, {"file": "inc/c_util/constbuffer_array.h", "symbols": ["CONSTBUFFER_ARRAY_HANDLE"]}]}
{"id": "C56", "title": "references to a call dispatcher", "statement": "A TCALL_DISPATCHER may be shared: any thread that has a reference may copy it, give it up, register and unregister targets and dispatch, at the same time as others. The dispatcher is disposed of by the call that gives up the last reference, and not while anybody has a reference or a register, unregister or dispatch is running; until then every history is as C32 says. Once no call is running it has been freed exactly if all references have been given up, and then the memory of every target, unregistered or not, has been freed too. No call touches a dispatcher that has been freed, and while a call waits another can go on.", "quantifier": "any number of threads, every sequence of copies, drops, registrations, unregistrations and dispatches, every interleaving of their atomic steps", "why_tests_cant": "a reference dropped in the middle of another thread's dispatch frees the dispatcher only under particular interleavings", "anchors": [{"file": "inc/c_util/tcall_dispatcher_ll.h", "symbols": ["TCALL_DISPATCHER_LL_FREE_DEFINE", "TCALL_DISPATCHER_LL_CREATE_DEFINE", "TCALL_DISPATCHER_LL_DISPATCH_CALL_DEFINE"]}]}
{"id": "C57", "title": "references to a cancellation registration", "statement": "A THANDLE(CANCELLATION_TOKEN_REGISTRATION) may be shared: whoever has a reference may copy it and give it up at any time, in any thread, also while the token is being canceled, registered with or given up. While anybody has a reference to a registration it stays registered and in memory, and its token exists. The call that gives up the last reference, and no other, disposes of the registration: it waits while a cancellation is calling callbacks, and once it has returned the callback is neither running nor ever called again, and nobody has a reference. Once no call is running, the registrations in memory are exactly those to which there are references, and the token has been freed exactly if there are no references to it and no registrations. No call touches a registration or token that has been freed, and while a call waits another can go on.", "quantifier": "any number of threads, registrations and references to each, every sequence of calls, copies and drops, every interleaving of their atomic steps", "why_tests_cant": "two threads giving up references to the same registration while a third cancels the token dispose of it twice, too early or never only under particular interleavings", "anchors": [{"file": "src/cancellation_token.c", "symbols": ["cancellation_token_registration_dispose", "cancellation_token_register_notify", "cancellation_token_cancel"]}, {"file": "inc/c_util/cancellation_token.h", "symbols": ["THANDLE(CANCELLATION_TOKEN_REGISTRATION)"]}]}
{"id": "C58", "title": "a sliding window average shared by threads", "statement": "Any number of threads may use one sliding window average at a time, each with a reference to it, and copy and give up references at any time. Every sliding_window_average_by_count_add with a handle answers 0 and takes effect once, at one moment between its call and its answer; every sliding_window_average_by_count_get with a handle and an out pointer answers the average of the last window_count values added up to some moment between its call and its answer, in the order in which they took effect; calls with NULL fail and change nothing. For values v with |v| * window_count < 2^62, added fewer than 2^31 times, nothing undefined happens: no data race, no overflow, no use of the window or its lock after they have been freed. The window is freed and its lock destroyed by the call that gives up the last reference, and not while a call is running. While a call waits for the lock another can go on.", "quantifier": "every window size, any number of threads and references, every sequence of calls, copies and drops, every interleaving of their atomic steps", "why_tests_cant": "a field read or written outside the lock, or a window freed under a running call, shows only under particular interleavings", "anchors": [{"file": "src/sliding_window_average_by_count.c", "symbols": ["sliding_window_average_by_count_add", "sliding_window_average_by_count_get", "sliding_window_average_by_count_dispose"]}, {"file": "inc/c_util/sliding_window_average_by_count.h", "symbols": ["THANDLE_TYPE_DECLARE(SLIDING_WINDOW_AVERAGE)"]}]}
{"id": "C59", "title": "creations that fail leave nothing behind", "statement": "channel_create, sliding_window_average_by_count_create, worker_thread_create, tp_worker_thread_create, cancellation_token_create and TARRAY_CREATE_WITH_CAPACITY succeed exactly if their arguments are valid and every allocation and every creation of a lock or state machine in them succeeds; otherwise they return NULL and leave nothing behind: no memory, no lock, no state machine, no reference to the threadpool, log context or execution engine passed in. Disposing of or destroying an object gives up everything its creation acquired, each thing once. So after any history of creations, successful or not, and destructions, exactly what the objects there own exists, and the reference counts are those from the start plus one for each reference that an object there holds.", "quantifier": "every history of creations and destructions of these six kinds of objects, every step of every creation failing or not, every number of objects sharing threadpools, log contexts and engines", "why_tests_cant": "a test fails one step of one creation with mocks; a leak or double release that shows in a later destruction, or by shared references, depends on the whole history", "anchors": [{"file": "src/channel.c", "symbols": ["channel_create", "channel_dispose"]}, {"file": "src/sliding_window_average_by_count.c", "symbols": ["sliding_window_average_by_count_create", "sliding_window_average_by_count_dispose"]}, {"file": "src/worker_thread.c", "symbols": ["worker_thread_create", "worker_thread_destroy"]}, {"file": "src/tp_worker_thread.c", "symbols": ["tp_worker_thread_create", "tp_worker_thread_destroy"]}, {"file": "src/cancellation_token.c", "symbols": ["cancellation_token_create", "cancellation_token_dispose"]}, {"file": "inc/c_util/tcall_dispatcher_ll.h", "symbols": ["TCALL_DISPATCHER_LL_CREATE_DEFINE", "TCALL_DISPATCHER_LL_FREE_DEFINE"]}, {"file": "inc/c_util/tarray_ll.h", "symbols": ["TARRAY_LL_CREATE_WITH_CAPACITY_AND_CLEANUP_INTERNAL_DEFINE", "TARRAY_LL_FREE_DEFINE"]}]}
{"id": "C60", "title": "shared objects exist exactly while there are references to them", "statement": "References to a channel, sliding window average, cancellation token or TARRAY may be copied and given up any number of times, in any order, also while others are created or fail to be created. As long as there is a reference to an object, everything its creation acquired exists: copying a reference, or giving one up while there is another, releases nothing. Giving up the last one releases all of it, and the references that the object holds to a threadpool or log context, each exactly once. Every reference that a user has can be copied and given up: nothing is used or released after it has been freed.", "quantifier": "every history of creations with any step failing, copies and references given up; any number of objects and of references to each; one thread", "why_tests_cant": "an object freed one reference too early or never shows only for particular sequences of copies and drops across several objects", "anchors": [{"file": "inc/c_util/channel.h", "symbols": ["THANDLE_TYPE_DECLARE(CHANNEL)"]}, {"file": "src/channel.c", "symbols": ["channel_create", "channel_dispose"]}, {"file": "inc/c_util/tarray_ll.h", "symbols": ["TARRAY_LL_ASSIGN", "TARRAY_LL_FREE_DEFINE"]}, {"file": "src/cancellation_token.c", "symbols": ["cancellation_token_create", "cancellation_token_dispose"]}, {"file": "src/sliding_window_average_by_count.c", "symbols": ["sliding_window_average_by_count_create", "sliding_window_average_by_count_dispose"]}]}
