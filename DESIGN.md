# Formal model of Azure/c-util in Rocq (Coq 8.16.1)

## Layout

`rocq/theories/` holds, for a module `X` of the library:

* `XModel.v`  - executable Gallina transcription of the C code, function by function, each definition citing file and lines; no proofs.
* `XSpec.v`   - a small specification written without looking at the model's helpers (sequences, finite maps, RFC tables, ...).
* `XProofs.v` - invariants, refinement and lemmas.
* `XProps.v`  - only the property theorems, each with `Print Assumptions` and a non-vacuity `Example`.

`Common.v` holds the shared vocabulary: 32/64-bit wrap, byte lists, the outcome type (`Done`, `Undef`, `NoFuel`) whose `Undef` constructor marks undefined
behaviour (out-of-bounds access, use after free, signed overflow, NULL dereference).

## Modelling conventions

* C integers are `Z` (or `N`/`nat` for lengths), with wrap-around (`mod 2^32`, `mod 2^64`) written where the code can reach it.
* Undefined behaviour is the distinct outcome `Undef`; theorems state that it is not reached, or exhibit a run that reaches it (`..._refuted`).
* Loops that have no structural bound run on fuel; theorems say that some fuel suffices (`NoFuel` is never the answer), or the loop is a `CoFixpoint` and
  theorems say that it finishes.
* Allocation (`malloc`, `realloc`, `THANDLE_MALLOC`, ...) takes its outcome from an oracle argument, so every theorem quantifies
  over all failure patterns.
* Pointer structures (linked lists) are heaps of cells; byte blocks are lists with bounds-checked access.
* Concurrent code is a transition system: one atomic step per interlocked operation / shared memory access, any number of
  threads; theorems range over all reachable states, i.e. all interleavings (sequentially consistent).
* c_pal / c_logging are not modelled; what is assumed of them is stated in the model file that uses them and listed below.

## Plan per property

| id | what is modelled | how it is proved |
|----|------------------|------------------|
| C01 | heap of DLIST_ENTRY cells, every DList function as field writes | ring predicate, each op preserves it and implements the sequence operation; histories by induction |
| C02 | DList_ForEach with an arbitrary state-changing action | induction on the remaining sequence; action may unlink/free its entry |
| C03 | heap of list nodes with head/tail | refinement to a sequence over all histories with malloc oracle |
| C04 | byte writes/reads of memory_data.c | arithmetic lemmas over div/mod, all values |
| C05 | encoder/decoder on bounds-checked byte blocks | RFC 4648 bit-string spec; induction on 3-byte groups |
| C06 | same decoder, all inputs | bounds invariants over loops; refutation for uninitialised bytes |
| C07 | parser and printer | exhaustive over hex digits lifted to lists; acceptance iff shape |
| C08 | ring of values, running sum, counters with int32/int64 range | invariant: ring = last window values; refutation past 2^31-1 adds |
| C09 | BUFFER handle = optional block, malloc oracle | refinement to byte lists |
| C10 | STRING handle = block with NUL | refinement to NUL-free byte lists; refutation for self-concat |
| C11 | STRING_new_JSON two passes | JSON string decoder spec; decode(encode)=id; exact size |
| C12-C14 | key/value vectors with rollback code | refinement to association list; filter refutation; JSON object decoder |
| C15 | transition system of refcounts with threads owning references | invariant: count = references held + views; all interleavings |
| C16-C18 | contents, slices, serialization, seal | list algebra over bounds-checked blocks |
| C19-C21 | arrays of buffer references with refcount ledger | sequence algebra; ledger balance over histories |
| C22 | header bytes + concatenation | round trip; refutation of the wrapped bound check |
| C23-C24 | splitter loops with 32-bit arithmetic | loop invariants; refutation of the wrapped count |
| C25 | scan loops over characters | spec split/join |
| C26 | ownership state machine | invariants over histories |
| C27 | last-dot / last-backslash search | spec over path components |
| C28 | futex lock transition system | inductive invariant over all interleavings |
| C29 | pointer arithmetic on addresses | div/mod arithmetic |
| C30 | CAS transition system | inductive invariant |
| C31 | token state machine, sequential and interleaved | sequential theorem; race refutation |
| C32 | registration list, lock-protected steps | refinement + inductive invariant |
| C33-C34 | channel.c with async_op's references and cancel state, any number of threads, one action per lock section or access | inductive invariant over all interleavings in restricted modes (`ChanSpec.v`); refutations for the rest |
| C35 | key list / object lists | refinement to map of stacks |
| C36-C38 | container macros | refinement, arithmetic |
| C39-C42 | worker threads, watchdog | transition-system invariants, refutations |
| C43-C44 | wrapper macros as state machines over environment behaviours | induction on traces |
| C45 | flag folding | list induction, bit lemmas |
| C46 | constbuffer_thandle.c as concurrent code over the same memory as C15 | separation logic, invariant: count = references held + views |
| C47 | fgets loop, line buffer, array of strings | induction on the output; specification by lines; refutations |
| C48 | the free loop over elements | list induction |
| C49 | enumeration loops over an arbitrary folder tree, allocation and answers arbitrary | induction on the listing; history of events |
| C50 | thread_notifications_dispatcher.c over reference-counted dispatchers | invariant over all histories of calls and notifications |
| C51 | the copy and free handlers of async_type_helper | refinement: values and reference ledger over histories |
| C52 | hash_compute_hash's argument checks, MurmurHash2 arbitrary | case analysis |
| C53 | destroy of both worker threads, over the models of C39 and C40 (Life.v: an object that its users destroy) | lifting of their invariants to states that know whether the memory is free; a simulation for the waiting |
| C54 | the reference count of the token, over the model of C31: users' references, those of registrations, the last one's dispose | the count is the number of references in hands, in calls and in registrations: invariant over all interleavings, on top of that of C31 |
| C55 | all of constbuffer_array.c as atomic steps over shared memory, with CONSTBUFFER as a counted struct (content, original) | one invariant for all shared structs (the count of each is the number of references to it, in hands, in arrays, in views); each call proved against it in the separation logic of Csl.v; what is left between calls read off the invariant |
| C56 | the dispatcher of C32 with the reference count of its THANDLE: RefsModel.v adds counted references to any concurrent system, DrcModel.v applies it to the dispatcher | every run of the counted system is a run of the one without, by a simulation in which the dispose call comes when no other call is running; the count is the number of references in hands and lent to calls |
| C57 | the token of C31 and C54 with the reference counts of its registrations: HrefModel.v adds counted references to the things that the calls of any concurrent system make, CthModel.v applies it to the token | every run of the counted system is a run of the one without, in which a registration is disposed of at the moment at which its last reference is given up; each count is the number of references in hands and lent to calls |
| C58 | the sliding window of C08 used by threads: the srw_lock, every reading and writing of a field an atomic action, an access without the lock undefined (SlcModel.v); references by RefsModel.v | a thread that holds the lock exclusively runs the call of SlidingModel.v on the fields, action by action; the invariant says that the fields stand for the values added whenever nobody holds it exclusively |
| C59 | creation, with any step failing, and destruction of channels, sliding windows, worker threads, tp worker threads, cancellation tokens and TARRAYs, as acquisitions and releases of memory, locks, state machines and references; releasing what does not exist is undefined (LedgerModel.v). Not modelled: targets left in a dispatcher (C32, C56), worker threads that are open when destroyed (C53), a TARRAY's cleanup function, other threads | an invariant over histories: the things that exist are those in the objects there, each in one of them, and the counts add up |
| C60 | the objects of C59 with the counts of their THANDLEs (LedrefModel.v); THANDLE itself is outside the repository and modelled as counting. Channels that are open when the last reference is given up are not modelled; for threads see C54, C56, C57 and C58 | an invariant: the objects of C59's invariant are those referenced, and each count is the number of references; then C59's lemmas |

## Trusted base

* Coq 8.16.1's kernel (with `vm_compute` for the concrete runs), `coqc` and the standard library, std++ and Iris as installed. Iris is used for its proof mode only:
  no theorem is stated in it.
* `Print Assumptions` says "Closed under the global context" for every theorem that MANIFEST.json names: no axioms at all. `coqchk -o` over the whole
  library lists the axioms of the loaded libraries (`Coq.ssr.ssrunder.Under_rel.*`, from ssreflect's `under` tactic); none of ours depends on them.
* The reading of the C code. The model is a transcription by hand; the code was never built or run. Every definition cites the lines that it models.
* What is assumed of code that is not in the repository (c_pal, the C library, the operating system, user callbacks): next section.

### Assumed of code outside the repository

* `malloc`, `realloc`, `THANDLE_MALLOC`, `REFCOUNT_TYPE_CREATE`, ...: succeed or fail as an arbitrary oracle says. `realloc` that succeeds always moves (any stale
  pointer is then an error). `memcpy(_, NULL, 0)` does nothing. Sources given by callers do not alias the module's own storage, except where this is the point (C10).
* `vsnprintf` (STRING_construct_sprintf): an arbitrary text and length. `sprintf_char` fails above INT_MAX characters. `PRI_UUID_T` prints the usual 8-4-4-4-12 format.
* Threads: sequentially consistent interleavings of the atomic actions listed at the head of each model. `srw_lock` is not recursive. `wait_on_address` returns when
  woken, when the value is another, or spuriously. `sm`, threadpool, timer, thread creation, InterlockedHL_*: as said at the head of the models that use them
  (`TpwModel.v`, `WthModel.v`, `WdogModel.v`, `RtwModel.v`, `SwrModel.v`, `ChanModel.v`).
* User callbacks do not call back the object that calls them (dispatcher, token, watchdog, tracker); map filters, match and action functions are functions of
  their arguments. A custom free function is modelled as freeing its context block (RC_PTR: context and pointer). The allocation callback of `to_buffer` is `malloc`.
* Reference counts are unbounded numbers. THANDLE_ASSIGN is "increment the new, then decrement the old"; THANDLE_MOVE changes variables only.
* Folders do not change while they are enumerated; an action that succeeds sets its out argument. `fgets`, `popen`, `pclose` behave as the C standard / POSIX say.
* The retry wrapper's clock is exact and in nanoseconds (doubles in the code). One call of a wrapper is modelled, with everything that follows from it.

### Modelled

Every `.c` file of `src/`, and the macros of `inc/c_util/` that generate code (tarray_ll, two_d_array_ll, paged_sparse_array_ll, tcall_dispatcher_ll, flags_to_string,
thandle_tuple_array, async_retry_wrapper, sync_wrapper, async_type_helper_*), except for what is listed next.

### Not modelled

* the message of a watchdog; logging; everything in `deps/`.
* MurmurHash2 (in `deps/`, absent): an arbitrary function of the bytes.
* Reference counts of TWO_D_ARRAY and PAGED_SPARSE_ARRAY handles (their contents are modelled; they are used while alive). Those of TARRAY are modelled apart from its contents (C60).
* The reference that a view made inside batcher / splitter keeps on its original (that is the model of C15, C46 and C55). C55's model of constbuffer_array assumes that a slice in bytes asks for at least one
  buffer (see C20 for none), that the handles in arrays passed by the caller are not NULL, and that counts do not wrap around; CbaModel (C19 to C21) is the same code in one thread.
* FLAGS_TO_STRING: the values of the flags, not the macro expansion that lists them. Overflow of a 64-bit `THANDLE_MALLOC_FLEX` size, except in async_op.
* `src/constbuffer_array_tarray.c`, `src/tcall_dispatcher_*_call.c`, `src/tarray.c`, `src/two_d_array.c`, `src/paged_sparse_array.c`, `src/tcall_dispatcher.c`: they only
  instantiate the macros, which are modelled for an arbitrary element type.
* Windows-only behaviour of `_LL` variants and compile-time checks.

## Findings

Places where the natural statement of a property is false of the code; each is a theorem `..._refuted` (or is said in the note of MANIFEST.json) with a concrete run.

| property | finding |
|----------|---------|
| C06 | base64 decode of malformed text such as `A===` returns a byte that was never written |
| C08 | the count of added values is 32-bit and wraps |
| C10 | concatenating a STRING with itself reads freed memory after realloc |
| C13 | the map's filter is lost when the last entry is deleted, when Add to an empty map fails and when an empty map is cloned |
| C18 | CONSTBUFFER_SealWritableHandle shares memory with the writable handle: writes after the seal are seen (CONSTBUFFER_THANDLE copies: the property holds there) |
| C20 | a slice of zero buffers reads outside of the array, or leaks references |
| C22 | unbatch: the 32-bit sum of the announced counts wraps and malformed batches are accepted |
| C23 | split: the number of pieces wraps to 0 for large totals, then writes out of bounds |
| C24 | split to arrays: the index of the loop wraps for an array of UINT32_MAX buffers, which then starts again and writes out of bounds; a total close to 2^32 is refused because the count of arrays wraps |
| C25 | split by char: 2^32 delimiters give the undivided string |
| C27 | `/` is not a separator: the suffix may go into a directory's name; names of 2^32 characters |
| C31 | a callback registered while the token is being cancelled may never be called |
| C33 | if threadpool_schedule_work fails, the peer's callback is lost and channel_close never returns |
| C34 | cancel after completion dereferences NULL; cancel while callbacks start dereferences NULL; a removed operation's stale successor is used after free; cancel races with close |
| C35 | register_object answers MU_FAILURE, not REGISTER_OBJECT_ERROR, on NULL arguments; act refuses a NULL key that register accepts; destroy keeps the structs of registered objects |
| C37 | the page size in bytes wraps at 2^64 |
| C39 | the result of threadpool_schedule_work_item is ignored: OK, but the function never runs |
| C40 | a close discards the run that a successful schedule_process asked for |
| C41 | watchdog_reset ignores the result of threadpool_timer_restart (assumed to succeed) |
| C42 | watchdog_threadpool_get racing with deinit uses a freed threadpool |
| C43 | if the expected answer is also in the retry list, the wrapper retries a call whose callback will come: use after free |
| C44 | if the wait fails, the wrapper returns and the callback then writes to a dead stack frame; the wake-up may use the address after the return |
| C47 | text after a lone carriage return is dropped; the pipe stays open when reading fails; a line of 2046 characters and CR LF gives an extra empty line |
| C50 | a notification or get_call_dispatcher that overlaps deinit uses a freed dispatcher |

## Wrong programs

`seeded/LOG.jsonl` has one line per edit of the model that stopped the build. Its fields mean:

* `first_failing_lemma` is what was observed: the build of the edited copy stops there, so later failures are not seen.
* `theorems_failed` is computed afterwards. With the basis "proof uses first_failing_lemma" it lists the theorems of MANIFEST.json whose proofs refer to that lemma, directly or through other
  lemmas, according to Coq's .glob files. Hints and instances do not appear there, so the list can be too short. The proof of a listed theorem no longer goes through; that its statement is false
  of the edited model is not shown by this. The basis "expected before the run" marks the few lines where the list is only what was expected.
* `source` is "written" for edits chosen by hand, with the claim they break, and "automatic" for edits made by a script (a comparison, a constant or a branch changed). For the automatic ones
  `claim_broken` only names properties of the files affected; nobody checked that the claim is false of that edit.

Edits that survived are not in the log except where a theorem was tightened. One is open: in ChanModel, leaving out the record of the cancel state in `cas_cancel` breaks no proof. It seems
to change nothing that can be observed, as a second cancel no longer finds the operation in the list, but this is not proved.
