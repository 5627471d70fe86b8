{
 "claims": [
  {
   "property": "C01",
   "status": "proved",
   "theorems": [
    "C01_list_is_sequence"
   ],
   "note": "All legal histories over any number of list objects and elements."
  },
  {
   "property": "C02",
   "status": "partial",
   "theorems": [
    "C02_list_move_partial",
    "C02_list_move_refuted"
   ],
   "note": "True for non-empty sources. False for empty sources: the two heads end up pointing at each other, proved for every state."
  },
  {
   "property": "C03",
   "status": "proved",
   "theorems": [
    "C03_table_histories",
    "C03_table_order"
   ],
   "note": "All legal histories, any load factor rule, bucket limit and reserve rule."
  },
  {
   "property": "C04",
   "status": "proved",
   "theorems": [
    "C04_table_move"
   ],
   "note": "Also covered as an operation inside the histories of C03."
  },
  {
   "property": "C05",
   "status": "partial",
   "theorems": [
    "C05_is_linked_partial",
    "C05_is_linked_refuted"
   ],
   "note": "False in the code: the last linked element reports not linked, and clear() leaves stale links. The exact meaning without clear() is proved."
  },
  {
   "property": "C06",
   "status": "proved",
   "theorems": [
    "C06_queue_halves"
   ],
   "note": "All event sequences."
  },
  {
   "property": "C07",
   "status": "proved",
   "theorems": [
    "C06_queue_halves"
   ],
   "note": "Last conjunct: the evicted elements are the reversed cold suffix."
  },
  {
   "property": "C08",
   "status": "proved",
   "theorems": [
    "C08_hit_is_recent_and_protected"
   ],
   "note": "All event sequences."
  },
  {
   "property": "C09",
   "status": "partial",
   "theorems": [
    "C09_handles_partial",
    "C09_reset_refuted",
    "C09_assign_null_refuted",
    "C09_reset_to_refuted"
   ],
   "note": "True without reset()/=nullptr on a shared handle and reset(p) on a non-null handle. Those are wrong in the code."
  },
  {
   "property": "C10",
   "status": "proved",
   "theorems": [
    "C10_memory_safe"
   ],
   "note": "All fine histories (Histories.v): element constructors do not throw, callbacks run during a delivery do not modify the cache. Outside that class see C37 and C41."
  },
  {
   "property": "C45",
   "status": "partial",
   "theorems": [
    "C45_inserted_partial",
    "C45_inserted_refuted",
    "C45_one_refuted"
   ],
   "note": "Proved when the table holds at most 2n-2 entries, dropped ones included. False in the code beyond: dropped values count towards the limit until their bucket is visited, so the new value can be dropped with the rest of the cold half; with max_size 1 always (proved for every history)."
  },
  {
   "property": "C15",
   "status": "partial",
   "theorems": [
    "C15_answers_partial",
    "C15_get_or_emplace_refuted"
   ],
   "note": "False in the code while a lookup is pending and no value is there: it throws. Proved otherwise, with what happens to every key that the size limit does not evict."
  },
  {
   "property": "C16",
   "status": "partial",
   "theorems": [
    "C16_bound_partial",
    "C16_max_size_refuted"
   ],
   "note": "Proved for every history of caches without a resolver. False in the code with one: get() and async lookups do not enforce the limit."
  },
  {
   "property": "C19",
   "status": "partial",
   "theorems": [
    "C19_negative_cache_refuted",
    "C19_forgotten_refuted"
   ],
   "note": "False in the code: errors are never served from the cache, whatever the policies; proved for every history of caches with a sync resolver."
  },
  {
   "property": "C20",
   "status": "partial",
   "theorems": [
    "C20_unique_partial",
    "C20_at_most_two_partial",
    "C20_any_entry_partial",
    "C20_two_entries_refuted"
   ],
   "note": "All configurations, weak pointers included: one live entry per key, apart from the replacement being looked up by a refresh; every entry with a value gives the same answer. False in the code for a sync resolver that inserts the key it is called for."
  },
  {
   "property": "C26",
   "status": "partial",
   "theorems": [
    "C26_released_partial",
    "C26_again_partial",
    "C26_dropped_at_once_refuted"
   ],
   "note": "Proved for callbacks cancelled or dropped after the lookup call has returned. False in the code when the callback is dropped inside the resolver."
  },
  {
   "property": "C33",
   "status": "proved",
   "theorems": [
    "C33_destruction"
   ],
   "note": "All fine histories."
  },
  {
   "property": "C36",
   "status": "partial",
   "theorems": [
    "C36_type_lists",
    "C36_first_occurrences",
    "C36_all_policies",
    "C36_explicit_dependency",
    "C36_once_partial",
    "C36_dependency_twice_refuted"
   ],
   "note": "True except that a dependency that is the default allocator, equality or hash comes twice."
  },
  {
   "property": "C37",
   "status": "partial",
   "theorems": [
    "C10_memory_safe",
    "C37_error_callback_refuted",
    "C37_value_callback_refuted",
    "C37_erase_callback_refuted"
   ],
   "note": "False in the code for callbacks that change the cache. Callbacks that only look up, count, let time pass or release pointers are safe (C10_memory_safe); so are all calls made by resolvers."
  },
  {
   "property": "C38",
   "status": "partial",
   "theorems": [
    "C23_error",
    "C38_falsy_error_refuted"
   ],
   "note": "Every waiter gets exactly the error supplied (C23_error); if that converts to false it cannot be told from a default value: false in the code."
  },
  {
   "property": "C40",
   "status": "partial",
   "theorems": [
    "C40_maintenance_partial",
    "C40_maintenance_refuted"
   ],
   "note": "The demand is the maximum; only the cold half is dropped."
  },
  {
   "property": "C41",
   "status": "partial",
   "theorems": [
    "C10_memory_safe",
    "C22_throw",
    "C41_sync_constructor_refuted",
    "C41_async_constructor_refuted",
    "C41_refresh_resolver_refuted"
   ],
   "note": "Resolver exceptions in get and async_get are reported (C22_throw) and never terminate (C10_memory_safe). False in the code for constructors that throw while a lookup completes and for async resolvers called by the refresh worker."
  },
  {
   "property": "C34",
   "status": "partial",
   "theorems": [
    "C34_load_factor_partial",
    "C34_small_limit_refuted"
   ],
   "note": "Proved for every limit of at least 1/4 (the default is 1). False below: the first link always makes 4 buckets."
  },
  {
   "property": "C35",
   "status": "partial",
   "theorems": [
    "C35_reserve_partial",
    "C35_rounding_refuted"
   ],
   "note": "Proved for limits that are powers of two (the default is 1). False for some other limits because of rounding."
  },
  {
   "property": "C11",
   "status": "proved",
   "theorems": [
    "C11_map"
   ],
   "note": "Values (not pointers)."
  },
  {
   "property": "C14",
   "status": "proved",
   "theorems": [
    "C14_clear",
    "C25_not_cached"
   ],
   "note": "count and lookups: configurations as for C13; what comes later: all configurations."
  },
  {
   "property": "C25",
   "status": "proved",
   "theorems": [
    "C25_not_cached",
    "C23_waiters_stay",
    "C23_value",
    "C23_error"
   ],
   "note": "All fine histories and configurations."
  },
  {
   "property": "C23",
   "status": "proved",
   "theorems": [
    "C23_at_most_once",
    "C23_waiters_stay",
    "C23_value",
    "C23_error",
    "C24_joins"
   ],
   "note": "All fine histories. Waiters stay until completion, are called in order with the outcome, at most once. Requests answered at once: C24_joins and C12_agree_partial; cancelled lookups: C26_released_partial."
  },
  {
   "property": "C27",
   "status": "partial",
   "theorems": [
    "C27_once",
    "C32_calls",
    "C27_race_refuted"
   ],
   "note": "Sequential use, and concurrent use in which no two threads share a callback. False in the code for two threads that complete the same lookup: both pass the check of called before either takes the lock, and the program terminates."
  },
  {
   "property": "C32",
   "status": "proved",
   "theorems": [
    "C32_linearizable",
    "C32_calls"
   ],
   "note": "All interleavings of any number of threads, re-entrant calls included, for every decomposition of the operations into accesses made under the lock. Time is taken not to move during a call; the destructor is not concurrent with calls; threads that share a resolver callback are excluded in C32_calls (see C27)."
  },
  {
   "property": "C12",
   "status": "partial",
   "theorems": [
    "C12_agree_partial",
    "C12_unchanged",
    "C12_weak_refuted"
   ],
   "note": "Agreement proved for all fine histories and configurations except pointers with both weaken and max_size, where it is false. Leaving the state unchanged holds in every configuration."
  },
  {
   "property": "C13",
   "status": "partial",
   "theorems": [
    "C13_erase",
    "C13_weak_refuted"
   ],
   "note": "All fine histories, all configurations except pointers with both weaken and max_size; there it is false (a value can die with the last strong reference)."
  },
  {
   "property": "C21",
   "status": "partial",
   "theorems": [
    "C21_miss",
    "C12_agree_partial",
    "C21_memoised_refuted",
    "C21_reentrant_refuted"
   ],
   "note": "Proved for resolvers that do not enter the looked-up key themselves. False in the code for a resolver that does."
  },
  {
   "property": "C22",
   "status": "proved",
   "theorems": [
    "C22_throw"
   ],
   "note": "All fine histories; the resolver may re-enter the cache for other keys."
  },
  {
   "property": "C24",
   "status": "proved",
   "theorems": [
    "C24_starts",
    "C24_stays",
    "C24_joins",
    "C24_calls"
   ],
   "note": "All fine histories. A lookup starts, stays under way until completed or removed, and is joined meanwhile."
  },
  {
   "property": "C29",
   "status": "partial",
   "theorems": [
    "C28_failure",
    "C17_fresh",
    "C39_expires",
    "C29_dropped_refresh_refuted"
   ],
   "note": "A failed refresh removes the value (C28_failure). An abandoned one: false in the code, the value is served unrefreshed for ever, unless max_age (C17_fresh) or the idle timeout (C39_expires) ends it."
  },
  {
   "property": "C17",
   "status": "proved",
   "theorems": [
    "C17_fresh"
   ],
   "note": "All fine histories and configurations. If the assigning operation itself sets a non-steady clock back while running, only the steady clock is bounded."
  },
  {
   "property": "C18",
   "status": "partial",
   "theorems": [
    "C18_kept_partial",
    "C28_no_gap_partial",
    "C28_sync",
    "C28_async"
   ],
   "note": "C18_kept_partial: without the refresh policy. With it, C28_no_gap_partial says that a value stays as long as it would if only time passed. Rounds of the refresh worker in which this value is due and some started lookup completes at once: C28_sync and C28_async (the value, or a new one, is found after the round). Missing there: lookups that fail at once (the code drops the old value, C28_failure), and resolvers that move the clock, touch the same key, or fill a cache with a size limit during the round."
  },
  {
   "property": "C39",
   "status": "partial",
   "theorems": [
    "C39_expires",
    "C39_used_partial",
    "C39_emplaced_partial"
   ],
   "note": "Idle values are not served: all fine histories and configurations. Used values stay unless the size limit evicts them. Rounds of the refresh worker in which this value is due and some started lookup completes at once: C28_sync and C28_async (the value, or a new one, is found after the round). Missing there: lookups that fail at once (the code drops the old value, C28_failure), and resolvers that move the clock, touch the same key, or fill a cache with a size limit during the round."
  },
  {
   "property": "C28",
   "status": "partial",
   "theorems": [
    "C28_no_gap_partial",
    "C28_sync",
    "C28_async",
    "C28_takes_over",
    "C28_deadline",
    "C28_failure"
   ],
   "note": "In flight, at completion with a value, the idle deadline, and at completion with an error (the code drops the old value then). Rounds of the refresh worker in which this value is due and some started lookup completes at once: C28_sync and C28_async (the value, or a new one, is found after the round). Missing there: lookups that fail at once (the code drops the old value, C28_failure), and resolvers that move the clock, touch the same key, or fill a cache with a size limit during the round."
  },
  {
   "property": "C30",
   "status": "proved",
   "theorems": [
    "C30_round_ends",
    "C30_all_served"
   ],
   "note": "All fine histories (the resolver does not throw into the worker thread, which would terminate the program, see C37) and positive delay; with delay 0 the round need not end (C30_zero_delay). C30_all_served: no weak pointers, clock not set back."
  },
  {
   "property": "C31",
   "status": "partial",
   "theorems": [
    "C31_never_dead",
    "C31_get_never_dead_partial",
    "C31_kept_partial",
    "C31_found_partial"
   ],
   "note": "No lookup returns a dead object: get_if_exists in all fine histories and configurations, get without resolver. An object stays available while the user holds it, until its age, however it came into the cache: without refresh_age, when pointers are dropped and time passes between operations (not inside resolvers or callbacks)."
  },
  {
   "property": "C42",
   "status": "proved",
   "theorems": [
    "C42_order",
    "C42_complete",
    "C42_found"
   ],
   "note": "Order and contents: all fine histories and configurations. Completeness of the queue: no weak pointers, clock not set back."
  },
  {
   "property": "C43",
   "status": "partial",
   "theorems": [
    "C43_refuted",
    "C43_otherwise_safe"
   ],
   "note": "Refuted: wait_until keeps a reference to the due time of the first entry and reads it again when woken early, after the entry may have been erased. C43_otherwise_safe: this is the only way a run of the thread can go wrong."
  },
  {
   "property": "C44",
   "status": "proved",
   "theorems": [
    "C44_prompt",
    "C44_time",
    "C44_serves",
    "C44_notified",
    "C44_alive"
   ],
   "note": "All fine runs of the thread among operations of other threads that have not run into C43. That a notified thread wakes up is assumed of the condition variable."
  },
  {
   "property": "C46",
   "status": "partial",
   "theorems": [
    "C46_erased_refuted",
    "C46_erased_partial",
    "C46_prompt_partial",
    "C46_prompt_runs"
   ],
   "note": "False in the code: cancel() does not stop a handler that is already queued, and refresh() does not check that the value is still in the cache. True, whenever the handlers run, for keys with no handler queued at the time of the erase. Equivalent to refresh_policy if handlers run before anything else happens to the cache."
  },
  {
   "property": "C47",
   "status": "proved",
   "theorems": [
    "C47_memory_safe",
    "C47_at_most_once",
    "C47_destruction"
   ],
   "note": "All fine histories, handlers in any order and at any time; the resolvers of handlers may throw."
  },
  {
   "property": "C48",
   "status": "partial",
   "theorems": [
    "C48_two_entries_refuted",
    "C48_unique_partial"
   ],
   "note": "False in the code: a late handler adds its value beside the one that was put there in the meantime. True while handlers run when their value is still in the hashtable and their resolvers do not throw (a sync resolver also must not add keys itself)."
  },
  {
   "property": "C49",
   "status": "proved",
   "theorems": [
    "C49_map",
    "C49_only_insertions",
    "C49_amount"
   ],
   "note": "All fine histories; C49_only_insertions and C49_amount for every resolver and policy. Evictions are seen through a record the model keeps (EvEvict), which no modelled code reads."
  },
  {
   "property": "C50",
   "status": "proved",
   "theorems": [
    "C50_recent_stay"
   ],
   "note": "All fine histories, values (not pointers). The example shows that the bound is sharp."
  },
  {
   "property": "C51",
   "status": "partial",
   "theorems": [
    "C51_complete_partial",
    "C51_found_partial",
    "C51_throw_refuted"
   ],
   "note": "False in the code if an async resolver throws when a handler calls it: the value is then never refreshed again. Proved for all other histories, both policies, handlers in any order; not for weak pointers (pointer caches with weaken and max_size) or with a clock that is set back."
  },
  {
   "property": "C52",
   "status": "proved",
   "theorems": [
    "C52_memory_safe",
    "C52_outcomes",
    "C52_at_most_once",
    "C52_async_get",
    "C52_posted",
    "C52_completed",
    "C52_failed",
    "C52_dispatched",
    "C52_destruction"
   ],
   "note": "All histories of calls and jobs in which handlers that run inside the completion of a lookup (on the executor) only look at the cache, no value constructor throws during a completion and memory suffices. C52_async_get and C52_posted: no weak pointers."
  },
  {
   "property": "C53",
   "status": "partial",
   "theorems": [
    "C53_not_in_vain_partial",
    "C53_executor_partial",
    "C53_not_started_refuted",
    "C26_dropped_at_once_refuted"
   ],
   "note": "False in the code: with asio_resolver_policy, if the copy of the functor or the allocation of the callback throws, the entry is already linked and stays pending for ever; if a resolver drops its callback before it returns. Proved for all histories in which resolvers, when they return without an exception, still have their callback and have cancelled nothing."
  },
  {
   "property": "C54",
   "status": "proved",
   "theorems": [
    "C54_any_order"
   ],
   "note": ""
  },
  {
   "property": "C55",
   "status": "partial",
   "theorems": [
    "C55_terminates_refuted",
    "C55_started_partial"
   ],
   "note": "False in the code: base_invoke_ is noexcept, so that an exception of a policy's init() ends the program before the clean-up of hashtable_policy_container::init is reached. Proved when every start succeeds."
  },
  {
   "property": "C56",
   "status": "partial",
   "theorems": [
    "C56_asleep_partial",
    "C56_leak_refuted",
    "C56_use_after_free_refuted"
   ],
   "note": "False in the code: the destructor empties the table without the lock before it stops the thread; a thread in the resolver adds an entry that is never freed, a thread that has just found an entry uses it after it was freed. Proved when the thread sleeps as the destructor begins."
  },
  {
   "property": "C57",
   "status": "partial",
   "theorems": [
    "C57_partial",
    "C57_otherwise",
    "C57_self_join_refuted"
   ],
   "note": "False in the code: a lookup that the refresh thread completes owns the hashtable for that time; if the user drops the cache then, the thread runs the destructor and joins itself. Proved: this is the only way; it cannot happen while another thread is an owner, too."
  },
  {
   "property": "C58",
   "status": "partial",
   "theorems": [
    "C58_safe_partial",
    "C58_lookup",
    "C58_emplace",
    "C58_reported",
    "C58_quiet",
    "C58_erase_refuted"
   ],
   "note": "False in the code for erase, which is noexcept although it calls the equality: the program ends. Proved for the other calls; what lookups find: no weak pointers. Comparisons made by calls out of a resolver or callback, and get_if_exists, are not modelled here."
  }
 ]
}