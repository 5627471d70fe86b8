{"id": "C01", "title": "Intrusive list operations act as sequence edits", "statement": "On a linked_list, link_front/link_back/link_before/link_after/unlink and forward/backward iteration behave as inserting, deleting and reading in a sequence: after any mix of operations, walking begin()..end() forwards gives exactly the expected sequence, walking backwards gives its reverse, an unlinked element is not linked, and no operation touches another element.", "quantifier": "every list length, every element, every position, every sequence of link/unlink operations", "why_tests_cant": "Tests link a few literal nodes; the claim is about all interleavings of insertions and removals at all positions of lists of any length.", "anchors": ["include/libhoard/detail/linked_list.ii: link_, link_front, link_back, link_after, link_before, unlink, iterator ++/--"]}
{"id": "C02", "title": "Moving a linked_list transfers exactly its elements", "statement": "Move-constructing a linked_list from another gives the new list exactly the old sequence and leaves the source empty and usable.", "quantifier": "every source list, including the empty one", "why_tests_cant": "A test moves one populated list; the empty source is the boundary case.", "anchors": ["include/libhoard/detail/linked_list.ii:40-44 basic_linked_list(basic_linked_list&&)"]}
{"id": "C03", "title": "Hash table linking/unlinking/rehashing never loses, duplicates or misplaces an element", "statement": "For basic_hashtable: after any history of link, unlink, reserve/rehash, move and clear, whole-table iteration visits every linked element exactly once, size() is the number of linked elements, and iterating bucket i visits exactly the linked elements whose hash falls in bucket i. A linked element becomes the last of its bucket, and a rehash keeps the previous iteration order inside every bucket. No dangling bucket pointer is ever followed.", "quantifier": "every hash assignment (including all-colliding ones), every operation history, every bucket count", "why_tests_cant": "The bucket array stores pointers into other elements' successor fields; correctness depends on collision patterns and histories that a finite suite cannot enumerate.", "anchors": ["include/libhoard/detail/basic_hashtable.ii: link_, unlink_, rehash_, clear, begin/end/before_begin/before_end, bucket_for"]}
{"id": "C04", "title": "Moving a hash table keeps every lookup valid", "statement": "Move-constructing a basic_hashtable transfers every element and every bucket range unchanged and leaves the source as an empty, reusable table.", "quantifier": "every table, including empty ones and ones whose leading buckets are empty", "why_tests_cant": "Bucket slots that point at the moved-from object's head must be redirected; whether one is missed depends on the emptiness pattern of the buckets.", "anchors": ["include/libhoard/detail/basic_hashtable.ii:19-29"]}
{"id": "C05", "title": "is_hashtable_linked reports membership", "statement": "is_hashtable_linked() on an element is true exactly when the element is linked in a table.", "quantifier": "every table and element, including the last one in iteration order", "why_tests_cant": "Requires the boundary element of arbitrary tables.", "anchors": ["include/libhoard/detail/basic_hashtable.ii:31-33"]}
{"id": "C06", "title": "The LRU queue keeps a hot and a cold half under every event sequence", "statement": "For any sequence of create, hit and remove events, the recency queue holds exactly the created, not-removed elements, once each; they are split in a hot front part and a cold back part whose sizes differ by at most one with the cold part never smaller; and every element is flagged according to the part it is in.", "quantifier": "every event sequence over any number of elements", "why_tests_cant": "The midpoint iterator and parity bit are adjusted by case analysis on position; errors appear only for particular positions and parities.", "anchors": ["include/libhoard/detail/queue.ii: on_create_, on_hit_, on_unlink_, invariant"]}
{"id": "C07", "title": "Eviction takes the coldest elements only and never a hot one", "statement": "When maintenance is asked to drop n elements it expires exactly the min(n, cold count) elements at the cold end of the queue, in order, and never an element of the hot half.", "quantifier": "every queue state and every n", "why_tests_cant": "Depends on all queue shapes and counts.", "anchors": ["include/libhoard/detail/queue.ii:95-110 lru_expire_"]}
{"id": "C08", "title": "A hit makes an entry the most recent one and protects it", "statement": "Immediately after a lookup hit on an entry, that entry is the most recently used and belongs to the hot half whenever at least two entries exist, so an eviction run right after does not pick it.", "quantifier": "every cache state with at least two entries", "why_tests_cant": "Quantifies over all queue states and eviction counts.", "anchors": ["include/libhoard/detail/queue.ii:24-37 on_hit_"]}
{"id": "C09", "title": "refcount_ptr destroys its object exactly once, when the last owner goes", "statement": "For any program that creates, copies, moves, assigns, resets, releases, adopts and destroys refcount_ptr handles, an object is destroyed exactly when its last owning handle gives it up, never earlier, never twice, and never leaked.", "quantifier": "every sequence of handle operations over any number of handles and objects", "why_tests_cant": "Lifetime errors need specific handle sequences; the suite never calls reset() on a shared handle.", "anchors": ["include/libhoard/detail/refcount.ii: refcount_ptr constructors, operator=, reset, release, adopt"]}
{"id": "C10", "title": "Cache operations are memory safe for every history", "statement": "For a cache with any combination of the modelled policies, any sequence of get_if_exists, get, async get, emplace, get_or_emplace, erase, clear, reserve, clock movement, lookup completion/failure/cancellation in any order, refresh worker runs and final destruction executes without undefined behaviour, without std::terminate and without an uninitialised read, provided user callbacks do not re-enter the cache and resolvers only throw where allowed.", "quantifier": "every policy combination, hash function, history, and every choice of completion order", "why_tests_cant": "Memory safety is a property of all histories; sanitizers only see the executed ones.", "anchors": ["include/libhoard/detail/hashtable.ii", "include/libhoard/detail/queue.ii", "include/libhoard/detail/basic_hashtable.ii", "include/libhoard/detail/async_resolver_callback.h", "include/libhoard/detail/refresh_impl_policy.ii"]}
{"id": "C11", "title": "A cache without eviction behaves as a map", "statement": "With no size/age/refresh policy and no resolver, for every history: get(k) and get_if_exists(k) return the value of the latest emplace(k,.) (or the first get_or_emplace) not followed by erase(k)/clear, and nothing otherwise; keys are identified by the equality policy even when hashes collide.", "quantifier": "every history, every key, every hash function compatible with the equality policy", "why_tests_cant": "Refinement to a map must hold for all histories and collision patterns.", "anchors": ["include/libhoard/cache.h", "include/libhoard/detail/hashtable.ii: get_, get_if_exists_, emplace, get_or_emplace, expire_, expire_all"]}
{"id": "C12", "title": "get_if_exists agrees with get", "statement": "In every reachable state get_if_exists(k) returns a value exactly when get(k) would hit, with the same value, and it changes nothing that any later call can observe.", "quantifier": "every reachable state under every policy combination, every key", "why_tests_cant": "Two separately written search loops must agree on all states, including ones with expired, pending and colliding entries.", "anchors": ["include/libhoard/detail/hashtable.ii:488-496 get_if_exists_", "include/libhoard/detail/hashtable.ii:514-565 get_"]}
{"id": "C13", "title": "erase removes the key and nothing else", "statement": "After erase(k), a lookup of k without resolver misses; every lookup of a different key returns what it returned before.", "quantifier": "every reachable state, every pair of keys, including colliding ones and keys with several entries", "why_tests_cant": "Must hold for arbitrary bucket contents and expired/pending neighbours.", "anchors": ["include/libhoard/detail/hashtable.ii:661-688 expire_"]}
{"id": "C14", "title": "clear empties the cache", "statement": "After clear(), every key misses and count() is 0; lookups in flight at that time are not cached when they complete.", "quantifier": "every reachable state, every key, every later completion", "why_tests_cant": "Quantifies over all states and later completions.", "anchors": ["include/libhoard/detail/hashtable.ii:645-658 expire_all"]}
{"id": "C15", "title": "get_or_emplace returns the present value or installs the new one", "statement": "get_or_emplace(k,v) returns the live value of k if there is one (leaving it in place), otherwise returns v and, when no policy evicts it, makes v the value of k. It never throws for a key being looked up.", "quantifier": "every reachable state, every key and value", "why_tests_cant": "The entry may be live, expired, pending, failed or absent; the in-flight case is not tested.", "anchors": ["include/libhoard/cache.h:78-89", "include/libhoard/detail/hashtable.ii:797-890"]}
{"id": "C16", "title": "max_size bounds the number of live entries", "statement": "With max_size n, after every completed operation count() <= n.", "quantifier": "every history and every n", "why_tests_cant": "The bound is an invariant over all histories; tests check one insertion pattern.", "anchors": ["include/libhoard/max_size_policy.ii", "include/libhoard/detail/hashtable.ii:898-904 maintenance_"]}
{"id": "C17", "title": "max_age never serves a stale value", "statement": "With max_age d, a value handed out by any lookup was assigned less than d ago, measured on the policy's clock and, if that clock is not steady, also on the steady clock, whatever adjustments the clock makes.", "quantifier": "every history, every clock trajectory, every d", "why_tests_cant": "Timing trajectories are unbounded; wall clock jumps are not tested.", "anchors": ["include/libhoard/max_age_policy.ii", "include/libhoard/expire_at_policy.ii"]}
{"id": "C18", "title": "Values are not dropped early", "statement": "Without max_size, a value assigned less than max_age ago and not erased, cleared or replaced is still returned by get (no premature expiry), regardless of operations on other keys.", "quantifier": "every history and clock trajectory", "why_tests_cant": "A no-loss property over all histories.", "anchors": ["include/libhoard/max_age_policy.ii", "include/libhoard/detail/hashtable.ii: get_, unlink_expired_elements_"]}
{"id": "C19", "title": "Negative caching keeps errors", "statement": "With a negative cache policy (or error_max_age), a failed lookup is remembered and returned by later lookups without calling the resolver again, until it ages out.", "quantifier": "every cache with the policy, every failing key", "why_tests_cant": "Depends on compile-time composition of policies rather than on run-time inputs.", "anchors": ["include/libhoard/negative_cache_policy.h", "include/libhoard/detail/value_type.ii:113-124", "include/libhoard/detail/hashtable.h:58-72"]}
{"id": "C20", "title": "At most one live entry per key", "statement": "In every reachable state no two unexpired entries for equal keys exist, so a lookup's answer does not depend on bucket order (with a refresh policy: besides at most the refreshed entry and its replacement being looked up).", "quantifier": "every reachable state", "why_tests_cant": "Uniqueness is an invariant over histories that mix lookups, failures, erasures, and completions.", "anchors": ["include/libhoard/detail/hashtable.ii: emplace, get, async_get, get_or_emplace"]}
{"id": "C21", "title": "Sync resolver is called only on a miss and its result is memoised", "statement": "get(k) calls the resolver at most once, and only if k has no live entry; if it returns v, get returns v and, while v is neither erased, cleared, replaced nor expired, later get(k) return v without calling the resolver. This holds even if the resolver itself re-enters the cache.", "quantifier": "every history, every key, every resolver behaviour including re-entrant ones", "why_tests_cant": "The resolver is arbitrary code; tests use one counter.", "anchors": ["include/libhoard/resolver_policy.ii:34-53,103-120", "include/libhoard/detail/hashtable.ii:567-595"]}
{"id": "C22", "title": "A throwing sync resolver surfaces its exception and leaves no live entry", "statement": "If the resolver throws e for k, get(k) throws e, later lookups of k do not see a value from that attempt, and entries of other keys are untouched.", "quantifier": "every state, key and exception", "why_tests_cant": "Quantifies over states and failure points.", "anchors": ["include/libhoard/resolver_policy.ii:34-53"]}
{"id": "C23", "title": "Every async waiter is notified at most once, in order, with the same outcome", "statement": "Each async get's callback is invoked at most once; when a lookup completes, exactly the callbacks registered with it are invoked, in registration order, all with the outcome supplied by the resolver.", "quantifier": "every history and completion order", "why_tests_cant": "Needs all interleavings of registration, completion, erasure and cancellation.", "anchors": ["include/libhoard/detail/pending.ii", "include/libhoard/detail/hashtable.ii:597-642", "include/libhoard/detail/async_resolver_callback.h"]}
{"id": "C24", "title": "Concurrent requests share one lookup", "statement": "While an unexpired lookup of k is in flight, further async gets of k join it and do not call the resolver again.", "quantifier": "every history", "why_tests_cant": "Single-flight must hold in all states, not only back-to-back calls.", "anchors": ["include/libhoard/detail/hashtable.ii:597-642 async_get"]}
{"id": "C25", "title": "Erasing a key during its lookup keeps the result out of the cache", "statement": "If k is erased (or the cache cleared) while a lookup of k is in flight, the waiters still receive the outcome, and the outcome is never returned by a later lookup.", "quantifier": "every history with erase/clear during a lookup", "why_tests_cant": "Race-like ordering of erase and completion.", "anchors": ["include/libhoard/detail/hashtable.ii:661-688", "include/libhoard/detail/mapped_type.ii:34-48"]}
{"id": "C26", "title": "Dropping a lookup releases its waiters", "statement": "If the resolver drops its callback without completing it, every waiter of that lookup is released (its callback object destroyed, i.e. a broken promise) and the key can be looked up again.", "quantifier": "every history, including a callback dropped before the lookup call returns", "why_tests_cant": "Timing of the drop relative to registration matters.", "anchors": ["include/libhoard/detail/async_resolver_callback.h:25-27,62-73", "include/libhoard/detail/pending.ii:67-70"]}
{"id": "C27", "title": "A lookup completes at most once", "statement": "Of all assign/assign_error calls on one resolver callback, at most one has an effect (returns true); later ones return false and change nothing. This holds for sequential use and for concurrent use from several threads.", "quantifier": "every sequence, and every interleaving of two completing threads", "why_tests_cant": "The race window cannot be hit reliably by tests.", "anchors": ["include/libhoard/detail/async_resolver_callback.h:30-60"]}
{"id": "C28", "title": "Refresh replaces a value without a gap and without prolonging idle life", "statement": "With a refresh policy, while a background lookup for k is in flight, get(k) keeps returning the old value (unless it idles out, is erased or evicted); when the lookup completes the new value takes over; and the replacement's idle deadline is never later than the old entry's when nobody hit it.", "quantifier": "every history, clock trajectory and completion order", "why_tests_cant": "Background timing and completion orders.", "anchors": ["include/libhoard/detail/refresh_impl_policy.ii", "include/libhoard/refresh_policy.ii"]}
{"id": "C29", "title": "A failed or abandoned refresh does not freeze a stale value", "statement": "If a background refresh lookup is abandoned by the resolver, the value is refreshed again later or expires; it is not served unrefreshed forever.", "quantifier": "every history", "why_tests_cant": "Requires an unbounded future.", "anchors": ["include/libhoard/detail/refresh_impl_policy.ii:53-89", "include/libhoard/refresh_policy.ii:98-123"]}
{"id": "C30", "title": "The refresh worker finishes each round", "statement": "With a positive refresh delay, one wake-up of the refresh worker processes finitely many entries, starts at most one lookup per due entry, and leaves no due entry in its queue.", "quantifier": "every cache state and every resolver outcome", "why_tests_cant": "Termination over all states.", "anchors": ["include/libhoard/refresh_policy.ii:98-123 worker_task"]}
{"id": "C31", "title": "Weakened pointers are returned while alive and never dangling", "statement": "With pointer and weaken policies, an entry evicted by size keeps being returned (the same object) as long as the user holds it elsewhere; a lookup never returns a null or dead pointer; once the object died, lookups miss.", "quantifier": "every history of lookups, evictions and releases", "why_tests_cant": "Depends on lifetime interleavings.", "anchors": ["include/libhoard/detail/mapped_type.ii:182-455", "include/libhoard/detail/queue.ii:95-110"]}
{"id": "C32", "title": "Thread-safe caches are linearizable", "statement": "With the default thread-safe policy, every concurrent execution of cache operations by any number of threads, including re-entrant calls, gives results and a final state equal to some sequential execution that respects each thread's order and real-time order; and no deadlock is introduced by the lock.", "quantifier": "every interleaving of any number of threads", "why_tests_cant": "The schedule space is unbounded.", "anchors": ["include/libhoard/thread_safe_policy.ii", "include/libhoard/cache.h", "include/libhoard/detail/cache_get.h", "include/libhoard/resolver_policy.ii"]}
{"id": "C33", "title": "Destruction releases everything exactly once", "statement": "Destroying the cache destroys each entry exactly once, releases all waiters, and leaves no entry alive except those still referenced by outstanding resolver callbacks, which are harmless when completed or dropped later and are then destroyed.", "quantifier": "every reachable state and every later use of outstanding callbacks", "why_tests_cant": "Leaks and double frees over all histories.", "anchors": ["include/libhoard/detail/hashtable.ii:478-480,945-953", "include/libhoard/detail/async_resolver_callback.h"]}
{"id": "C34", "title": "Load factor stays within the maximum", "statement": "After every link the load factor of the table is at most max_load_factor(), as long as the bucket count can still grow.", "quantifier": "every history and every table size", "why_tests_cant": "float rounding and growth policy at all sizes.", "anchors": ["include/libhoard/detail/basic_hashtable.ii:402-415"]}
{"id": "C35", "title": "reserve(n) prevents rehashing", "statement": "After reserve(n), inserting until the table holds n elements performs no rehash and never shrinks the table.", "quantifier": "every n and every table state", "why_tests_cant": "Floating point rounding at all n.", "anchors": ["include/libhoard/detail/basic_hashtable.ii:384-400"]}
{"id": "C36", "title": "Policy dependencies are pulled in once each and user policies win", "statement": "The full policy list of a cache contains every user policy, every transitive dependency not listed by the user exactly once, exactly one threading default unless chosen, and adding an explicit dependency does not duplicate it; type_list operations behave as the corresponding list operations.", "quantifier": "every list of policies", "why_tests_cant": "Compile-time computation over arbitrary type lists; tests instantiate a handful.", "anchors": ["include/libhoard/detail/meta.h", "include/libhoard/detail/hashtable.h:223-320"]}
{"id": "C37", "title": "Re-entrant completion callbacks are safe", "statement": "A completion callback may call back into the same cache (the mutex is recursive) without corrupting it.", "quantifier": "every callback program", "why_tests_cant": "User callback code is arbitrary.", "anchors": ["include/libhoard/detail/mapped_type.ii:34-48", "include/libhoard/detail/pending.ii:21-42"]}
{"id": "C38", "title": "Falsy errors and default values are not confused", "statement": "A waiter on a failed lookup observes an error, never a made-up value.", "quantifier": "every error value the resolver may supply, including a null exception_ptr/default error_code", "why_tests_cant": "Boundary error values.", "anchors": ["include/libhoard/resolver_policy.ii:125-148", "include/libhoard/detail/pending.ii:33-42"]}
{"id": "C39", "title": "A hit extends idle life and idle entries expire", "statement": "With refresh idle timeout i>0, a value hit at time t stays available until t+i (unless erased/evicted/replaced) and a value without hits since assignment at t is not served at or after t+i.", "quantifier": "every history and monotone clock trajectory", "why_tests_cant": "Timing over all histories.", "anchors": ["include/libhoard/refresh_policy.ii:25-76"]}
{"id": "C40", "title": "Maintenance removes as many entries as the strictest policy demands", "statement": "The number of entries dropped by maintenance is the maximum demanded by any policy.", "quantifier": "every list of policies", "why_tests_cant": "Compile-time fold over arbitrary policy packs.", "anchors": ["include/libhoard/detail/hashtable.ii:150-156,246-252"]}
{"id": "C41", "title": "Resolver and constructor exceptions never terminate the program", "statement": "Exceptions thrown by user code run by the cache (resolver, value constructor) are reported to the caller or stored as an error; they never lead to std::terminate or a broken entry.", "quantifier": "every throw point of user code", "why_tests_cant": "Fault injection at all points.", "anchors": ["include/libhoard/resolver_policy.ii:34-53", "include/libhoard/detail/mapped_type.ii:34-48", "include/libhoard/refresh_policy.ii:98-123"]}
{"id": "C42", "title": "The refresh queue is served in due order", "statement": "With a monotone clock the refresh worker's queue is ordered by due time and holds only values currently in the cache, so looking only at the front misses nothing.", "quantifier": "every history", "why_tests_cant": "Ordering invariant over all histories.", "anchors": ["include/libhoard/refresh_policy.ii:51-123"]}
{"id": "C43", "title": "The waiting refresh worker touches no erased entry", "statement": "While the refresh worker sleeps until the first entry of its queue is due, other threads may erase that entry; being woken early must not make the worker read it.", "quantifier": "every interleaving of the worker's waits with operations of other threads, including early wake-ups", "why_tests_cant": "Reading a freed due time usually goes unnoticed, and needs a wake-up in a small window.", "anchors": ["include/libhoard/refresh_policy.ii:98-123 worker_task", "include/libhoard/refresh_policy.ii:51-59 on_assign_"]}
{"id": "C44", "title": "The refresh worker never oversleeps", "statement": "Whenever the refresh worker waits with a time limit, no entry in its queue is due before that limit, and when an entry is due the worker's next round serves everything that is due and goes to sleep until the next entry is due.", "quantifier": "every interleaving of the worker's waits with operations of other threads", "why_tests_cant": "All interleavings and timings.", "anchors": ["include/libhoard/refresh_policy.ii:98-123 worker_task"]}
{"id": "C45", "title": "A value just inserted is available", "statement": "With max_size n > 0, a value inserted with emplace is returned by the next lookup of its key, since an insertion evicts less recently used values first.", "quantifier": "every history, every n and every key", "why_tests_cant": "Depends on how many dropped values still sit in the table, which varies with hashing, bucket growth and the order of operations.", "anchors": ["include/libhoard/max_size_policy.ii:14-18 policy_removal_check_", "include/libhoard/detail/queue.ii:94-112 lru_expire_", "include/libhoard/detail/hashtable.ii:786-795 emplace", "include/libhoard/detail/hashtable.ii:897-904 maintenance_"]}
{"id": "C46", "title": "A refresh timer does not bring an erased key back", "statement": "With asio_refresh_policy, after erase(k) or clear() a lookup of k without resolver misses until the user looks k up or inserts it again, whatever timers were running or had run out; and timers whose handlers run at once behave exactly as the refresh thread of refresh_policy.", "quantifier": "every history of calls, timer expiries and handler runs, in any order", "why_tests_cant": "Needs an erase between the expiry of a timer and the execution of its handler, a window that depends on the executor's scheduling.", "anchors": ["include/libhoard/asio/refresh_policy.ii:53-78 on_assign_", "include/libhoard/asio/refresh_policy.ii:92-96 on_unlink_", "include/libhoard/detail/refresh_impl_policy.ii:52-89 refresh"]}
{"id": "C47", "title": "Late timer handlers are safe", "statement": "With asio_refresh_policy, no handler of a refresh timer, however late and in whatever order it runs, before or after the destruction of the cache, touches freed memory or terminates the program; no request is notified twice; and when the cache is gone, what remains is owned by outstanding resolver callbacks and queued handlers and is released with them, every waiting request having been notified or released.", "quantifier": "every history of calls, timer expiries and handler runs, in any order", "why_tests_cant": "Needs handlers that outlive their value or the cache, in every combination with other operations.", "anchors": ["include/libhoard/asio/refresh_policy.ii:53-78 on_assign_", "include/libhoard/asio/refresh_policy.ii:92-96 on_unlink_", "include/libhoard/detail/refresh_impl_policy.ii:52-89 refresh"]}
{"id": "C48", "title": "A late timer handler does not duplicate a value", "statement": "With asio_refresh_policy, there is at most one value per key in the cache (beside the one that is being replaced while its refresh is under way), whenever the handlers of the refresh timers run.", "quantifier": "every history of calls, timer expiries and handler runs, in any order", "why_tests_cant": "Needs a value replaced between the expiry of its timer and the execution of the handler; the duplicate is hidden from get() and shows in count() and in the size limit.", "anchors": ["include/libhoard/asio/refresh_policy.ii:53-78 on_assign_", "include/libhoard/detail/refresh_impl_policy.ii:52-89 refresh", "include/libhoard/detail/hashtable.ii:786-795 emplace"]}
{"id": "C49", "title": "A size-limited cache forgets only what the limit evicts", "statement": "With max_size and no resolver and no age or refresh limit, every operation changes what lookups of a key find exactly as it would change a map, unless it evicts the key, which is then not found. Only emplace and get_or_emplace evict, and never more entries than the hashtable, with the new entry, holds above the limit; nothing is evicted while there is room.", "quantifier": "every history, every operation, every key; the second part for all policies and resolvers", "why_tests_cant": "Which entry goes depends on the whole history of hits, insertions and removals, and on which dropped entries have been swept already; a test sees a few sizes and orders.", "anchors": ["include/libhoard/max_size_policy.ii:16-20 policy_removal_check_", "include/libhoard/detail/queue.ii:94-110 lru_expire_", "include/libhoard/detail/hashtable.ii:786-795 emplace", "include/libhoard/detail/hashtable.ii:897-904 maintenance_"]}
{"id": "C50", "title": "Recently used values survive the size limit", "statement": "In a cache limited to n entries (no resolver, no age or refresh limit), a value that get() or get_or_emplace() found is still found as long as fewer than n other keys are looked up or inserted after it, and it is not erased, replaced or cleared.", "quantifier": "every history before and after the lookup, every set of fewer than n other keys, used in any order and any number of times; every n", "why_tests_cant": "Depends on the order of the queue through every mixture of hits, insertions, removals, sweeps and moves of the midpoint between its two zones.", "anchors": ["include/libhoard/detail/queue.ii:11-60 on_create_, on_hit_, on_unlink_", "include/libhoard/detail/queue.ii:94-110 lru_expire_", "include/libhoard/max_size_policy.ii:16-20 policy_removal_check_", "include/libhoard/detail/hashtable.ii:897-904 maintenance_"]}
{"id": "C51", "title": "Every value keeps being refreshed by its timer", "statement": "With asio_refresh_policy or asio_refresh_fn_policy, every value in the cache that has not passed a deadline has a running refresh timer, or a queued handler of its timer, or its refresh has been started; no value is left behind that nobody will refresh.", "quantifier": "every history of calls, timer expiries (in the order of the delays, or in any order that a function of the values gives) and handler runs, in any order", "why_tests_cant": "A value that lost its timer looks like any other until its refresh fails to happen; every path that assigns, replaces, expires or skips a value has to be covered in combination with late handlers.", "anchors": ["include/libhoard/asio/refresh_policy.ii:53-97 on_assign_, on_unlink_", "include/libhoard/asio/refresh_policy.ii:131-180 on_assign_, on_unlink_, update_refresh_", "include/libhoard/detail/refresh_impl_policy.ii:52-89 refresh"]}
{"id": "C52", "title": "Completion handlers on an executor", "statement": "With asio_resolver_policy, every completion handler given to async_get runs at most once, with exactly the outcome that the cache gave to its request, and none that got an outcome is lost; async_get never runs the handler itself: it queues it if a value is at hand, otherwise the request joins the lookup of the key or a resolver is queued for it; completing a lookup queues the handlers of its requests in the order in which they came (inside the executor it runs them); no order of jobs and calls, before or after the destruction of the cache, causes undefined behaviour.", "quantifier": "every history of calls from outside and runs of queued resolvers and handlers, in any order, with any calls made inside the jobs", "why_tests_cant": "Which handlers are queued, run or pending at the same time depends on the executor's scheduling.", "anchors": ["include/libhoard/asio/resolver_policy.h:72-86 resolve", "include/libhoard/asio/resolver_policy.h:118-151 async_get", "include/libhoard/detail/hashtable.ii:597-642 async_get"]}
{"id": "C53", "title": "Nobody waits in vain", "statement": "Every request that waits in the cache waits for a lookup whose resolver callback still exists and has not been used, so that somebody can answer or release it; also after an async_get that threw.", "quantifier": "every history", "why_tests_cant": "A request that nobody will answer looks like a slow one; the lost callback may be lost on a rare path (an exception while the resolver is started).", "anchors": ["include/libhoard/resolver_policy.ii:83-97 resolve", "include/libhoard/asio/resolver_policy.h:72-86 resolve", "include/libhoard/detail/hashtable.ii:597-642 async_get", "include/libhoard/detail/pending.ii:33-70"]}
{"id": "C54", "title": "The order of policies does not matter", "statement": "A cache notifies its policies of every creation, hit, unlinking and assignment of a value; the outcome of a notification is the same in whatever order the policies of the cache are listed, and whichever other policies stand between them.", "quantifier": "every configuration, every order of its policies, every state of the cache", "why_tests_cant": "Each order is another template instantiation; with hooks that touch the same entry, an influence of one policy on another shows only in some states (weakened values, values at their deadline).", "anchors": ["include/libhoard/detail/hashtable.ii:211-281", "include/libhoard/detail/meta.h:120-161", "include/libhoard/detail/queue.ii:11-60", "include/libhoard/max_age_policy.ii:18-25", "include/libhoard/refresh_policy.ii:51-76"]}
{"id": "C55", "title": "Construction that fails", "statement": "If starting one of the policies of a cache throws (the refresh thread cannot be created), the constructor of the cache throws and no policy keeps running; otherwise all are started, and the destructor stops all of them.", "quantifier": "every list of policies, every outcome of their starts", "why_tests_cant": "Thread creation fails only when the system runs out of threads.", "anchors": ["include/libhoard/detail/hashtable.ii:211-214,254-281", "include/libhoard/detail/hashtable.ii:451-469", "include/libhoard/refresh_policy.ii:78-93"]}
{"id": "C56", "title": "Destruction while the refresh thread is at work", "statement": "Whenever a cache with refresh_policy is destroyed, its thread ends, all entries are freed except those that outstanding resolver callbacks still own, every waiting request has been answered, and no entry is used after it was freed.", "quantifier": "every interleaving of operations and rounds of the refresh thread, and every moment for the destructor", "why_tests_cant": "The destructor has to fall into the short time in which the thread refreshes an entry; the consequence is a leak or a use after free, which an ordinary test does not see.", "anchors": ["include/libhoard/detail/hashtable.ii:211-214", "include/libhoard/detail/hashtable.ii:476-480", "include/libhoard/refresh_policy.ii:84-123", "include/libhoard/detail/basic_hashtable.ii:332-341"]}
{"id": "C57", "title": "The last owner", "statement": "The hashtable of a cache is destroyed, without ending the program, when its last owner goes away: a cache object or a resolver callback in use, on whatever thread.", "quantifier": "every order in which threads copy and destroy cache objects and complete lookups", "why_tests_cant": "The user has to drop the cache in the few instructions during which the refresh thread completes a lookup.", "anchors": ["include/libhoard/detail/async_resolver_callback.h:33,49,65", "include/libhoard/refresh_policy.ii:84-94", "include/libhoard/detail/hashtable.ii:211-214", "include/libhoard/cache.h:33"]}
{"id": "C58", "title": "Equality that throws", "statement": "If the user's key equality throws during get, async_get, get_or_emplace, emplace or erase, the exception reaches the caller and the cache stays usable: no undefined behaviour then or later, no request is lost, no callback or resolver is called, lookups of other keys (after a lookup: of all keys) find what they found before.", "quantifier": "every history of calls with, for each call, any set of comparisons that throw; every configuration", "why_tests_cant": "The exception can leave the loop over a bucket at any element, after any number of expired or matching entries were unlinked.", "anchors": ["include/libhoard/detail/hashtable.ii:514-565", "include/libhoard/detail/hashtable.ii:661-698", "include/libhoard/detail/hashtable.ii:770-795", "include/libhoard/cache.h:50-61"]}
