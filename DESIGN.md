# Formal model of libhoard in Rocq

## 1. Layers

All Coq files are in `rocq/theories`. Model files contain definitions only, each with a comment citing
the C++ file and lines. `*Proofs.v` and the files listed as "lemmas" below hold the proofs. `Properties*.v`
hold only the property theorems, each closed by `exact <lemma>`, followed by `Print Assumptions`, next to
examples showing that the hypotheses are met by a concrete state.

### Models

| layer | files | what it models |
|---|---|---|
| outcome monad | `Base.v` | a computation is `Ok a`, `UB` (undefined behaviour), `Term` (`std::terminate`) or `Fuel` (a loop ran out of model fuel; theorems exclude it) |
| pointer level | `LinkedList.v`, `Queue.v`, `BasicHashtable.v` | intrusive containers as code over a heap of cells (`gmap`); following a null/dangling pointer or reading an uninitialised flag is `UB` |
| containers of a cache | `Containers.v` | hash table + LRU queue + refresh queue of one cache, pointer level |
| handles | `Refcount.v` | `refcount_ptr` programs |
| variant machines | `Mapped.v` | `pending`, `mapped_value`, `mapped_pointer`, `value_type::expired` |
| cache | `Cache.v` | `hashtable` + `cache` + policies + resolvers + callbacks + refresh worker rounds; one `step` per API call; user code (resolvers, completion callbacks) is an arbitrary finite script of nested API calls. Generic in the containers (record `comp`) |
| cache, pointer level | `CachePtr.v` | `comp_ptr`: `Cache.v` on top of the pointer-level containers. **All property theorems are about this instance** (type `cache` in `Observe.v`) |
| cache, list level | `CacheAbs.v` | `comp_abs`: the same code on lists; only a tool for proofs |
| worker thread | `Worker.v` | the refresh thread as a state machine with the condition variable, among operations of other threads |
| threads | `Concurrency.v` | threads interleaving access by access on a recursive mutex; the unlocked read of `called` in the resolver callback |
| asio | `Asio.v` | `asio_refresh_policy` and `asio_refresh_fn_policy` (timers, handlers queued on an executor) on top of `Cache.v` |
| asio resolvers | `AsioResolver.v` | `asio_resolver_policy`: resolvers and completion handlers as jobs of an executor, on top of `Cache.v` |
| destruction during a refresh | `Teardown.v` | `~hashtable` without the lock, while the refresh thread is at work (two moments) |
| owners | `Owners.v` | which thread gives up the last `shared_ptr` of the hashtable |
| throwing equality | `Throwing.v` | the loops of `get_` and `expire_` left at any element by an exception of the user's equality |
| policy events | `Hooks.v` | `hashtable_policy_container`: how events reach the policies, `init` and `destroy` |
| compile time | `Meta.v` | `type_list` operations, policy closure |
| floats | `LoadFactor.v` | binary32 load factor arithmetic (Flocq) |

### Specifications

Statements use only the following, all short and independent of proof helpers:

* `Histories.v`: classes of histories (`fine`, `tame`, `touches`, ...), the map specification, what an operation supplies, removes, asks.
* `Observe.v`: what can be observed of a state or history (`after`, `answer`, `peek`, `count`, `deliveries`, `waiting`, `outstanding`, `due_at`, ...).
* `Concurrency.v`: `in_turn`, `looks_like` (a concurrent execution looks like a sequential one).
* `MetaSpec.v`, and the list/map specifications at the head of the container property files.

### Lemmas

* containers: `LinkedListProofs`, `AQueue`, `QueueProofs`, `ATable`, `BasicHashtableProofs`, `ContainersProofs` - representation predicates and refinement of list operations;
* simulation: `CompSim`, `CacheSim` - `comp_ptr` simulates `comp_abs` for every operation, nested scripts included;
* invariant of the list-level cache: `AbsInv`, `AbsPrim`, `AbsPrim2`, `AbsSweep`, `AbsOps`, `AbsComp`;
* every operation as a path of small changes: `Trace` (kinds of changes), `AbsTrace`, `AbsTraceCb`, `AbsResolve`, `AbsStep`, `TraceInv`; `Delay` (refresh queue), `AbsLook` (lookups), `Effects`;
* transfer to the pointer level and per-topic lemmas: `Transfer`, `Lookups`, `Answers`, `Waiters`, `Calls`, `Cancel`, `Origins`, `Idle`, `Refresh`, `Rounds`, `Entries`, `Evict`, `Lru`, `Bound`, `Inserted`, `WeakPtr`, `WorkerProofs`;
* threads: `Linear` (generic linearizability proof), `Frame` (what an operation leaves alone), `ConcurrencyProofs`;
* asio: `AsioResolverProofs` (histories with an executor as histories of `Cache.v`), `Vain` (C53: every stored request has a callback), `AsioProofs`, `Stable` (what never changes back in an entry), `AsioSafe` (the invariant with queued handlers);
* others: `HooksProofs` (the order of policies), `OwnersProofs`, `ThrowingProofs`, `RefcountProofs`, `MetaProofs`, `LoadFactorProofs`.

Keys, values and errors are integers (`Z`). The templates never inspect them, except through the
hash and equality functors (arbitrary functions in the model) and, for errors, the conversion to
`bool` (0 is the default-constructed, false error). Clock values are unbounded integers.

User code is adversarial: theorems quantify over all histories of operations, where a history
includes what the resolver returns or throws, when callbacks complete, what nested cache calls
resolvers and callbacks make, how both clocks move, when the user drops pointers and when the worker
wakes up. Restrictions are hypotheses of the theorems; the main one is `fine` (`Histories.v`): element
constructors do not throw and completion callbacks run during a delivery only read. What happens
outside is the subject of C37 and C41.

## 2. Approach per property

| id | approach | result |
|---|---|---|
| C01 - C08 | representation predicate heap <-> lists; every operation refines the list operation; induction over histories | C02 false for empty sources, C05 false for the last element |
| C09 | ownership count invariant for all programs | false for `reset` and `= nullptr` on shared handles, `reset(p)` on non-null ones |
| C10, C33 | simulation + invariant; induction over nested histories | proved |
| C11 | refinement to a finite map | proved |
| C12 - C14 | per-bucket search lemmas | false for pointers with weaken and max_size |
| C15 | path lemmas | false while a lookup is pending |
| C16, C45 | counting invariant on the LRU queue | false with a resolver / beyond 2n-2 entries |
| C17, C18 | deadlines traced back to the assigning operation (`Origins.v`) | proved / partial |
| C19 | errors are expired from the start | false: errors are never remembered |
| C20 | at most one hopeful entry per key (`uq`) | false for re-entrant sync resolvers |
| C21, C22 | per-call theorem with arbitrary re-entrant resolver script | C21 false if the resolver enters the key itself |
| C23 - C27 | waiters as a multiset carried along paths | C26 false for callbacks dropped inside the resolver; C27 false for racing threads |
| C28 - C30, C39, C42 | invariants on deadlines and refresh queue | C29 false |
| C31 | strong/weak/dead pointer states along paths | no dead pointers proved; availability partial |
| C32 | generic linearizability theorem + frame lemmas for unlocked accesses | proved |
| C34, C35 | binary32 reasoning with Flocq | false for small / non power-of-two limits |
| C36, C40 | list lemmas | false for default policies as dependencies / only cold half |
| C37, C38, C41 | witnesses, with the positive part in C10, C22, C23 | false |
| C43, C44 | worker state machine | C43 false: dangling reference in `wait_until` |
| C46 | simulation by the refresh thread for prompt handlers; invariant for all orders | false for handlers queued before an erase |
| C47 | the invariant of C01 with one reference per queued handler | proved |
| C48 | invariant | false for handlers whose value is no longer in the hashtable |
| C49 | refinement (map) and accounting of evictions | proved |
| C50 | invariant of the queue order (least recently used) | proved |
| C51 | invariant (timer, queued handler or started refresh for every value) | false if a resolver throws in a handler; proved otherwise (not weak pointers, clock set back) |
| C52 | the proofs for async resolvers, with jobs as steps of their own (`AsioResolver.v`) | proved |
| C53 | invariant (a waiting request has a live, unused callback) | false if a resolver cannot be started or drops its callback at once; proved otherwise |
| C54 | commuting policy hooks, induction over permutations | proved |
| C55 | witness; induction over the list of policies | false: terminate instead of an exception; proved if all starts succeed |
| C56 | witnesses; the worker state machine of C43 | false while the thread is at work; proved while it sleeps |
| C57 | witness; induction over traces of owners | false: the refresh thread may join itself; exactly when is proved |
| C58 | witness; the sweep lemmas with a visit that stops at a throwing comparison, then the invariants and paths of C01, C13 | false for `erase` (`noexcept`): terminate; proved for the other calls |

## 3. Simplifications and what is not modelled

* Allocation failure, alignment, object layout, integer overflow of clocks and of `size_t`.
* The C++ memory model below the mutex: the mutex and atomics are taken to be sequentially consistent.
* `Cache.v` treats one API call as one step. `Concurrency.v` justifies this for calls of several threads. There: time stands still during a call; `cancel` sets `called` before the unlock; the destructor of a callback is one step; the cache exists while threads run.
* The model records in its log when the size limit evicts a live entry (`EvEvict`, logged where `lru_expire_` calls `mark_expired`/`weaken`). No code reads the log. `spared` (`Observe.v`) uses it to say that a value was not evicted.
* The clocks do not move inside one call unless user code run by the call moves them.
* `deliver_error` detects a modification of the callback vector during the iteration by comparing lists: a callback that leaves the vector with the same content is accepted.
* The mutex of the policies is only visible in `Concurrency.v` and `Worker.v`; the condition variable may wake the worker at any time (spurious wake-ups included). That a notified thread wakes up some time is assumed; that a thread with work to do has been notified is proved (`C44_notified`).
* Executors in `Asio.v` are lists of handlers run in any order; thread pools are covered as interleavings of handlers, each of which takes the lock.
* `asio_resolver_policy` (`AsioResolver.v`) is a layer over the async resolver of `Cache.v`: calls from outside the executor queue the resolver and the completion handlers, calls inside a job run them at once (handlers whose outcome is at hand are queued). One executor; jobs run one after the other, in any order, and are never thrown away. Of failing allocations only the one that makes the job of the resolver is modelled (C53).
* `asio_refresh_fn_policy`: any timer whose time has come by the function may run out (`AExpire`); a value that was assigned and then lost by its entry (a weak pointer) is not remembered, so that the timers of such entries may run out at any time. A function that throws is not modelled (`on_assign_` is noexcept).
* Not modelled: `identity` caches (key = value), heterogeneous lookup matchers, copy/move of cache objects (a `shared_ptr` copy), `function_ref`, the standard `hash`/`equal` wrappers, doc examples. (`identity` caches with a resolver or a refresh policy cannot be instantiated: `value_type<identity_t>::key()`, value_type.ii:260ff, does not compile.)

## 4. Findings

Deviations of the code from the stated properties, each with a `_refuted` theorem whose witness is evaluated by the kernel:

| | code | theorem |
|---|---|---|
| moving an empty list links the two heads to each other | linked_list.ii | `C02_list_move_refuted` |
| the last element of a table reports "not linked" | basic_hashtable.ii | `C05_is_linked_refuted` |
| `reset`/`= nullptr`/`reset(p)` of `refcount_ptr` | refcount.ii | `C09_*_refuted` |
| pointers + weaken + max_size: get and get_if_exists disagree, erase affects other keys | mapped_type.ii, queue.ii | `C12_weak_refuted`, `C13_weak_refuted` |
| get_or_emplace throws while a lookup is pending | cache.h | `C15_get_or_emplace_refuted` |
| get and async lookups do not enforce max_size | hashtable.ii | `C16_max_size_refuted` |
| errors are never cached | value_type.ii | `C19_*_refuted` |
| re-entrant sync resolvers make two entries | resolver_policy.ii | `C20_two_entries_refuted`, `C21_*_refuted` |
| callback dropped inside the resolver: first waiter is kept, key blocked | resolver_policy.ii | `C26_dropped_at_once_refuted` |
| two threads completing one lookup: terminate | async_resolver_callback.h | `C27_race_refuted` |
| abandoned refresh: value never refreshed again | refresh_impl_policy.ii | `C29_dropped_refresh_refuted` |
| first link makes 4 buckets whatever the limit; rounding in reserve | basic_hashtable.ii | `C34_small_limit_refuted`, `C35_rounding_refuted` |
| default policies as dependencies come twice | hashtable.h | `C36_dependency_twice_refuted` |
| callbacks that modify the cache during delivery | pending.ii, mapped_type.ii | `C37_*_refuted` |
| false errors reach waiters as values | pending.ii | `C38_falsy_error_refuted` |
| maintenance drops at most the cold half | queue.ii | `C40_maintenance_refuted` |
| constructors or refresh resolvers that throw: terminate | mapped_type.ii, refresh_policy.ii | `C41_*_refuted` |
| worker keeps a reference to an erased entry's due time | refresh_policy.ii | `C43_refuted` |
| a queued timer handler brings an erased key back | asio/refresh_policy.ii | `C46_erased_refuted` |
| a late timer handler adds a second value for a key | asio/refresh_policy.ii | `C48_two_entries_refuted` |
| a value whose refresh handler's resolver throws is never refreshed again | asio/refresh_policy.ii, refresh_impl_policy.ii | `C51_throw_refuted` |
| an async_get whose resolver cannot be started leaves its key waiting for ever | asio/resolver_policy.h | `C53_not_started_refuted` |
| `~hashtable` empties the table without the lock before the refresh thread is stopped: an entry leaks if the thread is in the resolver, is used after it was freed if the thread has just found it | hashtable.ii, refresh_policy.ii | `C56_leak_refuted`, `C56_use_after_free_refuted` |
| `erase` is `noexcept` but calls the user's equality, which may throw: terminate | cache.h | `C58_erase_refuted` |
| the refresh thread runs the destructor and joins itself: terminate | async_resolver_callback.h, refresh_policy.ii | `C57_self_join_refuted` |
| an exception while the refresh thread is started: terminate; the handler that should clean up is dead code | hashtable.ii | `C55_terminates_refuted` |
| inserted value dropped at once | queue.ii, max_size_policy.ii | `C45_*_refuted` |

## 5. Trusted base

* The Coq 8.16.1 kernel (including `vm_compute`, used for witnesses and examples), and the reading of the C++ code into the model (every definition cites its source).
* Libraries used as proved libraries: the standard library, std++, Flocq (only `LoadFactor*.v`, `PropertiesLoad.v`), ssreflect tactics.
* `Print Assumptions` under every property theorem says "Closed under the global context", except for those of `PropertiesLoad.v` (C34, C35), which depend on the axioms of the standard library's real numbers, through Flocq: `ClassicalDedekindReals.sig_forall_dec`, `ClassicalDedekindReals.sig_not_dec`, `FunctionalExtensionality.functional_extensionality_dep`, `Classical_Prop.classic`.
* No axioms, no admitted proofs, no disabled checks of our own.

## 6. Mutation tests

`seeded/LOG.jsonl` lists edits of the model that imitate realistic bugs, made in a scratch copy, with the theorems that failed and those that had to be tightened. `failed` means that the theorem is no longer proved by the existing proofs, which includes theorems whose lemmas broke; it does not show that the theorem became false. Entries marked `inconclusive` did not compile far enough to test a theorem.
