(** Property theorems about [asio_resolver_policy].
    Model: AsioResolver.v over Cache.v and CachePtr.v. Observers: Observe.v. Classes of histories: Histories.v. *)
From Verif Require Import Base Mapped Cache CachePtr Observe Histories PropertiesRefuted PropertiesCache Examples AsioResolver AsioResolverProofs Vain.
Local Open Scope Z_scope.

(** ** C52 *)
Definition obs_x {T} (k : cfg) (l : list xop) (f : xcache -> T) : option T :=
  match xrun k l x_init with Ok x => Some (f x) | _ => None end.
Lemma obs_x_after {T} k l (f : xcache -> T) t : obs_x k l f = Some t -> exists x, xrun k l x_init = Ok x /\ f x = t.
Proof. unfold obs_x. destruct (xrun k l x_init); [intros [= <-]; eauto|done..]. Qed.

(** Whatever is called from outside and whenever the jobs run: no undefined behaviour, no [std::terminate]. *)
Theorem C52_memory_safe : forall k l, fine_cfg k -> xfine l -> exists x : xcache, xrun k l x_init = Ok x.
Proof. intros k l Hk. exact (x_safe k Hk l). Qed.
Print Assumptions C52_memory_safe.
(** The completion handlers that have run, and those that wait on the executor, are those to which the
    cache has given an outcome, with this outcome; none is lost or doubled. *)
Theorem C52_outcomes : forall k l (x : xcache), fine_cfg k -> xfine l -> xrun k l x_init = Ok x ->
  Permutation (x_done x ++ queued (x_jobs x)) (called (x_cache x)).
Proof. intros k l x Hk Hf R. exact (proj2 (x_inv k Hk l x Hf R)). Qed.
Print Assumptions C52_outcomes.
(** For every request at most one handler runs, once; it runs or waits on the executor only when the
    request does not wait in the cache. *)
Theorem C52_at_most_once : forall k l (x : xcache) w, fine_cfg k -> xfine l -> xrun k l x_init = Ok x ->
  (runs w (x_done x ++ queued (x_jobs x)) + waiting w (x_cache x) <= length (filter (fun y => y = w) (xwaiters l)))%nat.
Proof. intros k l x w Hk. exact (x_once k Hk l x w). Qed.
Print Assumptions C52_at_most_once.
(** [async_get] from outside the executor runs no handler. If the cache has a value, the handler is queued
    with it; if not, the request joins the lookup of the key, or a resolver is queued whose callback is the one
    of a new lookup, with this request waiting. *)
Theorem C52_async_get : forall k l w key script keep throw imm (x x' : xcache), fine_cfg k -> tame k -> eq_ok k -> k_resolver k = RAsync -> xfine l ->
  xrun k l x_init = Ok x -> xrun k (l ++ [XCall (OAGet w key script keep throw imm)]) x_init = Ok x' -> m_up (me (x_cache x)) = true ->
  x_done x' = x_done x /\
  match peek k (x_cache x) key with
  | Some v => x_jobs x' = x_jobs x ++ [JDone w v 0]
  | None =>
    (exists i, underway k (x_cache x) i key /\ x_jobs x' = x_jobs x /\ waiting_on (x_cache x') i = waiting_on (x_cache x) i ++ [w]) \/
    (forall i, ~ underway k (x_cache x) i key) /\
    exists i, x_jobs x' = x_jobs x ++ [JResolve i] /\ underway k (x_cache x') i key /\ waiting_on (x_cache x') i = [w] /\ m_cbs (me (x_cache x)) !! i = None
  end.
Proof. intros k l w key script keep throw imm x x' Hk Ht Hq. exact (x_async_get k Hk Ht Hq l w key script keep throw imm x x'). Qed.
Print Assumptions C52_async_get.
(** [async_get] inside a job of the executor, if the cache has a value: the handler is queued; it does not run
    inside the call. *)
Theorem C52_posted : forall k l n w key script keep throw imm j v (x x' : xcache), fine_cfg k -> tame k -> eq_ok k -> k_resolver k = RAsync ->
  let o := XRun n [OAGet w key script keep throw imm] true in xfine (l ++ [o]) ->
  xrun k l x_init = Ok x -> xrun k (l ++ [o]) x_init = Ok x' -> m_up (me (x_cache x)) = true -> x_jobs x !! n = Some j -> peek k (x_cache x) key = Some v ->
  x_jobs x' = take n (x_jobs x) ++ drop (S n) (x_jobs x) ++ [JDone w v 0] /\ x_done x' = x_done x ++ match j with JDone w v e => [(w, v, e)] | JResolve _ => [] end.
Proof. intros k l n w key script keep throw imm j v x x' Hk Ht Hq. exact (x_posted k Hk Ht Hq l n w key script keep throw imm j v x x'). Qed.
Print Assumptions C52_posted.
(** The completion of a lookup from outside queues the handlers of its requests, with the outcome, in the order
    in which they came; inside a job of the executor they run at once. *)
Theorem C52_completed : forall k l i v us (x x' : xcache), fine_cfg k -> xfine l -> xrun k l x_init = Ok x -> xrun k (l ++ [XCall (OAssign i v us)]) x_init = Ok x' ->
  m_up (me (x_cache x)) = true -> in_flight (x_cache x) i -> (k_pointer k = true -> v ∉ m_dropped (me (x_cache x))) ->
  queued (x_jobs x') = queued (x_jobs x) ++ map (fun w => (w, v, 0)) (waiting_on (x_cache x) i) /\ x_done x' = x_done x /\ ~ in_flight (x_cache x') i.
Proof. intros k l i v us x x' Hk. exact (x_completed k Hk l i v us x x'). Qed.
Print Assumptions C52_completed.
Theorem C52_failed : forall k l i e us (x x' : xcache), fine_cfg k -> xfine l -> xrun k l x_init = Ok x -> xrun k (l ++ [XCall (OFail i e us)]) x_init = Ok x' ->
  m_up (me (x_cache x)) = true -> in_flight (x_cache x) i ->
  queued (x_jobs x') = queued (x_jobs x) ++ map (fun w => (w, 0, e)) (waiting_on (x_cache x) i) /\ x_done x' = x_done x /\ ~ in_flight (x_cache x') i.
Proof. intros k l i e us x x' Hk. exact (x_failed k Hk l i e us x x'). Qed.
Print Assumptions C52_failed.
Theorem C52_dispatched : forall k l n j i v us (x x' : xcache), fine_cfg k -> let o := XRun n [OAssign i v us] true in xfine (l ++ [o]) ->
  xrun k l x_init = Ok x -> xrun k (l ++ [o]) x_init = Ok x' ->
  m_up (me (x_cache x)) = true -> in_flight (x_cache x) i -> (k_pointer k = true -> v ∉ m_dropped (me (x_cache x))) -> x_jobs x !! n = Some j ->
  x_done x' = x_done x ++ match j with JDone w v e => [(w, v, e)] | JResolve _ => [] end ++ map (fun w => (w, v, 0)) (waiting_on (x_cache x) i) /\
  x_jobs x' = take n (x_jobs x) ++ drop (S n) (x_jobs x) /\ ~ in_flight (x_cache x') i.
Proof. intros k l n j i v us x x' Hk. exact (x_dispatched k Hk l n j i v us x x'). Qed.
Print Assumptions C52_dispatched.
(** When the cache is gone no request waits in it, and what remains belongs to outstanding resolver callbacks. *)
Theorem C52_destruction : forall k l1 l2 (x : xcache), fine_cfg k -> xfine (l1 ++ XCall ODestroy :: l2) -> xrun k (l1 ++ XCall ODestroy :: l2) x_init = Ok x ->
  (forall e, entry (x_cache x) e -> outstanding (x_cache x) e) /\ (m_cbs (me (x_cache x)) = ∅ -> m_els (me (x_cache x)) = ∅) /\ (forall w, waiting w (x_cache x) = 0%nat).
Proof. intros k l1 l2 x Hk. exact (x_destroyed k Hk l1 l2 x). Qed.
Print Assumptions C52_destruction.
(** Two requests for a key share a lookup; its resolver runs later, on the executor, and completes another
    lookup at once, which it has started itself; then an answer is at hand, inside and outside. *)
Definition served : list xop :=
  [XCall (OAGet 1 7 [] true false []); XCall (OAGet 2 107 [] true false []); XCall (OAGet 3 8 [] true false []);
   XRun 0 [OAGet 4 9 [OAssign 2 90 []] false false []; OAssign 0 70 []; OAGet 5 207 [] false false []] false; XCall (OAssign 1 80 []); XCall (OAGet 6 8 [] true false [])].
Example C52_example : let k := mod_keys cfg_async in xfine served /\ tame k /\ eq_ok k /\
  (exists x : xcache, xrun k (take 3 served) x_init = Ok x /\ (x_jobs x, x_done x, waiting_on (x_cache x) 0) = ([JResolve 0; JResolve 1], [], [1; 2]%N)) /\
  (exists x : xcache, xrun k served x_init = Ok x /\ (x_jobs x, x_done x) = ([JResolve 1; JDone 4 90 0; JDone 5 70 0; JDone 3 80 0; JDone 6 80 0], [(1%N, 70, 0); (2%N, 70, 0)])) /\
  exists x : xcache, xrun k (served ++ [XRun 2 [] true; XCall ODestroy; XRun 0 [] false; XRun 0 [] true; XRun 1 [] true; XRun 0 [] true]) x_init = Ok x /\
    (x_jobs x, x_done x, map_to_list (m_els (me (x_cache x)))) = ([], [(1%N, 70, 0); (2%N, 70, 0); (5%N, 70, 0); (4%N, 90, 0); (6%N, 80, 0); (3%N, 80, 0)], []).
Proof.
  intros k. split; [by vm_compute|]. split; [by left|]. split; [apply mod_keys_ok|].
  split; [apply (obs_x_after k (take 3 served) (fun x => (x_jobs x, x_done x, waiting_on (x_cache x) 0))); by vm_compute|].
  split; [apply (obs_x_after k served (fun x => (x_jobs x, x_done x))); by vm_compute|].
  apply (obs_x_after k (served ++ _) (fun x => (x_jobs x, x_done x, map_to_list (m_els (me (x_cache x)))))). by vm_compute.
Qed.

(** ** C53 *)
(** With [asio_resolver_policy], an [async_get] that throws because the job of the resolver cannot be made
    leaves an entry that no resolver will ever complete: later requests of the key wait, while nobody has a
    callback, the executor has no job, and no resolver was called. *)
Theorem C53_not_started_refuted : exists x : xcache, xrun cfg_async [XBroken 1 7; XCall (OAGet 2 7 [] true false []); XCall (OAGet 3 7 [] true false [])] x_init = Ok x /\
  (map (fun w => waiting w (x_cache x)) [2; 3]%N, map_to_list (m_cbs (me (x_cache x))), x_jobs x, m_log (me (x_cache x))) = ([1; 1]%nat, [], [], [EvDrop 1]).
Proof. apply (obs_x_after _ _ (fun x => (map (fun w => waiting w (x_cache x)) [2; 3]%N, map_to_list (m_cbs (me (x_cache x))), x_jobs x, m_log (me (x_cache x))))). by vm_compute. Qed.
Print Assumptions C53_not_started_refuted.
(** As long as no resolver returns (without an exception) having dropped its callback or after cancelling a lookup: every request
    that waits in the cache waits for a lookup whose callback still exists and has not been used. Missing: the
    other resolvers ([C26_dropped_at_once_refuted]), and starts that fail ([C53_not_started_refuted]). *)
Theorem C53_not_in_vain_partial : forall k l s w, fine_cfg k -> fine l -> existsb forgets l = false -> after k l s -> m_up (me s) = true ->
  (0 < waiting w s)%nat -> exists i, in_flight s i /\ w ∈ waiting_on s i.
Proof. intros k l s w Hk. exact (not_in_vain k Hk l s w). Qed.
Print Assumptions C53_not_in_vain_partial.
(** The same with [asio_resolver_policy]; there resolvers that are started from outside the executor may drop their callbacks as they like. *)
Theorem C53_executor_partial : forall k l (x : xcache) w, fine_cfg k -> xfine l -> existsb xforgets l = false -> xrun k l x_init = Ok x -> m_up (me (x_cache x)) = true ->
  (0 < waiting w (x_cache x))%nat -> exists i, in_flight (x_cache x) i /\ w ∈ waiting_on (x_cache x) i.
Proof. intros k l x w Hk. exact (x_not_in_vain k Hk l x w). Qed.
Print Assumptions C53_executor_partial.
(** Five requests of three keys: a resolver that throws, one that asks for another key, a lookup that is dropped after a while, one that is completed. *)
Example C53_example : let k := mod_keys cfg_async in
  let l := [OAGet 1 7 [] true false []; OAGet 2 8 [] false true []; OAGet 3 107 [] true false []; OAGet 4 9 [OAGet 5 10 [] true false []] true false []; OCancel 3; OAGet 6 8 [] true false []; OErase 8] in
  let xl := [XCall (OAGet 1 7 [] true false []); XCall (OAGet 2 8 [] true false []); XRun 0 [OAGet 3 108 [] true false []] true; XRun 0 [] false; XCall (OAGet 4 107 [] true false [])] in
  fine_cfg k /\ (fine l /\ existsb forgets l = false) /\ (xfine xl /\ existsb xforgets xl = false) /\
  (exists s, after k l s /\ (m_up (me s), map (fun w => waiting w s) [1; 2; 3; 4; 5; 6]%N, map (waiting_on s) [0; 1; 2; 3; 4]%N) = (true, [1; 0; 1; 1; 0; 1]%nat, [[1; 3]; []; [4]; []; [6]]%N)) /\
  exists x : xcache, xrun k xl x_init = Ok x /\ (m_up (me (x_cache x)), map (fun w => waiting w (x_cache x)) [1; 2; 3; 4]%N, map (waiting_on (x_cache x)) [0; 1]%N) = (true, [1; 0; 0; 1]%nat, [[1; 4]; []]%N).
Proof.
  intros k l xl. split; [by vm_compute|]. split; [by vm_compute|]. split; [by vm_compute|]. split.
  - apply (obs_after _ _ (fun s => (m_up (me s), map (fun w => waiting w s) [1; 2; 3; 4; 5; 6]%N, map (waiting_on s) [0; 1; 2; 3; 4]%N))). by vm_compute.
  - apply (obs_x_after _ _ (fun x => (m_up (me (x_cache x)), map (fun w => waiting w (x_cache x)) [1; 2; 3; 4]%N, map (waiting_on (x_cache x)) [0; 1]%N))). by vm_compute.
Qed.
