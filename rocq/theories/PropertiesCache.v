(** Property theorems about the cache. Model: Cache.v over CachePtr.v. Reachable states and observers:
    Observe.v; the class of histories ([fine]): Histories.v. *)
From Verif Require Import Base Mapped Cache CachePtr Observe Histories PropertiesRefuted Transfer.
Local Open Scope Z_scope.

(** A history with async lookups, a refresh policy, a size limit and ages; joined lookups, an erase
    during a lookup, nested calls from a resolver, a worker round, completions out of order. *)
Definition cfg_full := set_refresh (set_age (set_max_size cfg_async 2) (Some 50) (Some 5) true false) 10 30.
Definition history_full : list op :=
  [OAGet 1 7 [OGetOrEmplace 8 4; OErase 9] true false []; OAGet 2 7 [] true false [];
   OEmplace 9 1; OAGet 3 6 [] true false []; OErase 6; OAssign 1 60 [[OGetIf 6; OCount]]; OAssign 0 70 [[OGetIf 7]; [OAdvance 1 1]];
   OAdvance 3 10; OTick [([], ROk 0, (true, false)); ([], ROk 0, (true, false))]; OAGet 4 7 [] true false [OErase 1]; OFail 2 5 [];
   OReserve 40; OClear; OAGet 5 1 [] false false []; OEmplace 3 3; ODestroy; OAssign 3 1 []; ODropCb 3; ODropCb 0].

(** ** C10 *)
(** Every fine history runs to its end: no undefined behaviour, no [std::terminate], no endless loop. *)
Theorem C10_memory_safe : forall k l, fine_cfg k -> fine l -> exists s, after k l s.
Proof. intros k l Hk Hl. destruct (fine_runs k Hk l Hl) as (_ & s & _ & H & _). exact (ex_intro _ s H). Qed.
Print Assumptions C10_memory_safe.
Example C10_example : fine_cfg cfg_full /\ fine history_full.
Proof. split; [done|by vm_compute]. Qed.

(** ** C23 *)
(** Every request is notified or released at most once. *)
Theorem C23_at_most_once : forall k l s w, fine_cfg k -> fine l -> after k l s ->
  (waiting w s + length (deliveries w s) <= length (filter (fun x => x = w) (waiters l)))%nat.
Proof. intros k l s w Hk. exact (deliveries_bound k Hk l s w). Qed.
Print Assumptions C23_at_most_once.
Example C23_example : exists s, after cfg_full history_full s /\
  map (fun w => length (deliveries w s)) [1; 2; 3; 4; 5]%N = [1; 1; 1; 1; 1]%nat.
Proof. apply (obs_after _ _ (fun s => map (fun w => length (deliveries w s)) [1; 2; 3; 4; 5]%N)). by vm_compute. Qed.

(** ** C33 *)
(** Whatever is done with the outstanding resolver callbacks after the destruction of the cache: the
    remaining entries are exactly those referenced by them; none remains when they are gone; no
    request waits any more, and all requests that were waiting have been notified or released. *)
Theorem C33_destruction : forall k l1 l2 s0 s, fine_cfg k -> fine (l1 ++ ODestroy :: l2) ->
  after k l1 s0 -> after k (l1 ++ ODestroy :: l2) s ->
  (forall e, entry s e -> outstanding s e) /\ (m_cbs (me s) = ∅ -> m_els (me s) = ∅) /\
  (forall w, waiting w s = 0%nat) /\
  (forall w, (waiting w s0 + length (deliveries w s0) <= length (deliveries w s))%nat).
Proof. intros k l1 l2 s0 s Hk. exact (destroyed k Hk l1 l2 s0 s). Qed.
Print Assumptions C33_destruction.
Example C33_example : exists s, after cfg_async [OAGet 1 7 [] true false []; OAGet 2 8 [] true false []; OAGet 3 7 [] true false []; ODestroy] s /\
  (map fst (map_to_list (m_els (me s))), deliveries 1 s, deliveries 2 s, deliveries 3 s) = ([0; 1]%N, [EvDrop 1], [EvDrop 2], [EvDrop 3]).
Proof.
  apply (obs_after _ _ (fun s => (map fst (map_to_list (m_els (me s))), deliveries 1 s, deliveries 2 s, deliveries 3 s))). by vm_compute.
Qed.
