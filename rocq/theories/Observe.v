(** What the property theorems talk about: reachable caches and what can be seen of them.
    All of it is about the pointer-level model (CachePtr.v). *)
From Verif Require Import Base LinkedList BasicHashtable Mapped Cache CachePtr Histories.

Notation cache := (@st comp_ptr).

(** The cache after a history of API calls and environment events. *)
Definition after (k : cfg) (l : list op) (s : cache) : Prop := run k l st_init = Ok s.

(** The result of one more call. *)
Definition answer (k : cfg) (s : cache) (o : op) : option ret :=
  match step k false o s with Ok (_, r) => Some r | _ => None end.
(** [get_if_exists(key)] *)
Definition peek (k : cfg) (s : cache) (key : Z) : option Z :=
  match answer k s (OGetIf key) with Some (RetVal v) => Some v | _ => None end.
(** [count()] *)
Definition live_count (k : cfg) (s : cache) : option nat :=
  match answer k s OCount with Some (RetNum n) => Some n | _ => None end.

(** What happened to the requests of waiter [w] so far (newest first): each entry is an invocation of
    the callback or its destruction without invocation. *)
Definition about (w : N) (v : ev) : bool :=
  match v with EvCall w' _ _ _ | EvDrop w' => bool_decide (w' = w) | EvResolve _ | EvEvict _ => false end.
Definition deliveries (w : N) (s : cache) : list ev := List.filter (about w) (m_log (me s)).
(** How often the resolver was called for keys equal to [key]. *)
Definition resolves (k : cfg) (key : Z) (s : cache) : nat :=
  length (List.filter (fun v => match v with EvResolve key' => k_eq k key' key | _ => false end) (m_log (me s))).

(** The callbacks stored with an element, oldest first. *)
Definition stored_waiters (el : elem) : list N :=
  match el_map el with
  | MPend p => concat (map (fun q => match q with PWait w => [w] | PRefresh _ _ => [] end) (p_cbq p))
  | _ => []
  end.
(** The waiters of the lookup that resolver callback [i] stands for. *)
Definition waiting_on (s : cache) (i : N) : list N :=
  match m_cbs (me s) !! i with
  | Some c => match m_els (me s) !! cb_el c with Some el => stored_waiters el | None => [] end
  | None => []
  end.
(** How many callbacks of waiter [w] are stored in the cache. *)
Definition waiting (w : N) (s : cache) : nat :=
  length (filter (fun x => x = w) (concat (map (fun p => stored_waiters p.2) (map_to_list (m_els (me s)))))).
(** An element (entry) exists / is referenced by an outstanding resolver callback. *)
Definition entry (s : cache) (e : N) : Prop := is_Some (m_els (me s) !! e).
Definition outstanding (s : cache) (e : N) : Prop := exists i c, m_cbs (me s) !! i = Some c /\ cb_el c = e.
(** The resolver holds callback [i] and has not completed it. *)
Definition in_flight (s : cache) (i : N) : Prop := exists c, m_cbs (me s) !! i = Some c /\ cb_called c = false.
(** The key that callback [i] was made for. *)
Definition key_of (s : cache) (i : N) : option Z :=
  match m_cbs (me s) !! i with Some c => el_key <$> m_els (me s) !! cb_el c | None => None end.

(** Callback [i] belongs to a lookup of a key equal to [key] that is in flight and was not expired
    (erased, cleared, evicted). *)
Definition underway (k : cfg) (s : cache) (i : N) (key : Z) : Prop :=
  exists c el p, m_cbs (me s) !! i = Some c /\ cb_called c = false /\ m_els (me s) !! cb_el c = Some el /\
    el_map el = MPend p /\ p_exp p = false /\ k_eq k (el_key el) key = true.
(** [get(key)] (with an async resolver: [async_get(key)]) hits and gives [v] to the caller, whatever the
    resolver would do. *)
Definition hits (k : cfg) (s : cache) (key v : Z) : Prop :=
  match k_resolver k with
  | RAsync => forall w script keep throw, exists s',
      step k false (OAGet w key script keep throw []) s = Ok (s', RetNone) /\ m_log (me s') = EvCall w v 0 true :: m_log (me s)
  | _ => forall script out, exists s',
      step k false (OGet key script out) s = Ok (s', RetVal v) /\ m_log (me s') = m_log (me s)
  end.
(** How often a live entry (one that holds a value, or whose lookup is in flight and not expired) whose key
    equals [key] was evicted to meet the size limit. *)
Definition evictions (k : cfg) (s : cache) (key : Z) : nat :=
  length (List.filter (fun v => match v with EvEvict key' => k_eq k key' key | _ => false end) (m_log (me s))).
(** The same for all keys together. *)
Definition all_evictions (s : cache) : nat :=
  length (List.filter (fun v => match v with EvEvict _ => true | _ => false end) (m_log (me s))).
(** Between [s] and the later [s'] no live entry for [key] is evicted. *)
Definition spared (k : cfg) (s s' : cache) (key : Z) : Prop := k_max_size k = None \/ evictions k s' key = evictions k s key.

(** The entries of the hash table, in the order in which its iterator visits them. *)
Definition table_entries (s : cache) : list N :=
  match ht_elements (p_t (cs s)) (p_h (cs s)) with Ok l => l | _ => [] end.
(** The queue of the refresh worker, front first. *)
Definition refresh_queue (s : cache) : list N :=
  match elements 0 (p_d (cs s)) with Ok l => l | _ => [] end.
(** When an entry is due for refresh ([refresh_tp]). *)
Definition due_at (s : cache) (e : N) : option Z := el_rf <$> m_els (me s) !! e.
Definition due_by (t : Z) (s : cache) (e : N) : bool :=
  match due_at s e with Some d => bool_decide (d <= t)%Z | None => false end.
(** What is in the worker's queue and due at time [t]. *)
Definition overdue (t : Z) (s : cache) : list N := List.filter (due_by t s) (refresh_queue s).
(** The operation completes no lookup of [key] that was in flight before it (which may be the refresh of
    the value that the cache has). And if it is the refresh worker: either none of the lookups that the
    worker starts completes before the operation ends, or no value whose key equals [key] is due for
    refresh. *)
Definition undisturbed (k : cfg) (s : cache) (key : Z) (o : op) : Prop :=
  (forall i key', touches i o = true -> key_of s i = Some key' -> k_eq k key' key = false) /\
  match o with
  | OTick _ =>
      (k_resolver k <> RSync /\ forall i, touches i o = true -> (i < m_ncb (me s))%N) \/
      ((exists delay idle, k_refresh k = Some (delay, idle) /\ (0 < delay)%Z) /\
       forall e el, e ∈ overdue (m_steady (me s)) s -> m_els (me s) !! e = Some el -> k_eq k (el_key el) key = false)
  | _ => True
  end.

(** A value of [key] is due for refresh. *)
Definition due_value (k : cfg) (s : cache) (key : Z) : Prop :=
  exists e el v, e ∈ overdue (m_steady (me s)) s /\ m_els (me s) !! e = Some el /\ k_eq k (el_key el) key = true /\ el_map el = MVal v.

(** What a resolver may do during the call, as far as the value of [key] is concerned: it completes a
    lookup with a value at once (one started since callback number [n] was given out), gives lookups up,
    reads, starts other lookups, inserts other keys (without a size limit) and erases them. It takes no
    time. *)
Fixpoint answering (k : cfg) (n : N) (key : Z) (o : op) : bool :=
  match o with
  | OAssign i _ us => (n <=? i)%N && forallb (forallb timeless) us
  | OGetIf _ | OCount | OReserve _ | OCancel _ | ODropCb _ | OGet _ _ _ => true
  | OAGet _ _ script _ _ imm => forallb (answering k n key) script && forallb (answering k n key) imm
  | OErase key' | OEmplaceThrow key' => negb (k_eq k key' key)
  | OEmplace key' _ | OGetOrEmplace key' _ => negb (k_eq k key' key) && match k_max_size k with None => true | _ => false end
  | _ => false
  end.

(** Some lookup is completed with [v]. *)
Fixpoint completes_with (v : Z) (o : op) : bool :=
  match o with
  | OAssign _ w _ => Z.eqb w v
  | OAGet _ _ script _ _ imm => existsb (completes_with v) script || existsb (completes_with v) imm
  | _ => false
  end.

(** The deadlines of an entry have not passed. *)
Definition in_time (s : cache) (el : elem) : Prop :=
  (forall t, el_xw el = Some t -> (m_wall (me s) < t)%Z) /\
  (forall t, el_xs el = Some t -> (m_steady (me s) < t)%Z) /\
  (forall t, el_cn el = Some t -> (m_steady (me s) < t)%Z).
(** An entry for [key] that still may produce a value: it has one, or a weak pointer to one (dropped
    or not), or its lookup is in flight and was not expired (erased, cleared, evicted). *)
Definition live_entry (s : cache) (e : N) (key : Z) : Prop :=
  e ∈ table_entries s /\ exists el, m_els (me s) !! e = Some el /\ el_key el = key /\
    ((exists v, el_map el = MVal v \/ el_map el = MWeak (Some v)) \/ exists p, el_map el = MPend p /\ p_exp p = false).
(** Entry [n] is being looked up to replace entry [o] (refresh). *)
Definition replaces (s : cache) (n o : N) : Prop :=
  exists el p m, m_els (me s) !! n = Some el /\ el_map el = MPend p /\ PRefresh m o ∈ p_cbq p.
