(** Model of the cache: hashtable.ii, cache.h, the policies, the resolvers, the resolver callback and
    the refresh worker (files under /repo/include/libhoard).

    The code below calls the intrusive containers through the record [comp]. CachePtr.v instantiates
    it with the pointer-level models of LinkedList.v, Queue.v and BasicHashtable.v; that instance is the
    model of the library. CacheAbs.v instantiates it with plain lists, as a proof device. *)
From Verif Require Import Base BasicHashtable Mapped.

(** * Containers used by the cache *)
Record comp := Comp {
  ccs : Type;                                    (** hash table, recency queue and delay queue *)
  c_init : ccs;
  c_alloc : ccs -> N -> res ccs;                 (** construct the base classes of a new element *)
  c_free : ccs -> N -> res ccs;                  (** destroy them *)
  (** basic_hashtable *)
  c_size : ccs -> nat;
  c_bcount : ccs -> nat;
  c_hashof : ccs -> N -> res N;
  c_bucket_for : ccs -> N -> nat;
  c_before_begin : ccs -> nat -> res slot;
  c_before_end : ccs -> nat -> res slot;
  c_before_begin_all : ccs -> slot;
  c_before_end_all : ccs -> res slot;
  c_next : ccs -> slot -> res (option N);        (** the element an iterator reaches by [++] *)
  c_unlink : ccs -> slot -> res (ccs * N);
  c_link : ccs -> N -> N -> res ccs;             (** [link_] *)
  c_rehash : ccs -> nat -> res ccs;
  c_pop : ccs -> res (option (ccs * N));         (** an iteration of [clear_and_dispose] *)
  (** basic_queue *)
  c_qcreate : ccs -> N -> res (ccs * option N);
  c_qhit : ccs -> N -> res ccs;
  c_qunlink : ccs -> N -> res ccs;
  c_victims : ccs -> nat -> res (list N);
  (** delay_queue of the refresh policy *)
  c_dlink : ccs -> N -> res ccs;
  c_dlinked : ccs -> N -> res bool;
  c_dunlink : ccs -> N -> res ccs;
  c_dfront : ccs -> res (option N)
}.

(** * Configuration: the template arguments and policy objects *)
Inductive rkind := RNone | RSync | RAsync.
Record cfg := Cfg {
  k_hash : Z -> N;                 (** hash policy *)
  k_eq : Z -> Z -> bool;           (** equal policy: (stored key, requested key) *)
  k_pointer : bool;                (** pointer_policy: mapped_pointer instead of mapped_value *)
  k_resolver : rkind;              (** resolver_policy / async_resolver_policy *)
  k_max_size : option nat;         (** max_size_policy (brings the queue) *)
  k_weaken : bool;                 (** weaken_policy *)
  k_max_age : option Z;            (** max_age_policy *)
  k_err_age : option Z;            (** error_max_age_policy *)
  k_neg : bool;                    (** negative_cache_policy listed (directly or as a dependency) *)
  k_steady : bool;                 (** [Clock::is_steady] for the clock of the age policies *)
  k_refresh : option (Z * Z);      (** refresh_policy: delay, idle_timer (steady clock) *)
  k_over : nat -> nat -> bool;     (** [float(n) / float(b) > max_load_factor()], see LoadFactor.v *)
  k_mbc : nat;                     (** [max_bucket_count()] *)
  k_req : nat -> nat               (** [size_t(ceil(float(n) / max_load_factor()))] *)
}.

(** value_type.ii:118 [std::is_base_of_v<negative_cache_policy, value_type>]. The bases of [value_type]
    are the [value_base] member types of the policies (hashtable.h:58-72, 287-290).
    negative_cache_policy.h:22-23 only has a [value_base] template, which that detection does not
    find; and even its [value_base_impl] does not derive from [negative_cache_policy]. So the test
    is false whatever the policies are. *)
Definition neg_is_base (k : cfg) : bool := false.

Definition has_queue (k : cfg) : bool := bool_decide (is_Some (k_max_size k)).

(** * State *)
(** [value_type] with its policy bases. [None] time points are [time_point::max()]. *)
Record elem := Elem {
  el_key : Z;
  el_map : mapped;
  el_rc : nat;               (** refcount *)
  el_xw : option Z;          (** expire_at_policy<Clock>::expire_tp_ *)
  el_xs : option Z;          (** expire_at_policy<steady_clock>::expire_tp_ *)
  el_rf : Z;                 (** refresh_tp *)
  el_cn : option Z;          (** cancel_tp *)
  el_rs : bool               (** refresh_started_ *)
}.
(** [async_resolver_callback]: [new_value], [called]; its shared_ptr holders: the local variable of
    [resolve] ([cb_own]) and the user ([cb_kept]). *)
Record cbk := Cbk { cb_el : N; cb_called : bool; cb_own : bool; cb_kept : bool }.

(** A value, or a lookup whose result will be kept. *)
Definition m_live (m : mapped) : bool :=
  match m with MVal _ => true | MPend p => negb (p_exp p) | _ => false end.

(** What the environment can see. *)
Inductive ev :=
| EvResolve (k : Z)                      (** the resolver is called *)
| EvCall (w : N) (v x : Z) (imm : bool)  (** waiter [w]'s callback is invoked with (value, error) *)
| EvDrop (w : N)                         (** waiter [w]'s callback is destroyed without being invoked *)
| EvEvict (k : Z).                       (** a live entry of key [k] is dropped or weakened to keep the size limit
                                             (the code reports nothing; recorded for the theorems) *)

(** Everything except the containers. *)
Record mem := Mem {
  m_els : gmap N elem;       (** the existing elements *)
  m_nxt : N;                 (** next fresh address *)
  m_cbs : gmap N cbk;        (** existing resolver callbacks *)
  m_ncb : N;
  m_wall : Z;                (** clock of the age policies *)
  m_steady : Z;              (** std::chrono::steady_clock *)
  m_dropped : gset Z;        (** pointer mode: objects to which the user holds no pointer *)
  m_up : bool;               (** the cache object exists *)
  m_log : list ev            (** newest first *)
}.
Definition mem_init : mem := Mem ∅ 0 ∅ 0 0 0 ∅ true [].

Definition set_els (m : mem) x := Mem x (m_nxt m) (m_cbs m) (m_ncb m) (m_wall m) (m_steady m) (m_dropped m) (m_up m) (m_log m).
Definition set_nxt (m : mem) x := Mem (m_els m) x (m_cbs m) (m_ncb m) (m_wall m) (m_steady m) (m_dropped m) (m_up m) (m_log m).
Definition set_cbs (m : mem) x := Mem (m_els m) (m_nxt m) x (m_ncb m) (m_wall m) (m_steady m) (m_dropped m) (m_up m) (m_log m).
Definition set_ncb (m : mem) x := Mem (m_els m) (m_nxt m) (m_cbs m) x (m_wall m) (m_steady m) (m_dropped m) (m_up m) (m_log m).
Definition set_clocks (m : mem) w st := Mem (m_els m) (m_nxt m) (m_cbs m) (m_ncb m) w st (m_dropped m) (m_up m) (m_log m).
Definition set_dropped (m : mem) x := Mem (m_els m) (m_nxt m) (m_cbs m) (m_ncb m) (m_wall m) (m_steady m) x (m_up m) (m_log m).
Definition set_up (m : mem) x := Mem (m_els m) (m_nxt m) (m_cbs m) (m_ncb m) (m_wall m) (m_steady m) (m_dropped m) x (m_log m).
Definition add_log (m : mem) x := Mem (m_els m) (m_nxt m) (m_cbs m) (m_ncb m) (m_wall m) (m_steady m) (m_dropped m) (m_up m) (x :: m_log m).

Definition with_map (el : elem) x := Elem (el_key el) x (el_rc el) (el_xw el) (el_xs el) (el_rf el) (el_cn el) (el_rs el).
Definition with_rc (el : elem) x := Elem (el_key el) (el_map el) x (el_xw el) (el_xs el) (el_rf el) (el_cn el) (el_rs el).
Definition with_exp (el : elem) w st := Elem (el_key el) (el_map el) (el_rc el) w st (el_rf el) (el_cn el) (el_rs el).
Definition with_rf (el : elem) x := Elem (el_key el) (el_map el) (el_rc el) (el_xw el) (el_xs el) x (el_cn el) (el_rs el).
Definition with_cn (el : elem) x := Elem (el_key el) (el_map el) (el_rc el) (el_xw el) (el_xs el) (el_rf el) x (el_rs el).
Definition with_rs (el : elem) x := Elem (el_key el) (el_map el) (el_rc el) (el_xw el) (el_xs el) (el_rf el) (el_cn el) x.

(** [e->...]: UB when [e] was destroyed *)
Definition rd_el (m : mem) (e : N) : res elem := deref (m_els m !! e).
Definition wr_el (m : mem) (e : N) (el : elem) : mem := set_els m (<[e := el]> (m_els m)).
Definition upd_el (m : mem) (e : N) (f : elem -> elem) : res mem :=
  el <- rd_el m e;; Ok (wr_el m e (f el)).

(** Time points. *)
Definition reached (now : Z) (tp : option Z) : bool :=
  match tp with None => false | Some t => bool_decide (t <= now)%Z end.
Definition tp_min (a b : option Z) : option Z :=
  match a, b with
  | None, x | x, None => x
  | Some x, Some y => Some (Z.min x y)
  end.

(** What user code returns. *)
Inductive outcome :=
| ROk (v : Z)        (** the sync resolver returns constructor arguments for value [v] *)
| RThrow (x : Z)     (** it throws; [x] is the stored exception_ptr *)
| RCtor.             (** it returns, but the constructor of the value throws *)

(** Results of the API calls. *)
Inductive ret :=
| RetNone                (** no result / nullopt *)
| RetVal (v : Z)
| RetErr (x : Z)         (** exception rethrown to the caller *)
| RetNum (n : nat)
| RetBool (b : bool)
| RetThrew               (** bad_variant_access, or the async resolver's own exception *)
| RetBug.                (** "cache bug: monostate result" *)

(** What a sweep over table elements does after visiting one. *)
Inductive act := Keep | Drop | Stop (r : mres).

Section cache.
  Context {C : comp} (k : cfg).

  Record st := St { cs : ccs C; me : mem }.
  Definition with_cs (s : st) (c : ccs C) : st := St c (me s).
  Definition with_me (s : st) (m : mem) : st := St (cs s) m.
  Definition st_init : st := St (c_init C) mem_init.

  Definition s_el (s : st) (e : N) : res elem := rd_el (me s) e.
  Definition s_upd (s : st) (e : N) (f : elem -> elem) : res st :=
    m <- upd_el (me s) e f;; Ok (with_me s m).
  Definition s_log (s : st) (v : ev) : st := with_me s (add_log (me s) v).

  (** ** Pointer objects. An object is alive while the user holds a pointer to it or a table entry
      holds a strong one. *)
  Definition strong (m : mem) (v : Z) : bool :=
    existsb (fun p : N * elem => match el_map p.2 with MVal x => bool_decide (x = v) | _ => false end)
      (map_to_list (m_els m)).
  Definition alive (m : mem) (v : Z) : bool := bool_decide (v ∉ m_dropped m) || strong m v.
  (** the user obtains a pointer *)
  Definition give (s : st) (v : Z) : st :=
    if k_pointer k then with_me s (set_dropped (me s) (m_dropped (me s) ∖ {[v]})) else s.
  (** the user is able to pass a pointer to [v] *)
  Definition holds (s : st) (v : Z) : bool :=
    negb (k_pointer k) || bool_decide (v ∉ m_dropped (me s)).

  (** ** value_type *)
  (** value_type.ii:113-124 [expired]; the policy bases: expire_at_policy.ii:12-14 (one per clock),
      refresh_policy.ii:25-27 *)
  Definition el_expired (m : mem) (el : elem) : bool :=
    m_expired (k_pointer k) (alive m) (el_map el)
    || (negb (neg_is_base k) && m_holds_error (el_map el))
    || reached (m_wall m) (el_xw el)
    || reached (m_steady m) (el_xs el)
    || reached (m_steady m) (el_cn el).
  (** value_type.ii:109-111 *)
  Definition el_pending (el : elem) : bool := m_pending (el_map el).

  (** value_type.ii:127-139 *)
  Definition mark_expired (s : st) (e : N) : res st :=
    s_upd s e (fun el => with_map el (m_mark_expired (k_pointer k) (el_map el))).
  Definition weaken (s : st) (e : N) : res st :=
    s_upd s e (fun el => with_map el (m_weaken (k_pointer k) (el_map el))).
  Definition strengthen (s : st) (e : N) : res st :=
    s_upd s e (fun el => with_map el (m_strengthen (k_pointer k) (alive (me s)) (el_map el)).1).

  (** ** refcount *)
  (** refcount.ii:6-8 *)
  Definition inc_ref (s : st) (e : N) : res st :=
    s_upd s e (fun el => with_rc el (S (el_rc el))).
  (** Destruction of an element. Its pending callbacks have always been cleared before; if not, the
      model says UB (never reached, see the theorems). *)
  Definition destroy (s : st) (e : N) (el : elem) : res st :=
    match el_map el with
    | MPend (Pend (_ :: _) _ _) => UB
    | _ =>
      c <- c_free C (cs s) e;;
      Ok (St c (set_els (me s) (delete e (m_els (me s)))))
    end.
  (** refcount.ii:10-12, 90-92, 196-207: a refcount_ptr goes out of scope; hashtable.ii:949-952 *)
  Definition drop_ref (s : st) (e : N) : res st :=
    el <- s_el s e;;
    match el_rc el with
    | O => UB
    | S O => destroy s e el
    | S n => s_upd s e (fun el => with_rc el n)
    end.
  (** destruction of a stored callback that was not invoked *)
  Definition drop_pcb (s : st) (p : pcb) : res st :=
    match p with
    | PWait w => Ok (s_log s (EvDrop w))
    | PRefresh _ old => drop_ref s old
    end.
  Fixpoint drop_pcbs (s : st) (ps : list pcb) : res st :=
    match ps with [] => Ok s | p :: r => s <- drop_pcb s p;; drop_pcbs s r end.
  (** destruction of callbacks that have been invoked *)
  Fixpoint free_pcbs (s : st) (ps : list pcb) : res st :=
    match ps with
    | [] => Ok s
    | PWait _ :: r => free_pcbs s r
    | PRefresh _ old :: r => s <- drop_ref s old;; free_pcbs s r
    end.
  (** value_type.ii:142-144, mapped_type.ii:94-97, pending.ii:67-70 [cancel] *)
  Definition el_cancel (s : st) (e : N) : res st :=
    el <- s_el s e;;
    match el_map el with
    | MPend p =>
      s <- s_upd s e (fun el => with_map el (MPend (p_cancel p)));;
      drop_pcbs s (p_cbq p)
    | _ => Ok s
    end.

  (** ** Policy events (hashtable.ii:217-243 calls every policy that has the event) *)
  (** queue.ii:11-22, 112-118 *)
  Definition on_create_ (s : st) (e : N) : res st :=
    if has_queue k then
      '(c, o) <- c_qcreate C (cs s) e;;
      match o with
      | Some x => strengthen (with_cs s c) x
      | None => Ok (with_cs s c)
      end
    else Ok s.
  (** queue.ii:24-37, 120-126; refresh_policy.ii:67-70 *)
  Definition on_hit_ (s : st) (e : N) : res st :=
    s <- (if has_queue k then
            c <- c_qhit C (cs s) e;; strengthen (with_cs s c) e
          else Ok s);;
    match k_refresh k with
    | Some (_, idle) =>
      el <- s_el s e;;
      if negb (bool_decide (idle = 0%Z)) && m_holds_value (alive (me s)) (el_map el)
      then s_upd s e (fun el => with_cn el (Some (m_steady (me s) + idle)%Z))
      else Ok s
    | None => Ok s
    end.
  (** queue.ii:39-60; refresh_policy.ii:74-76 *)
  Definition on_unlink_ (s : st) (e : N) : res st :=
    s <- (if has_queue k then c <- c_qunlink C (cs s) e;; Ok (with_cs s c) else Ok s);;
    if bool_decide (is_Some (k_refresh k)) then
      b <- c_dlinked C (cs s) e;;
      if b : bool then c <- c_dunlink C (cs s) e;; Ok (with_cs s c) else Ok s
    else Ok s.
  (** max_age_policy.ii:18-25 with expire_at_policy.ii:17-19, for one age policy *)
  Definition on_assign_age (s : st) (e : N) (d : Z) : res st :=
    s_upd s e (fun el =>
      with_exp el (tp_min (el_xw el) (Some (m_wall (me s) + d)%Z))
        (if k_steady k then el_xs el else tp_min (el_xs el) (Some (m_steady (me s) + d)%Z))).
  (** refresh_policy.ii:51-63 *)
  Definition on_assign_refresh (s : st) (e : N) (delay idle : Z) : res st :=
    s <- s_upd s e (fun el => with_rf el (m_steady (me s) + delay)%Z);;
    c <- c_dlink C (cs s) e;;
    let s := with_cs s c in
    if bool_decide (idle = 0%Z) then Ok s
    else s_upd s e (fun el => with_cn el (tp_min (el_cn el) (Some (m_steady (me s) + idle)%Z))).
  Definition on_assign_ (s : st) (e : N) (value : bool) : res st :=
    s <- (match k_max_age k with
          | Some d => if value then on_assign_age s e d else Ok s
          | None => Ok s
          end);;
    s <- (match k_err_age k with
          | Some d => if value then Ok s else on_assign_age s e d
          | None => Ok s
          end);;
    match k_refresh k with
    | Some (delay, idle) => if value then on_assign_refresh s e delay idle else Ok s
    | None => Ok s
    end.

  (** ** hashtable *)
  (** hashtable.ii:945-953 *)
  Definition dispose (s : st) (e : N) : res st :=
    s <- el_cancel s e;;
    s <- on_unlink_ s e;;
    drop_ref s e.

  (** The loops with [before_i]/[before_e] of hashtable.ii: 520-561 ([get_]), 647-657
      ([expire_all]), 665-687 ([expire_]), 922-930 ([unlink_expired_elements_]). They differ in what
      they do with the element after [before_i]: skip it, unlink and dispose it, or return. *)
  Fixpoint sweep (fuel : nat) (visit : st -> N -> res (st * act)) (s : st) (bi be : slot)
      : res (st * option (N * mres)) :=
    if bool_decide (bi = be) then Ok (s, None)
    else
      match fuel with
      | O => Fuel
      | S f =>
        o <- c_next C (cs s) bi;;
        e <- deref o;;
        '(s, a) <- visit s e;;
        match a with
        | Keep => sweep f visit s (SSucc e) be
        | Drop =>
          let be := if bool_decide (SSucc e = be) then bi else be in
          '(c, e) <- c_unlink C (cs s) bi;;
          s <- dispose (with_cs s c) e;;
          sweep f visit s bi be
        | Stop r => Ok (s, Some (e, r))
        end
      end.
  Definition sweep_fuel (s : st) : nat := S (size (m_els (me s))).
  Definition sweep_bucket (visit : st -> N -> res (st * act)) (s : st) (hash : N) : res (st * option (N * mres)) :=
    let idx := c_bucket_for C (cs s) hash in
    bi <- c_before_begin C (cs s) idx;;
    be <- c_before_end C (cs s) idx;;
    sweep (sweep_fuel s) visit s bi be.
  Definition sweep_all (visit : st -> N -> res (st * act)) (s : st) : res st :=
    be <- c_before_end_all C (cs s);;
    '(s, _) <- sweep (sweep_fuel s) visit s (c_before_begin_all C (cs s)) be;;
    Ok s.

  (** hashtable.ii:919-931 [unlink_expired_elements_] *)
  Definition unlink_expired_visit (s : st) (e : N) : res (st * act) :=
    el <- s_el s e;;
    Ok (s, if el_expired (me s) el && negb (el_pending el) then Drop else Keep).
  Definition unlink_expired (s : st) : res st := sweep_all unlink_expired_visit s.

  (** hashtable.ii:514-565 [get_]; [incl] is [include_pending] *)
  Definition get_visit (hash : N) (key : Z) (incl : bool) (s : st) (e : N) : res (st * act) :=
    h <- c_hashof C (cs s) e;;
    el <- s_el s e;;
    Ok (s,
      if bool_decide (h <> hash) then
        if el_expired (me s) el && negb (el_pending el) then Drop else Keep
      else
        let val := if k_eq k (el_key el) key then m_get (alive (me s)) incl (el_map el) else R0 in
        if el_expired (me s) el then
          if el_pending el then Keep else Drop
        else
          match val with R0 => Keep | r => Stop r end).
  Definition get_ (s : st) (key : Z) (incl : bool) : res (st * option (N * mres)) :=
    '(s, r) <- sweep_bucket (get_visit (k_hash k key) key incl) s (k_hash k key);;
    match r with
    | Some (e, v) => s <- on_hit_ s e;; Ok (s, Some (e, v))
    | None => Ok (s, None)
    end.

  (** hashtable.ii:488-496 [get_if_exists_] over the iterator range of the bucket *)
  Fixpoint find_loop (fuel : nat) (s : st) (hash : N) (key : Z) (b e : option N) : res mres :=
    if bool_decide (b = e) then Ok R0
    else
      match fuel with
      | O => Fuel
      | S f =>
        x <- deref b;;
        h <- c_hashof C (cs s) x;;
        el <- s_el s x;;
        let val := if k_eq k (el_key el) key then m_get (alive (me s)) false (el_map el) else R0 in
        let found := bool_decide (h = hash) && negb (el_expired (me s) el) in
        match found, val with
        | true, RV v => Ok (RV v)
        | true, RE v => Ok (RE v)
        | _, _ => n <- c_next C (cs s) (SSucc x);; find_loop f s hash key n e
        end
      end.
  Definition get_if_exists (s : st) (key : Z) : res mres :=
    let hash := k_hash k key in
    let idx := c_bucket_for C (cs s) hash in
    bi <- c_before_begin C (cs s) idx;;
    be <- c_before_end C (cs s) idx;;
    b <- c_next C (cs s) bi;;
    e <- c_next C (cs s) be;;
    find_loop (S (sweep_fuel s)) s hash key b e.

  (** hashtable.ii:893-895 [count] *)
  Fixpoint count_loop (fuel : nat) (s : st) (b : option N) : res nat :=
    match b with
    | None => Ok 0
    | Some x =>
      match fuel with
      | O => Fuel
      | S f =>
        el <- s_el s x;;
        n <- c_next C (cs s) (SSucc x);;
        r <- count_loop f s n;;
        Ok (if el_expired (me s) el then r else S r)
      end
    end.
  Definition count (s : st) : res nat :=
    b <- c_next C (cs s) (c_before_begin_all C (cs s));;
    count_loop (sweep_fuel s) s b.

  (** hashtable.ii:661-688 [expire_] *)
  Definition expire_visit (hash : N) (key : Z) (s : st) (e : N) : res (st * act) :=
    h <- c_hashof C (cs s) e;;
    el <- s_el s e;;
    if bool_decide (h = hash) && k_eq k (el_key el) key then
      if el_pending el then s <- mark_expired s e;; Ok (s, Keep) else Ok (s, Drop)
    else
      Ok (s, if el_expired (me s) el && negb (el_pending el) then Drop else Keep).
  Definition expire (s : st) (key : Z) : res st :=
    '(s, _) <- sweep_bucket (expire_visit (k_hash k key) key) s (k_hash k key);;
    Ok s.

  (** hashtable.ii:645-658 [expire_all] *)
  Definition expire_all_visit (s : st) (e : N) : res (st * act) :=
    el <- s_el s e;;
    if el_pending el then s <- mark_expired s e;; Ok (s, Keep) else Ok (s, Drop).
  Definition expire_all (s : st) : res st := sweep_all expire_all_visit s.

  (** basic_hashtable.ii:402-415 with hashtable.ii:715 *)
  Definition maybe_rehash (s : st) : res st :=
    s <- (if k_over k (c_size C (cs s) + 1) (c_bcount C (cs s)) then unlink_expired s else Ok s);;
    let n := c_bcount C (cs s) in
    if bool_decide (n = 0) || (k_over k (c_size C (cs s) + 1) n && bool_decide (n < k_mbc k)) then
      c <- c_rehash C (cs s)
             (if bool_decide (n = 0) then initial_size
              else if bool_decide (k_mbc k / 2 < n) then k_mbc k else 2 * n);;
      Ok (with_cs s c)
    else Ok s.
  (** hashtable.ii:714-719 [link]. [vptr.release()]: the caller's reference becomes the table's. *)
  Definition link (s : st) (hash : N) (e : N) : res st :=
    s <- maybe_rehash s;;
    c <- c_link C (cs s) hash e;;
    s <- on_create_ (with_cs s c) e;;
    el <- s_el s e;;
    if el_pending el then Ok s
    else on_assign_ s e (m_holds_value (alive (me s)) (el_map el)).

  (** hashtable.ii:483-485, basic_hashtable.ii:384-400 [reserve] *)
  Definition reserve (s : st) (n : nat) : res st :=
    let r := Nat.min (k_req k n) (k_mbc k) in
    s <- (if bool_decide (c_bcount C (cs s) < r) then unlink_expired s else Ok s);;
    if bool_decide (c_bcount C (cs s) < r) then c <- c_rehash C (cs s) r;; Ok (with_cs s c) else Ok s.

  (** hashtable.ii:702-704 [allocate_value_type]: refcount 1, owned by the returned handle *)
  Definition allocate (s : st) (key : Z) (m : mapped) : res (st * N) :=
    let e := m_nxt (me s) in
    c <- c_alloc C (cs s) e;;
    Ok (St c (set_nxt (wr_el (me s) e (Elem key m 1 None None 0 None false)) (N.succ e)), e).

  (** hashtable.ii:898-904 [maintenance_]; max_size_policy.ii:17-20; queue.ii:95-110 [lru_expire_] *)
  Fixpoint expire_victims (s : st) (l : list N) : res st :=
    match l with
    | [] => Ok s
    | e :: r =>
      el <- rd_el (me s) e;;
      let s := if m_live (el_map el) then s_log s (EvEvict (el_key el)) else s in
      s <- (if k_weaken k then weaken s e else mark_expired s e);;
      expire_victims s r
    end.
  Definition maintenance_ (s : st) : res st :=
    match k_max_size k with
    | Some mx =>
      let sz := c_size C (cs s) in
      l <- c_victims C (cs s) (if bool_decide (mx < sz) then sz - mx else 0);;
      expire_victims s l
    | None => Ok s
    end.

  (** hashtable.ii:769-795 [emplace] *)
  Definition emplace (s : st) (key v : Z) : res st :=
    s <- expire s key;;
    '(s, e) <- allocate s key (MVal v);;
    s <- link s (k_hash k key) e;;
    maintenance_ s.
  (** the same when the constructor of the value throws *)
  Definition emplace_throw (s : st) (key : Z) : res st := expire s key.

  (** hashtable.ii:797-890 [get_or_emplace] without pending pointers *)
  Definition get_or_emplace (s : st) (key v : Z) : res (st * mres) :=
    '(s, r) <- get_ s key true;;
    match r with
    | Some (_, r) => s <- maintenance_ s;; Ok (s, match r with RP => R0 | x => x end)
    | None =>
      '(s, e) <- allocate s key (MVal v);;
      s <- inc_ref s e;;
      s <- link s (k_hash k key) e;;
      s <- maintenance_ s;;
      s <- drop_ref s e;;
      Ok (s, RV v)
    end.

  (** ** Completing a lookup *)
  (** mapped_type.ii [assign], first part, and pending.ii:21-30: run the callbacks. [us] is what the
      users' callbacks do (one program per waiter, nothing if the list is too short). For plain values
      the callbacks receive a reference into the variant: if an earlier callback made the cache
      replace the variant's content, using it is UB. *)
  Definition refresh_event (s : st) (new old : N) : res st :=
    (* refresh_impl_policy.ii:72-73; refresh_policy.ii:30-32 *)
    o <- s_el s old;;
    s <- (if bool_decide (is_Some (k_refresh k)) then s_upd s new (fun el => with_cn el (tp_min (el_cn el) (el_cn o))) else Ok s);;
    mark_expired s old.
  Fixpoint deliver (s : st) (e : N) (v : Z) (cbq : list pcb) (us : list (st -> res st)) : res st :=
    match cbq with
    | [] => Ok s
    | PWait w :: r =>
      el <- s_el s e;;
      if negb (k_pointer k) && negb (match el_map el with MVal x => bool_decide (x = v) | _ => false end) then UB
      else
        let s := give (s_log s (EvCall w v 0 false)) v in
        match us with
        | [] => deliver s e v r []
        | u :: us => s <- u s;; deliver s e v r us
        end
    | PRefresh new old :: r => s <- refresh_event s new old;; deliver s e v r us
    end.
  (** mapped_type.ii:34-38, 223-244 [assign]; [None]: bad_variant_access *)
  Definition el_assign (s : st) (e : N) (v : Z) (us : list (st -> res st)) : res (option st) :=
    el <- s_el s e;;
    match el_map el with
    | MPend p =>
      s <- s_upd s e (fun el => with_map el (MVal v));;
      s <- deliver s e v (p_cbq p) us;;
      s <- free_pcbs s (p_cbq p);;
      el <- s_el s e;;
      m <- m_settle (k_pointer k) p (el_map el);;
      s <- s_upd s e (fun el => with_map el m);;
      Ok (Some s)
    | _ => Ok None
    end.
  (** pending.ii:33-42: the vector of callbacks stays in the element while they run; a callback that
      adds another one (or clears them) invalidates the iteration. *)
  Fixpoint deliver_error (s : st) (e : N) (x : Z) (all cbq : list pcb) (us : list (st -> res st)) : res st :=
    match cbq with
    | [] => Ok s
    | PWait w :: r =>
      let s := s_log s (EvCall w 0 x false) in
      match us with
      | [] => deliver_error s e x all r []
      | u :: us =>
        s <- u s;;
        el <- s_el s e;;
        match el_map el with
        | MPend p => if bool_decide (p_cbq p = all) then deliver_error s e x all r us else UB
        | _ => UB
        end
      end
    | PRefresh new old :: r => s <- refresh_event s new old;; deliver_error s e x all r us
    end.
  (** mapped_type.ii:41-48, 247-263 [assign_error], noexcept *)
  Definition el_fail (s : st) (e : N) (x : Z) (us : list (st -> res st)) : res st :=
    el <- s_el s e;;
    match el_map el with
    | MPend p =>
      s <- deliver_error s e x (p_cbq p) (p_cbq p) us;;
      el <- s_el s e;;
      match el_map el with
      | MPend p =>
        s <- s_upd s e (fun el => with_map el (m_settle_error (k_pointer k) x p));;
        free_pcbs s (p_cbq p)
      | _ => UB
      end
    | _ => Term
    end.

  (** ** Resolvers *)
  (** resolver_policy.ii:34-53 (resolver not noexcept). The result is the new element, with one
      reference owned by the caller. *)
  Definition resolve_sync (s : st) (hash : N) (key : Z) (u : st -> res st) (out : outcome) : res (st * N) :=
    '(s, e) <- allocate s key (MPend pend_init);;
    s <- u (s_log s (EvResolve key));;
    s <- (match out with
          | ROk v =>
            if holds s v then
              o <- el_assign s e v [];;
              match o with Some s => Ok s | None => el_fail s e 1 [] end
            else el_fail s e 1 []  (* not possible: the resolver would have to return a pointer it does not have *)
          | RThrow x => el_fail s e x []
          | RCtor => Term  (* [assign] leaves the variant valueless; [assign_error] is noexcept and finds no pending object *)
          end);;
    s <- inc_ref s e;;
    s <- link s hash e;;
    Ok (s, e).

  (** async_resolver_callback.h:62-73 [cancel] and 25-27 destructor *)
  Definition cb_cancel (s : st) (i : N) (c : cbk) : res (st * bool) :=
    if cb_called c then Ok (s, false)
    else
      s <- el_cancel s (cb_el c);;
      Ok (with_me s (set_cbs (me s) (<[i := Cbk (cb_el c) true (cb_own c) (cb_kept c)]> (m_cbs (me s)))), true).
  (** a shared_ptr holder of the callback goes away; the last one destroys it *)
  Definition cb_holders (s : st) (i : N) (own kept : bool) : res st :=
    c <- deref (m_cbs (me s) !! i);;
    if own || kept then
      Ok (with_me s (set_cbs (me s) (<[i := Cbk (cb_el c) (cb_called c) own kept]> (m_cbs (me s)))))
    else
      '(s, _) <- cb_cancel s i c;;
      drop_ref (with_me s (set_cbs (me s) (delete i (m_cbs (me s))))) (cb_el c).

  (** resolver_policy.ii:83-93. [keep]: the resolver stored the callback; [throw]: it ends with an
      exception. The result is [None] for an exception. *)
  Definition resolve_async (s : st) (hash : N) (key : Z) (u : st -> res st) (keep throw : bool)
      : res (st * option N) :=
    '(s, e) <- allocate s key (MPend pend_init);;
    let i := m_ncb (me s) in
    s <- inc_ref s e;;
    let s := with_me s (set_ncb (set_cbs (me s) (<[i := Cbk e false true true]> (m_cbs (me s)))) (N.succ i)) in
    s <- inc_ref s e;;
    s <- link s hash e;;
    s <- u (s_log s (EvResolve key));;
    c <- deref (m_cbs (me s) !! i);;
    s <- cb_holders s i false (cb_kept c && keep);;
    if throw then s <- drop_ref s e;; Ok (s, None) else Ok (s, Some e).

  (** async_resolver_callback.h:30-44 [assign]. The flag in the log of the callback is updated after
      the user callbacks have run. *)
  Definition cb_assign (s : st) (i : N) (v : Z) (us : list (st -> res st)) : res (st * ret) :=
    match m_cbs (me s) !! i with
    | None => Ok (s, RetNone)
    | Some c =>
      if cb_called c then Ok (s, RetBool false)
      else if m_up (me s) then
        if holds s v then
          o <- el_assign s (cb_el c) v us;;
          match o with
          | None => Ok (s, RetThrew)
          | Some s =>
            s <- on_assign_ s (cb_el c) true;;
            c <- deref (m_cbs (me s) !! i);;
            Ok (with_me s (set_cbs (me s) (<[i := Cbk (cb_el c) true (cb_own c) (cb_kept c)]> (m_cbs (me s)))), RetBool true)
          end
        else Ok (s, RetNone)
      else
        '(s, _) <- cb_cancel s i c;; Ok (s, RetBool false)
    end.
  (** the same when the value's constructor throws: mapped_type.ii:35-36 has moved the pending object
      out (its callbacks are destroyed when it goes out of scope) and left the variant valueless *)
  Definition cb_assign_throw (s : st) (i : N) : res (st * ret) :=
    match m_cbs (me s) !! i with
    | None => Ok (s, RetNone)
    | Some c =>
      if cb_called c then Ok (s, RetBool false)
      else if m_up (me s) then
        el <- s_el s (cb_el c);;
        match el_map el with
        | MPend p =>
          s <- s_upd s (cb_el c) (fun el => with_map el MNone);;
          s <- drop_pcbs s (p_cbq p);;
          Ok (s, RetThrew)
        | _ => Ok (s, RetThrew)
        end
      else
        '(s, _) <- cb_cancel s i c;; Ok (s, RetBool false)
    end.
  (** async_resolver_callback.h:46-60 [assign_error] *)
  Definition cb_fail (s : st) (i : N) (x : Z) (us : list (st -> res st)) : res (st * ret) :=
    match m_cbs (me s) !! i with
    | None => Ok (s, RetNone)
    | Some c =>
      if cb_called c then Ok (s, RetBool false)
      else if m_up (me s) then
        s <- el_fail s (cb_el c) x us;;
        s <- on_assign_ s (cb_el c) false;;
        c <- deref (m_cbs (me s) !! i);;
        Ok (with_me s (set_cbs (me s) (<[i := Cbk (cb_el c) true (cb_own c) (cb_kept c)]> (m_cbs (me s)))), RetBool true)
      else
        '(s, _) <- cb_cancel s i c;; Ok (s, RetBool false)
    end.

  (** ** Lookups *)
  Definition ret_value (s : st) (v : Z) : st * ret := (give s v, RetVal v).

  (** hashtable.ii:567-595 [get]; detail/cache_get.h:25-39 (no resolver); resolver_policy.ii:103-120 *)
  Definition get (s : st) (key : Z) (u : st -> res st) (out : outcome) : res (st * ret) :=
    '(s, r) <- get_ s key false;;
    match k_resolver k with
    | RNone =>
      match r with
      | Some (_, RV v) => Ok (ret_value s v)
      | _ => Ok (s, RetNone)
      end
    | RSync =>
      '(s, r) <- (match r with
                  | Some (_, r) => Ok (s, r)
                  | None =>
                    '(s, e) <- resolve_sync s (k_hash k key) key u out;;
                    el <- s_el s e;;
                    let r := m_get (alive (me s)) false (el_map el) in
                    s <- drop_ref s e;;
                    Ok (s, r)
                  end);;
      match r with
      | RV v => Ok (ret_value s v)
      | RE x => Ok (s, RetErr x)
      | _ => Ok (s, RetBug)
      end
    | RAsync => Ok (s, RetNone)
    end.

  (** hashtable.ii:614-641: what [async_get] does with the result; [uc] is what the callback does if
      it is invoked immediately *)
  Definition async_finish (s : st) (w : N) (e : N) (r : mres) (uc : st -> res st) : res st :=
    match r with
    | R0 => Ok (s_log s (EvDrop w))
    | RV v => uc (give (s_log s (EvCall w v 0 true)) v)
    | RE x => uc (s_log s (EvCall w 0 x true))
    | RP => s_upd s e (fun el => with_map el (match el_map el with MPend p => MPend (p_add p (PWait w)) | m => m end))
    end.
  (** hashtable.ii:597-642 [async_get]; resolver_policy.ii:125-148 *)
  Definition async_get (s : st) (w : N) (key : Z) (u : st -> res st) (keep throw : bool) (uc : st -> res st) : res (st * ret) :=
    '(s, r) <- get_ s key true;;
    match r with
    | Some (e, r) => s <- async_finish s w e r uc;; Ok (s, RetNone)
    | None =>
      '(s, o) <- resolve_async s (k_hash k key) key u keep throw;;
      match o with
      | None => Ok (s_log s (EvDrop w), RetThrew)
      | Some e =>
        el <- s_el s e;;
        s <- async_finish s w e (m_get (alive (me s)) true (el_map el)) uc;;
        s <- drop_ref s e;;
        Ok (s, RetNone)
      end
    end.

  (** ** Refresh worker *)
  (** refresh_impl_policy.ii:53-89 [refresh]; the key is always present (not an identity cache). An
      exception of the async resolver leaves [worker_task], a thread function: terminate. *)
  Definition refresh (s : st) (e : N) (u : st -> res st) (out : outcome) (keep throw : bool) : res st :=
    el <- s_el s e;;
    if el_rs el || el_expired (me s) el then Ok s
    else
      s <- inc_ref s e;;
      h <- c_hashof C (cs s) e;;
      '(s, l) <- (match k_resolver k with
                  | RNone => UB  (* does not compile *)
                  | RSync => resolve_sync s h (el_key el) u out
                  | RAsync =>
                    '(s, o) <- resolve_async s h (el_key el) u keep throw;;
                    match o with Some l => Ok (s, l) | None => Term end
                  end);;
      s <- s_upd s e (fun el => with_rs el true);;
      ll <- s_el s l;;
      s <- (match el_map ll with
            | MPend p =>
              s <- s_upd s l (fun el => with_map el (MPend (p_add p (PRefresh l e))));;
              inc_ref s e
            | _ => refresh_event s l e
            end);;
      s <- drop_ref s l;;
      drop_ref s e.
  (** refresh_policy.ii:117-121: one round of the worker. Each item says what the resolver does in one
      iteration; if the list ends early the round is cut short. *)
  Fixpoint worker (s : st) (now : Z) (items : list ((st -> res st) * outcome * (bool * bool))) : res st :=
    match items with
    | [] => Ok s
    | (u, out, (keep, throw)) :: r =>
      o <- c_dfront C (cs s);;
      match o with
      | None => Ok s
      | Some e =>
        el <- s_el s e;;
        if bool_decide (el_rf el <= now)%Z then
          c <- c_dunlink C (cs s) e;;
          s <- refresh (with_cs s c) e u out keep throw;;
          worker s now r
        else Ok s
      end
    end.

  (** hashtable.ii:478-480 [~hashtable], basic_hashtable.ii:57-66 *)
  Fixpoint destroy_loop (fuel : nat) (s : st) : res st :=
    match fuel with
    | O => Fuel
    | S f =>
      o <- c_pop C (cs s);;
      match o with
      | None => Ok s
      | Some (c, e) => s <- dispose (with_cs s c) e;; destroy_loop f s
      end
    end.

  (** ** Histories *)
  (** One API call, or one event of the environment. Programs run by user code (resolvers, completion
      callbacks) are lists of operations. *)
  Inductive op :=
  | OGetIf (key : Z)
  | OCount
  | OGet (key : Z) (script : list op) (out : outcome)
  | OAGet (w : N) (key : Z) (script : list op) (keep throw : bool) (imm : list op)
  | OEmplace (key v : Z)
  | OEmplaceThrow (key : Z)
  | OGetOrEmplace (key v : Z)
  | OErase (key : Z)
  | OClear
  | OReserve (n : nat)
  | OAssign (cb : N) (v : Z) (scripts : list (list op))
  | OAssignThrow (cb : N)
  | OFail (cb : N) (x : Z) (scripts : list (list op))
  | OCancel (cb : N)
  | ODropCb (cb : N)
  | OAdvance (dw : Z) (ds : Z)
  | ORelease (v : Z)
  | OTick (items : list (list op * outcome * (bool * bool)))
  | ODestroy.

  (** [nested]: inside user code run by the cache. The cache must not be destroyed from there, and the
      worker cannot run there (it needs the lock): those two are errors of the history (UB). *)
  Definition step_with (run : list op -> st -> res st) (nested : bool) (o : op) (s : st) : res (st * ret) :=
    let nop := Ok (s, RetNone) in
    if negb (m_up (me s)) &&
       match o with OAssign _ _ _ | OAssignThrow _ | OFail _ _ _ | OCancel _ | ODropCb _ | OAdvance _ _ | ORelease _ => false | _ => true end
    then nop  (* no cache object to call *)
    else
    match o with
    | OGetIf key =>
      r <- get_if_exists s key;;
      Ok (match r with RV v => ret_value s v | _ => (s, RetNone) end)
    | OCount => n <- count s;; Ok (s, RetNum n)
    | OGet key script out =>
      match k_resolver k with
      | RAsync => nop  (* no such member function *)
      | _ => get s key (run script) out
      end
    | OAGet w key script keep throw imm =>
      match k_resolver k with
      | RAsync => async_get s w key (run script) keep throw (run imm)
      | _ => nop  (* no such member function *)
      end
    | OEmplace key v => if holds s v then s <- emplace s key v;; Ok (s, RetNone) else nop
    | OEmplaceThrow key => s <- emplace_throw s key;; Ok (s, RetThrew)
    | OGetOrEmplace key v =>
      if holds s v then
        '(s, r) <- get_or_emplace s key v;;
        Ok (match r with RV v => ret_value s v | _ => (s, RetThrew) end)
      else nop
    | OErase key => s <- expire s key;; Ok (s, RetNone)
    | OClear => s <- expire_all s;; Ok (s, RetNone)
    | OReserve n => s <- reserve s n;; Ok (s, RetNone)
    | OAssign i v scripts => cb_assign s i v (map run scripts)
    | OAssignThrow i => cb_assign_throw s i
    | OFail i x scripts => cb_fail s i x (map run scripts)
    | OCancel i =>
      match m_cbs (me s) !! i with
      | None => nop
      | Some c => '(s, b) <- cb_cancel s i c;; Ok (s, RetBool b)
      end
    | ODropCb i =>
      match m_cbs (me s) !! i with
      | None => nop
      | Some c => s <- cb_holders s i (cb_own c) false;; Ok (s, RetNone)
      end
    | OAdvance dw ds =>
      Ok (with_me s (set_clocks (me s) (m_wall (me s) + if k_steady k then Z.max 0 dw else dw)%Z
                       (m_steady (me s) + Z.max 0 ds)%Z), RetNone)
    | ORelease v => Ok (with_me s (set_dropped (me s) ({[v]} ∪ m_dropped (me s))), RetNone)
    | OTick items =>
      if nested then UB
      else
        match k_refresh k with
        | None => nop
        | Some _ =>
          s <- worker s (m_steady (me s))
                 (map (fun i => (run i.1.1, i.1.2, i.2)) items);;
          Ok (s, RetNone)
        end
    | ODestroy =>
      if nested then UB
      else
        s <- destroy_loop (sweep_fuel s) (with_me s (set_up (me s) false));;
        Ok (s, RetNone)
    end.
  Fixpoint step (nested : bool) (o : op) (s : st) {struct o} : res (st * ret) :=
    step_with
      (fix run (l : list op) (s : st) {struct l} : res st :=
         match l with
         | [] => Ok s
         | o :: r => '(s, _) <- step true o s;; run r s
         end) nested o s.
  (** programs of user code *)
  Definition run_nested : list op -> st -> res st :=
    fix run (l : list op) (s : st) {struct l} : res st :=
      match l with
      | [] => Ok s
      | o :: r => '(s, _) <- step true o s;; run r s
      end.
  (** whole histories *)
  Fixpoint run (l : list op) (s : st) : res st :=
    match l with
    | [] => Ok s
    | o :: r => '(s, _) <- step false o s;; run r s
    end.
End cache.
