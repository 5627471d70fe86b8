(** Model of [asio_refresh_policy] (/repo/include/libhoard/asio/refresh_policy.h, refresh_policy.ii):
    instead of a thread with a queue, every value has a timer, and the handlers of the timers run on an
    executor.

    A timer that runs is an entry of the refresh queue of Cache.v: [on_assign_] starts it
    (asio/refresh_policy.ii:53-77, as refresh_policy.ii:51-63 puts the value into the queue),
    [on_unlink_] cancels it (94-96, as refresh_policy.ii:74-76 takes the value off the queue); [on_hit_],
    [on_refresh] and [expired] are the same functions (25-32, 82-85). What differs is what happens when the
    time has come. The wait completes and its handler is queued on the executor; from then on [cancel()]
    does not stop it (basic_waitable_timer::cancel: "if the timer has already expired when cancel() is
    called, then the handlers for asynchronous wait operations will: have already been invoked; or have
    been queued for invocation in the near future. These handlers can no longer be cancelled"). Later the
    executor runs the handler.

    Simplified: the reference that a running timer holds on its value is not counted (the aborted handler
    does nothing but release it); the reference of a queued handler and the one that [refresh] takes while
    the handler runs are one. *)
From Verif Require Import Base Mapped Cache Histories.

Section asio.
  Context {C : comp} (k : cfg).
  Notation st := (@st C).

  (** the cache, and the values whose handlers are queued on the executor *)
  Record ast := ASt { a_cache : st; a_queued : list N }.
  Definition a_init : ast := ASt st_init [].

  (** The wait of the timer of value [e] completes: its handler is queued and holds the value. *)
  Definition run_out (a : ast) (e : N) : res ast :=
    let s := a_cache a in
    c <- c_dunlink C (cs s) e;;
    s <- inc_ref (with_cs s c) e;;
    Ok (ASt s (a_queued a ++ [e])).
  (** The wait of the first timer completes, if its time has come. (Timers run out in the order of
      their expiry times.) The destructor has cancelled all timers. *)
  Definition fire (a : ast) : res ast :=
    let s := a_cache a in
    if negb (m_up (me s)) then Ok a
    else
      o <- c_dfront C (cs s);;
      match o with
      | None => Ok a
      | Some e =>
        el <- s_el s e;;
        if bool_decide (el_rf el <= m_steady (me s))%Z then run_out a e else Ok a
      end.
  (** [asio_refresh_fn_policy] (asio/refresh_policy.h:62-117, refresh_policy.ii:88-180): the time at which
      a value is to be refreshed is given by a function of the value, [refresh_fn]; [update_refresh_]
      (168-180) adds it to the time of the assignment if it is a duration, and takes it as it is if it is a
      time point. [due v t]: the time for value [v] assigned at time [t]. The configuration is that of a
      refresh delay of 0, so that [el_rf] is the time of the assignment (131-153 [on_assign_]). The other
      functions are those of [asio_refresh_policy].

      The timer of value [e], if it runs, completes its wait, if its time has come. The model knows the
      value from the entry; the timers of entries that have lost their value may run out at any time (an
      over-approximation). Not modelled: a [refresh_fn] that throws ([on_assign_] is noexcept). *)
  Definition expire_timer (due : Z -> Z -> Z) (e : N) (a : ast) : res ast :=
    let s := a_cache a in
    if negb (m_up (me s)) then Ok a
    else match m_els (me s) !! e with
      | None => Ok a
      | Some el =>
        b <- c_dlinked C (cs s) e;;
        if b && match el_map el with MVal v | MWeak (Some v) => bool_decide (due v (el_rf el) <= m_steady (me s))%Z | _ => true end
        then run_out a e else Ok a
      end.
  (** The handler, asio/refresh_policy.ii:61-67, with refresh_impl_policy.ii:53-89 [refresh]. An exception
      of an async resolver leaves the handler; [io_context::run] passes it on to the user's code. *)
  Definition handler (s : st) (e : N) (u : st -> res st) (out : outcome) (keep throw : bool) : res st :=
    if negb (m_up (me s)) then drop_ref s e  (* [weak_ref.lock()] is null *)
    else
      el <- s_el s e;;
      if el_rs el || el_expired k (me s) el then drop_ref s e
      else
        h <- c_hashof C (cs s) e;;
        '(s, o) <- (match k_resolver k with
                    | RNone => UB  (* does not compile *)
                    | RSync => '(s, l) <- resolve_sync k s h (el_key el) u out;; Ok (s, Some l)
                    | RAsync => resolve_async k s h (el_key el) u keep throw
                    end);;
        match o with
        | None => drop_ref s e
        | Some l =>
          s <- s_upd s e (fun el => with_rs el true);;
          ll <- s_el s l;;
          s <- (match el_map ll with
                | MPend p =>
                  s <- s_upd s l (fun el => with_map el (MPend (p_add p (PRefresh l e))));;
                  inc_ref s e
                | _ => refresh_event k s l e
                end);;
          s <- drop_ref s l;;
          drop_ref s e
        end.

  (** API calls and environment events as in Cache.v (there is no worker thread); the first timer runs out;
      the timer of [e] runs out ([asio_refresh_fn_policy]); the
      executor runs the [n]-th queued handler (an executor may have several threads; they run their
      handlers under the lock, in any order). [item]: what the resolver does. *)
  Inductive aop :=
  | ACall (o : op)
  | AFire
  | AExpire (due : Z -> Z -> Z) (e : N)
  | AHandle (n : nat) (item : list op * outcome * (bool * bool)).
  Definition astep (o : aop) (a : ast) : res (ast * ret) :=
    match o with
    | ACall (OTick _) => Ok (a, RetNone)
    | ACall o => '(s, r) <- step k false o (a_cache a);; Ok (ASt s (a_queued a), r)
    | AFire => a <- fire a;; Ok (a, RetNone)
    | AExpire due e => a <- expire_timer due e a;; Ok (a, RetNone)
    | AHandle n (script, out, (keep, throw)) =>
      match a_queued a !! n with
      | None => Ok (a, RetNone)
      | Some e =>
        s <- handler (a_cache a) e (run_nested k script) out keep throw;;
        Ok (ASt s (take n (a_queued a) ++ drop (S n) (a_queued a)), RetNone)
      end
    end.
  Fixpoint arun (l : list aop) (a : ast) : res ast :=
    match l with
    | [] => Ok a
    | o :: r => '(a, _) <- astep o a;; arun r a
    end.
End asio.
Arguments ast : clear implicits.

(** ** What the properties mention *)
(** The executor runs every handler as soon as its timer has run out, before anybody else calls the
    cache. Then the timers do what a refresh thread does that serves one value at a time: *)
Fixpoint prompt (l : list aop) : option (list op) :=
  match l with
  | [] => Some []
  | ACall (OTick _) :: _ => None
  | ACall o :: r => cons o <$> prompt r
  | AFire :: AHandle 0 item :: r => cons (OTick [item]) <$> prompt r
  | _ => None
  end.
(** May the operation add a key of [P] to the cache, other than by refreshing a value? *)
Definition aenters (P : Z -> bool) (o : aop) : bool :=
  match o with
  | ACall o => enters P o
  | AFire | AExpire _ _ => false
  | AHandle _ item => existsb (enters P) item.1.1
  end.
(** Fine histories (Histories.v) with timers: the operations are fine, as are those in the resolvers of
    the handlers. The resolver of a handler may throw. *)
Definition afine_op (o : aop) : bool :=
  match o with
  | ACall o => fine_op false o
  | AFire | AExpire _ _ => true
  | AHandle _ (script, out, _) => forallb (fine_op true) script && no_ctor_throw out
  end.
Definition afine (l : list aop) : Prop := forallb afine_op l = true.
(** Upper bound for the requests a history makes (as [waiters] in Histories.v). *)
Definition awaiters (l : list aop) : list N :=
  concat (map (fun o => match o with
    | ACall (OTick _) => []  (* there is no thread *)
    | ACall o => op_waiters o
    | AFire | AExpire _ _ => []
    | AHandle _ (script, _, _) => concat (map op_waiters script)
    end) l).
(** A handler for a key equal to [key] is queued. *)
Definition handler_queued {C : comp} (k : cfg) (a : ast C) (key : Z) : Prop :=
  exists e el, e ∈ a_queued a /\ m_els (me (a_cache a)) !! e = Some el /\ k_eq k (el_key el) key = true.
(** As [plain_op] (Histories.v); the resolvers of the handlers do not throw. *)
Definition aplain_op (k : cfg) (o : aop) : bool :=
  match o with
  | ACall (OTick _) => true
  | ACall o => plain_op k o
  | AFire | AExpire _ _ => true
  | AHandle _ item => plain_op k (OTick [item]) && negb item.2.2
  end.
(** May the operation set a clock back? *)
Definition aback (o : aop) : bool :=
  match o with
  | ACall o => sets_back o
  | AFire | AExpire _ _ => false
  | AHandle _ item => existsb sets_back item.1.1
  end.
(** Does the async resolver throw that the operation calls to refresh a value? *)
Definition athrows (o : aop) : bool :=
  match o with
  | AHandle _ item => item.2.2
  | _ => false
  end.
