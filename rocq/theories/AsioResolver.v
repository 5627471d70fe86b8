(** Model of [asio_resolver_policy] (/repo/include/libhoard/asio/resolver_policy.h): an async resolver that
    runs on an executor, and an [async_get] whose completion handlers run on an executor.

    [resolve] (72-86) links the pending entry and [dispatch]es a job that owns the functor and the resolver
    callback. The lambda that [async_get] (118-151) gives to the cache [post]s the completion handler if the
    outcome is at hand ([is_immediately_resolved], cache_async_get.h), and [dispatch]es it otherwise. Both are
    functions of Cache.v with other user code in them: [resolve_async] where the resolver stores its callback
    in a job, [async_finish] and [deliver]/[deliver_error] where the callback of a request queues a job.
    [dispatch] runs the job at once when it is called on a thread of the executor, and queues it when not;
    [post] always queues it.

    Any code may call a resolver callback at any time, also one that is still in a queued job (more than C++
    code can do, which gets the callback only when the job runs).

    Simplified: one executor for the functor and all completion handlers; jobs are never thrown away (an
    executor that is destroyed with jobs in it); its threads run one job after the other, in any order. *)
From Verif Require Import Base Mapped Cache Histories.

(** What waits on the executor: the functor with resolver callback [i]; the completion handler of request [w]
    with its two arguments. *)
Inductive job := JResolve (i : N) | JDone (w : N) (v x : Z).

(** A call made by a thread that is not one of the executor's: the resolver is queued with its callback
    (resolver_policy.h:80-84), the completion handlers are queued (143-146); none of them runs now. *)
Definition outside (o : op) : op :=
  match o with
  | OGet key _ _ => OGet key [] (RThrow 0)  (* no such member function *)
  | OAGet w key _ _ _ _ => OAGet w key [] true false []
  | OAssign i v _ => OAssign i v []
  | OFail i x _ => OFail i x []
  | OTick items => OTick (map (fun _ => ([], RThrow 0, (true, false))) items)
  | o => o
  end.
(** A call made on a thread of the executor: resolvers run at once, as do the completion handlers of lookups
    that are completed (146); a handler whose outcome is at hand is queued (144). ([OTick]: the refresh timers
    of Asio.v, served on this thread.) *)
Fixpoint inside (o : op) : op :=
  let ins := map inside in
  match o with
  | OGet key script out => OGet key (ins script) out
  | OAGet w key script keep throw _ => OAGet w key (ins script) keep throw []
  | OAssign i v scripts => OAssign i v (map ins scripts)
  | OFail i x scripts => OFail i x (map ins scripts)
  | OTick items => OTick (map (fun i => (ins i.1.1, i.1.2, i.2)) items)
  | o => o
  end.

(** The completion handlers among the events [l]: those queued, and those run, by a call outside the executor
    (all are queued) and inside it (those at hand are queued, the others run). *)
Definition handlers (now : bool -> bool) (l : list ev) : list (N * Z * Z) :=
  concat (map (fun v => match v with EvCall w v x imm => if now imm then [(w, v, x)] else [] | _ => [] end) l).
Definition jdone (h : N * Z * Z) : job := JDone h.1.1 h.1.2 h.2.

Section xst.
  Context {C : comp} (k : cfg).
  Notation st := (@st C).

  (** the cache; the jobs on the executor, oldest first; the completion handlers that have run, oldest first *)
  Record xst := XSt { x_cache : st; x_jobs : list job; x_done : list (N * Z * Z) }.
  Definition x_init : xst := XSt st_init [] [].

  (** what happened from [s] to [s'], oldest first; the resolver callbacks made between [s] and [s'] *)
  Definition news (s s' : st) : list ev := rev (take (length (m_log (me s')) - length (m_log (me s))) (m_log (me s'))).
  Definition made (s s' : st) : list N :=
    map (fun n => (m_ncb (me s) + N.of_nat n)%N) (seq 0 (N.to_nat (m_ncb (me s') - m_ncb (me s)))).

  (** [async_get] when the job for the resolver cannot be made: the copy of the functor or the allocation of
      the callback (resolver_policy.h:81) throws. The entry is linked already (79); only the reference
      [new_value] goes away. *)
  Definition async_get_broken (s : st) (w : N) (key : Z) : res st :=
    '(s, r) <- get_ k s key true;;
    match r with
    | Some (e, r) => async_finish k s w e r (fun s => Ok s)
    | None =>
      '(s, e) <- allocate s key (MPend pend_init);;
      s <- inc_ref s e;;
      s <- link k s (k_hash k key) e;;
      s <- drop_ref s e;;
      Ok (s_log s (EvDrop w))
    end.

  (** A call from outside; a call from outside that runs out of memory; the executor runs its [n]-th job. [body]: what the functor or the handler does;
      [keep]: the functor has stored its callback (otherwise it is dropped when the functor returns, or throws). *)
  Inductive xop :=
  | XCall (o : op)
  | XBroken (w : N) (key : Z)
  | XRun (n : nat) (body : list op) (keep : bool).
  Definition xstep (o : xop) (x : xst) : res xst :=
    let s := x_cache x in
    match o with
    | XCall o =>
      '(s', _) <- step k false (outside o) s;;
      Ok (XSt s' (x_jobs x ++ map JResolve (made s s') ++ map jdone (handlers (fun _ => true) (news s s'))) (x_done x))
    | XBroken w key =>
      s' <- async_get_broken s w key;;
      Ok (XSt s' (x_jobs x ++ map jdone (handlers (fun _ => true) (news s s'))) (x_done x))
    | XRun n body keep =>
      match x_jobs x !! n with
      | None => Ok x
      | Some j =>
        s' <- run k (map inside body ++ match j with JResolve i => if keep then [] else [ODropCb i] | JDone _ _ _ => [] end) s;;
        Ok (XSt s' (take n (x_jobs x) ++ drop (S n) (x_jobs x) ++ map jdone (handlers id (news s s')))
              (x_done x ++ match j with JDone w v e => [(w, v, e)] | JResolve _ => [] end ++ handlers negb (news s s')))
      end
    end.
  Fixpoint xrun (l : list xop) (x : xst) : res xst :=
    match l with
    | [] => Ok x
    | o :: r => x <- xstep o x;; xrun r x
    end.
End xst.
Arguments xst : clear implicits.

(** ** What the properties mention *)
(** Calls from outside are arbitrary (except that the constructor of a value throws while a lookup completes),
    whatever the completion handlers do; none runs out of memory. Jobs run histories as in Histories.v: there, the handlers that run
    inside the completion of a lookup are quiet. *)
Definition xfine_op (o : xop) : bool :=
  match o with
  | XCall (OAssignThrow _) | XBroken _ _ => false
  | XCall _ => true
  | XRun _ body _ => forallb (fun o => fine_op false (inside o)) body
  end.
Definition xfine (l : list xop) : Prop := forallb xfine_op l = true.
(** The requests that a history makes (an upper bound, as [waiters] in Histories.v). *)
Definition xwaiters (l : list xop) : list N :=
  concat (map (fun o => match o with XCall (OAGet w _ _ _ _ _) => [w] | XCall _ | XBroken _ _ => [] | XRun _ body _ => waiters (map inside body) end) l).
(** May a request that a job makes be left waiting by its resolver ([forgets] in Histories.v)? *)
Definition xforgets (o : xop) : bool :=
  match o with XRun _ body _ => existsb (fun o => forgets (inside o)) body | XCall _ | XBroken _ _ => false end.
(** The outcomes that the cache has given to completion callbacks, oldest first. *)
Definition called {C} (s : @st C) : list (N * Z * Z) :=
  concat (map (fun v => match v with EvCall w v x _ => [(w, v, x)] | _ => [] end) (rev (m_log (me s)))).
(** How many of them are for request [w]. *)
Definition runs (w : N) (l : list (N * Z * Z)) : nat := length (List.filter (fun h => bool_decide (h.1.1 = w)) l).
(** The completion handlers that wait on the executor. *)
Definition queued (l : list job) : list (N * Z * Z) :=
  concat (map (fun j => match j with JDone w v x => [(w, v, x)] | JResolve _ => [] end) l).
