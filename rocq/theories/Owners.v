(** Who owns the hashtable of a cache. Cache objects are [shared_ptr]s (cache.h:33; copies share the
    hashtable). A call of a resolver callback is another owner until it returns: [weak_self.lock()],
    async_resolver_callback.h:33,49,65; timer handlers, asio/refresh_policy.ii:62,141; and
    hashtable.ii:724. The thread that gives up the last one runs the destructor. *)
From Verif Require Import Base.

(** [Refresher]: the thread of refresh_policy (refresh_policy.ii:80), in a resolver function that completes its
    callback before it returns. [User n]: any other thread. *)
Inductive thread_id := User (n : N) | Refresher.
Global Instance thread_id_dec : EqDecision thread_id.
Proof. solve_decision. Defined.

Inductive owning :=
| Copy (t : thread_id)    (** a cache object is copied; needs one *)
| Lock (t : thread_id)    (** [weak_self.lock()]: nothing if there is no owner left *)
| Release (t : thread_id). (** a cache object is destroyed, or a call of a callback returns *)

(** The owners, each with the thread that holds it. [stops]: the cache has refresh_policy. *)
Definition release (stops : bool) (t : thread_id) (own : list thread_id) : res (list thread_id) :=
  match list_remove t own with
  | None => UB
  | Some [] =>
    (* ~hashtable_policy_container (hashtable.ii:211-214, noexcept), refresh_policy.ii:93: a thread that joins itself
       gets an exception ([thread.thread.member]) *)
    if stops && bool_decide (t = Refresher) then Term else Ok []
  | Some own => Ok own
  end.
Definition own_step (stops : bool) (v : owning) (own : list thread_id) : res (list thread_id) :=
  match v with
  | Copy t => match own with [] => UB | _ => Ok (t :: own) end
  | Lock t => match own with [] => Ok own | _ => Ok (t :: own) end
  | Release t => release stops t own
  end.
Fixpoint own_run (stops : bool) (l : list owning) (own : list thread_id) : res (list thread_id) :=
  match l with
  | [] => Ok own
  | v :: r => own <- own_step stops v own;; own_run stops r own
  end.
