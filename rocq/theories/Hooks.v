(** How the hash table passes events to its policies (hashtable.ii:12-275, meta.h:120-161): each policy
    that has the member function is called, one after the other, in the order of the list of policies.
    Cache.v has this list in a fixed order ([on_create_], [on_hit_], [on_unlink_], [on_assign_]); here the
    list is arbitrary. *)
From Verif Require Import Base Mapped Cache.

(** The policies with events, with their parameters: [queue_policy] (with max_size), [max_age_policy] and
    [error_max_age_policy] ([max_age_policy_impl<Clock, ExpectValue>]), [refresh_policy]. The others
    (hash, equal, allocators, locks, resolvers, pointer policies, weaken) have none. *)
Inductive pol := PolQueue | PolAge (expect_value : bool) (d : Z) | PolRefresh (delay idle : Z) | PolOther.

(** The events: [on_create_], [on_hit_], [on_unlink_], [on_assign_(_, value, _)]. *)
Inductive pev := PvCreate | PvHit | PvUnlink | PvAssign (value : bool).

Section hooks.
  Context {C : comp} (k : cfg).
  Notation st := (@st C).

  (** What a policy does with an event; [None]: it has no such member function. queue.ii:11-60, 112-126;
      max_age_policy.ii:18-25; refresh_policy.ii:51-76. *)
  Definition hook (v : pev) (p : pol) : option (st -> N -> res st) :=
    match v, p with
    | PvCreate, PolQueue => Some (fun s e =>
        '(c, o) <- c_qcreate C (cs s) e;;
        match o with Some x => strengthen k (with_cs s c) x | None => Ok (with_cs s c) end)
    | PvHit, PolQueue => Some (fun s e => c <- c_qhit C (cs s) e;; strengthen k (with_cs s c) e)
    | PvHit, PolRefresh _ idle => Some (fun s e =>
        el <- s_el s e;;
        if negb (bool_decide (idle = 0%Z)) && m_holds_value (alive (me s)) (el_map el)
        then s_upd s e (fun el => with_cn el (Some (m_steady (me s) + idle)%Z))
        else Ok s)
    | PvUnlink, PolQueue => Some (fun s e => c <- c_qunlink C (cs s) e;; Ok (with_cs s c))
    | PvUnlink, PolRefresh _ _ => Some (fun s e =>
        b <- c_dlinked C (cs s) e;;
        if b : bool then c <- c_dunlink C (cs s) e;; Ok (with_cs s c) else Ok s)
    | PvAssign value, PolAge ev d => Some (fun s e => if bool_decide (value = ev) then on_assign_age k s e d else Ok s)
    | PvAssign value, PolRefresh delay idle => Some (fun s e => if value then on_assign_refresh s e delay idle else Ok s)
    | _, _ => None
    end.
  (** hashtable.ii:277-281 [base_invoke_] with meta.h:124-161 [maybe_apply_for_each_type] *)
  Fixpoint base_invoke (v : pev) (ps : list pol) (s : st) (e : N) : res st :=
    match ps with
    | [] => Ok s
    | p :: ps =>
      s <- (match hook v p with Some f => f s e | None => Ok s end);;
      base_invoke v ps s e
    end.
  (** The policies of a configuration, in the order of Cache.v. *)
  Definition pols : list pol :=
    (if has_queue k then [PolQueue] else []) ++
    match k_max_age k with Some d => [PolAge true d] | None => [] end ++
    match k_err_age k with Some d => [PolAge false d] | None => [] end ++
    match k_refresh k with Some (delay, idle) => [PolRefresh delay idle] | None => [] end.
End hooks.

(** ** Building and destroying the table *)
(** The member [init] of a policy base: there is none (every policy but [refresh_policy]), it returns, or
    it throws ([refresh_policy]: the thread cannot be started, refresh_policy.ii:80-82). *)
Inductive start := NoInit | Starts | Throws.
(** How a constructor ends: the object exists, with these policies started; or it has thrown, with these
    policies still running. Policies are given by their positions. *)
Inductive built := Built (running : list nat) | Failed (running : list nat).
(** hashtable.ii:254-269 [init], called by the constructors (451-469). [base_invoke_] is noexcept (278, hashtable.h:179):
    an exception of a policy ends the program before the handler (264-267) is reached. *)
Fixpoint invoke_init (i : nat) (ps : list start) : res (list nat) :=
  match ps with
  | [] => Ok []
  | NoInit :: ps => invoke_init (S i) ps
  | Starts :: ps => r <- invoke_init (S i) ps;; Ok (i :: r)
  | Throws :: _ => Term
  end.
Definition construct (ps : list start) : res built := r <- invoke_init 0 ps;; Ok (Built r).
(** hashtable.ii:211-214, 271-274: the destructor calls [destroy] of every policy that has one (those that have [init]). *)
Fixpoint invoke_destroy (i : nat) (ps : list start) (running : list nat) : list nat :=
  match ps with
  | [] => running
  | NoInit :: ps => invoke_destroy (S i) ps running
  | _ :: ps => invoke_destroy (S i) ps (filter (fun j => j <> i) running)
  end.
Definition destruct_table (ps : list start) (b : built) : list nat :=
  match b with Built r => invoke_destroy 0 ps r | Failed r => r end.
