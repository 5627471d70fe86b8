(** Model of the thread that refresh_policy runs (refresh_policy.ii:98-123 [worker_task]), in between the
    operations of other threads. The lock makes each operation of another thread, and each stretch of
    the worker between two waits, one step. *)
From Verif Require Import Base Mapped Cache Histories.

(** Where the thread is. [WIdle]: refresh_policy.ii:106-107, waiting without a time limit ([init],
    refresh_policy.ii:78-81, starts the thread; that is the same as being here). [WTimed e t]:
    refresh_policy.ii:111-112, waiting until [t], which is [e->refresh_tp] as last read; the wait was
    given a reference to that field. [WStopped]: refresh_policy.ii:114. *)
Inductive wait := WIdle | WTimed (e : N) (t : Z) | WStopped.

(** What the resolver does when the worker calls it, call by call. *)
Notation calls := (list (list op * outcome * (bool * bool))).
Inductive event :=
  (** another thread calls the cache, or time passes *)
| TOp (o : op)
  (** the wait ends before its time: a notification (every assignment of a value sends one,
      refresh_policy.ii:57) or spuriously *)
| TWake (items : calls)
  (** the time is over *)
| TTimeout (items : calls).

Section thread.
  Context {C : comp} (k : cfg).

  (** refresh_policy.ii:103,111: what to wait for next *)
  Definition sleep (s : @st C) : res wait :=
    o <- c_dfront C (cs s);;
    match o with
    | None => Ok WIdle
    | Some e => el <- s_el s e;; Ok (WTimed e (el_rf el))
    end.
  (** refresh_policy.ii:116-121, then back to the top of the loop. If [items] is too short the round is
      cut short, and goes on at the next time-out. *)
  Definition round (s : @st C) (items : calls) : res (@st C * wait) :=
    '(s, _) <- step k false (OTick items) s;;
    w <- sleep s;;
    Ok (s, w).
  (** [wait_until(lock, time, pred)] is [while (!pred()) if (wait_until(lock, time) == timeout) return pred();]
      and reads [time], a reference, each time around ([thread.condition.condvarany]). *)
  Definition thread_step (v : event) (s : @st C) (w : wait) : res (@st C * wait) :=
    match v, w with
    | TOp o, _ =>
      '(s, _) <- step k false o s;;
      Ok (s, if m_up (me s) then w else WStopped)  (* refresh_policy.ii:85-93 [destroy] *)
    | TWake items, WIdle =>
      o <- c_dfront C (cs s);;
      match o with
      | None => Ok (s, w)  (* the predicate is false: wait again *)
      | Some _ => round s items
      end
    | TWake _, WTimed e t => el <- s_el s e;; Ok (s, WTimed e (el_rf el))
    | TTimeout items, WTimed e t => if bool_decide (t <= m_steady (me s))%Z then round s items else Ok (s, w)
    | _, _ => Ok (s, w)
    end.
  Fixpoint thread_run (l : list event) (s : @st C) (w : wait) : res (@st C * wait) :=
    match l with
    | [] => Ok (s, w)
    | v :: r => '(s, w) <- thread_step v s w;; thread_run r s w
    end.
End thread.

(** Events of the environment: operations as in fine histories. *)
Definition fine_event (v : event) : bool :=
  match v with
  | TOp o => fine_op false o && match o with OTick _ => false | _ => true end
  | TWake items | TTimeout items => fine_op false (OTick items)
  end.
(** The operations an event stands for. *)
Definition done_by (v : event) (l : list op) : Prop :=
  match v with TOp o => l = [o] | TWake items | TTimeout items => l = [] \/ l = [OTick items] end.
