(** The destructor of a cache whose refresh thread is at work. [~hashtable] (hashtable.ii:478-480) empties the
    table without taking the lock; only then does [~hashtable_policy_container] (211-214) call
    [refresh_policy::destroy] (refresh_policy.ii:84-94), which takes the lock, tells the thread to stop and
    waits for its end. In Worker.v destruction is one step between two rounds of the thread; here it
    falls into a round. *)
From Verif Require Import Base Mapped Cache Worker.

(** Where the thread is when the destructor empties the table: it has read the first element of its queue
    (refresh_policy.ii:117-118); it is in the resolver. (Two of many points: every access of the thread can
    be concurrent with one of the destructor, which is a data race in C++.) *)
Inductive point := AtFound | AtResolver.

Section teardown.
  Context {C : comp} (k : cfg).
  Notation st := (@st C).

  (** hashtable.ii:478-480; [weak_from_this().lock()] fails from now on *)
  Definition clear_table (s : st) : res st := destroy_loop k (sweep_fuel s) (with_me s (set_up (me s) false)).
  (** The last round of the thread, with one element to refresh (Cache.v [worker]). Afterwards the thread finds
      [stop] set (refresh_policy.ii:114), the destructor joins it and frees the buckets
      (basic_hashtable.ii:332-341). *)
  Definition last_round (p : point) (s : st) (item : list op * outcome * (bool * bool)) : res st :=
    let '(script, out, (keep, throw)) := item in
    o <- c_dfront C (cs s);;
    match o with
    | None => clear_table s
    | Some e =>
      s <- (match p with AtFound => clear_table s | AtResolver => Ok s end);;
      el <- s_el s e;;
      if bool_decide (el_rf el <= m_steady (me s))%Z then
        c <- c_dunlink C (cs s) e;;
        let resolver s := s <- run_nested k script s;; match p with AtFound => Ok s | AtResolver => clear_table s end in
        refresh k (with_cs s c) e resolver out keep throw
      else match p with AtFound => Ok s | AtResolver => clear_table s end
    end.
End teardown.
