(** C43 and C44: the refresh thread next to other threads. *)
From Verif Require Import Base LinkedList BasicHashtable Mapped Cache CachePtr Histories Observe Worker WorkerProofs PropertiesRefuted Examples PropertiesRefresh PropertiesRounds.
Local Open Scope Z_scope.

(** ** C43 *)
(** The thread waits for the first entry of its queue and then is woken after another thread has erased
    that entry and added another one: it reads the due time of an entry that no longer exists. *)
Definition erased_while_waiting : list event := [TOp (OEmplace 7 70); TWake []; TOp (OErase 7); TOp (OEmplace 8 80); TWake []].
Theorem C43_refuted : exists k vs, fine_cfg k /\ k_refresh k = Some (10, 0) /\ forallb fine_event vs = true /\ thread_run (C := comp_ptr) k vs st_init WIdle = UB.
Proof.
  exists (set_refresh cfg_async 10 0), erased_while_waiting. split; [done|]. split; [done|]. split; [by vm_compute|].
  assert (match thread_run (C := comp_ptr) (set_refresh cfg_async 10 0) erased_while_waiting st_init WIdle with UB => true | _ => false end = true) as H by (by vm_compute).
  revert H. by destruct (thread_run _ _ _ _).
Qed.
Print Assumptions C43_refuted.
(** That is the only thing that can go wrong: a run of the thread in between operations of other
    threads has undefined behaviour when the thread is woken while it waits for an entry that no longer
    exists, and otherwise has the same effect as a history in which the rounds of the worker are
    operations [OTick] among the others. *)
Theorem C43_otherwise_safe : forall k, fine_cfg k -> forall delay idle, k_refresh k = Some (delay, idle) -> forall vs, forallb fine_event vs = true ->
  (exists vs1 items vs2 s e t, vs = vs1 ++ TWake items :: vs2 /\ thread_run k vs1 st_init WIdle = Ok (s, WTimed e t) /\ m_els (me (s : cache)) !! e = None /\
     thread_run (C := comp_ptr) k vs st_init WIdle = UB) \/
  exists (s : cache) w ls, thread_run k vs st_init WIdle = Ok (s, w) /\ Forall2 done_by vs ls /\ fine (concat ls) /\ after k (concat ls) s.
Proof. exact thread_safe. Qed.
Print Assumptions C43_otherwise_safe.
Definition thread_history : list event :=
  map TOp history_rounds ++ [TWake []; TOp (OErase 8); TOp (OAdvance 6 6); TTimeout one_round; TOp (OAdvance 12 12); TTimeout [answers_later; answers_later]; TOp (OAssign 2 91 [])].
Definition sees_thread (r : res (cache * wait)) := match r with Ok (s, w) => Some (sees_queue s, w, map (peek cfg_idle s) [7; 8; 9; 12]) | _ => None end.
Example C43_otherwise_safe_example : forallb fine_event thread_history = true /\
  sees_thread (thread_run cfg_idle thread_history st_init WIdle) = Some (([(Some 9, Some 35)], 6%nat, 25), WIdle, [Some 70; None; Some 91; None]).
Proof. split; by vm_compute. Qed.

(** ** C44 *)
Definition sees_wait (r : res (cache * wait)) := match r with Ok (s, w) => Some (sees_queue s, w, length (overdue (m_steady (me s)) s)) | _ => None end.
(** While the thread waits, nothing in its queue is due before the wait is over, and the wait is no
    longer than the delay. *)
Theorem C44_prompt : forall k, fine_cfg k -> forall delay idle, k_refresh k = Some (delay, idle) -> forall vs (s : cache) e t, forallb fine_event vs = true ->
  thread_run k vs st_init WIdle = Ok (s, WTimed e t) ->
  (forall x d, x ∈ refresh_queue s -> due_at s x = Some d -> t <= d) /\ t <= m_steady (me s) + delay.
Proof. exact thread_prompt. Qed.
Print Assumptions C44_prompt.
(** The time of the wait, which the thread reads again whenever it is woken, does not change as long as the
    entry it belongs to exists (even if the entry has been erased and is kept by a callback). *)
Theorem C44_time : forall k, fine_cfg k -> forall delay idle, k_refresh k = Some (delay, idle) -> forall vs (s : cache) e t d, forallb fine_event vs = true ->
  thread_run k vs st_init WIdle = Ok (s, WTimed e t) -> due_at s e = Some d -> d = t.
Proof. exact thread_time. Qed.
Print Assumptions C44_time.
(** So when an entry is due the wait is over, and then everything that is due gets served; after that the
    thread waits for the first entry left in the queue, or without limit if there is none. *)
Theorem C44_serves : forall k, fine_cfg k -> forall delay idle, k_refresh k = Some (delay, idle) -> forall vs (s : cache) e t items, forallb fine_event vs = true ->
  fine_op false (OTick items) = true -> 0 < delay -> thread_run k vs st_init WIdle = Ok (s, WTimed e t) ->
  overdue (m_steady (me s)) s <> [] -> (length (overdue (m_steady (me s)) s) <= length items)%nat ->
  exists s' w, thread_run k (vs ++ [TTimeout items]) st_init WIdle = Ok (s', w) /\ overdue (m_steady (me s)) s' = [] /\
    match w with WIdle => refresh_queue s' = [] | WTimed e' t' => head (refresh_queue s') = Some e' /\ due_at s' e' = Some t' /\ m_steady (me s) < t' | WStopped => False end.
Proof. exact thread_serves. Qed.
Print Assumptions C44_serves.
(** No wake-up is lost: if the thread waits without a limit although its queue is not empty, then an operation
    that assigned a value, and so sent a notification (under the lock, refresh_policy.ii:56-57), found it
    waiting like that, and it has not been woken since. *)
Theorem C44_notified : forall k, fine_cfg k -> forall delay idle, k_refresh k = Some (delay, idle) -> forall vs (s : cache), forallb fine_event vs = true ->
  thread_run k vs st_init WIdle = Ok (s, WIdle) -> refresh_queue s <> [] ->
  exists vs1 o vs2 (s1 s2 : cache), vs = vs1 ++ TOp o :: vs2 /\ thread_run k vs1 st_init WIdle = Ok (s1, WIdle) /\ refresh_queue s1 = [] /\
    thread_run k (vs1 ++ [TOp o]) st_init WIdle = Ok (s2, WIdle) /\ refresh_queue s2 <> [] /\ forall items, TWake items ∉ vs2.
Proof. exact thread_notified. Qed.
Print Assumptions C44_notified.
(** Woken too early, the thread waits again; after an erase; and the first assignment since. *)
Definition notified_thread : list event := [TOp (OEmplace 7 70); TOp (OErase 7); TWake []; TOp (OEmplace 8 80); TOp (OAdvance 1 1); TOp (OEmplace 9 90)].
Example C44_notified_example : forallb fine_event notified_thread = true /\
  sees_wait (thread_run cfg_idle (take 3 notified_thread) st_init WIdle) = Some (([], 0%nat, 0), WIdle, 0%nat) /\
  sees_wait (thread_run cfg_idle notified_thread st_init WIdle) = Some (([(Some 8, Some 10); (Some 9, Some 11)], 2%nat, 1), WIdle, 0%nat).
Proof. split; [by vm_compute|]. split; by vm_compute. Qed.
(** The thread runs exactly as long as the cache exists. *)
Theorem C44_alive : forall k, fine_cfg k -> forall delay idle, k_refresh k = Some (delay, idle) -> forall vs (s : cache) w, forallb fine_event vs = true ->
  thread_run k vs st_init WIdle = Ok (s, w) -> w = WStopped <-> m_up (me s) = false.
Proof. exact thread_alive. Qed.
Print Assumptions C44_alive.
Definition waiting_thread : list event := map TOp history_rounds ++ [TWake []; TOp (OErase 9); TOp (OAdvance 6 6)].
Example C44_example : forallb fine_event waiting_thread = true /\
  sees_wait (thread_run cfg_idle waiting_thread st_init WIdle) = Some (([(Some 8, Some 13); (Some 7, Some 17); (Some 11, Some 17)], 3%nat, 13), WTimed 2 10, 1%nat) /\
  sees_wait (thread_run cfg_idle (waiting_thread ++ [TTimeout [answers_later]]) st_init WIdle) = Some (([(Some 7, Some 17); (Some 11, Some 17)], 4%nat, 13), WTimed 0 17, 0%nat) /\
  sees_wait (thread_run cfg_idle (waiting_thread ++ [TOp ODestroy]) st_init WIdle) = Some (([], 0%nat, 13), WStopped, 0%nat).
Proof. do 3 (split; [by vm_compute|]). by vm_compute. Qed.
