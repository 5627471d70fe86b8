(** C42 and C30: the queue of the refresh worker, and its rounds. *)
From Verif Require Import Base LinkedList BasicHashtable Mapped Cache CachePtr Histories Observe Rounds PropertiesRefuted Examples PropertiesRefresh.
Local Open Scope Z_scope.

(** ** C42 *)
(** The queue is intact, holds no entry twice, holds only entries that are in the hash table and have
    their result, and is ordered by due time; nothing in it is due later than the delay from now. *)
Theorem C42_order : forall k, fine_cfg k -> forall delay idle, k_refresh k = Some (delay, idle) -> forall l s, fine l -> after k l s -> m_up (me s) = true ->
  elements 0 (p_d (cs s)) = Ok (refresh_queue s) /\ NoDup (refresh_queue s) /\
  (forall e, e ∈ refresh_queue s -> e ∈ table_entries s /\ exists el, m_els (me s) !! e = Some el /\ m_pending (el_map el) = false /\ el_rf el <= m_steady (me s) + delay) /\
  (forall i j e e' t t', (i < j)%nat -> refresh_queue s !! i = Some e -> refresh_queue s !! j = Some e' -> due_at s e = Some t -> due_at s e' = Some t' -> t <= t').
Proof. exact queue_order. Qed.
Print Assumptions C42_order.
Definition history_rounds : list op :=
  [OAGet 1 7 [] true false []; OAGet 2 8 [] true false []; OEmplace 9 90; OAdvance 3 3; OAssign 1 80 []; OEmplace 10 100; OAdvance 4 4; OAssign 0 70 []; OEmplace 11 110; OErase 10].
Definition sees_queue (s : cache) := (map (fun e => (el_key <$> m_els (me s) !! e, due_at s e)) (refresh_queue s), length (table_entries s), m_steady (me s)).
Example C42_order_example : fine_cfg cfg_idle /\ k_refresh cfg_idle = Some (10, 30) /\ fine history_rounds /\ exists s, after cfg_idle history_rounds s /\
  (sees_queue s, m_up (me s)) = (([(Some 9, Some 10); (Some 8, Some 13); (Some 7, Some 17); (Some 11, Some 17)], 4%nat, 7), true).
Proof.
  split; [done|]. split; [done|]. split; [by vm_compute|]. apply (obs_after _ _ (fun s => (sees_queue s, m_up (me s)))). by vm_compute.
Qed.

(** Conversely every value in the cache is in the queue, unless its refresh is under way or one of its
    deadlines has passed. (Not for weak pointers or with a clock that is set back.) *)
Theorem C42_complete : forall k, fine_cfg k -> forall delay idle, k_refresh k = Some (delay, idle) -> forall l s e el v, tame k -> fine l -> after k l s -> m_up (me s) = true ->
  k_steady k = true \/ existsb sets_back l = false ->
  e ∈ table_entries s -> m_els (me s) !! e = Some el -> el_map el = MVal v -> el_rs el = false -> in_time s el -> e ∈ refresh_queue s.
Proof. exact queue_complete. Qed.
Print Assumptions C42_complete.
(** In particular, every value a lookup can find is in the queue or being refreshed. *)
Theorem C42_found : forall k, fine_cfg k -> forall delay idle, k_refresh k = Some (delay, idle) -> forall l s key v, tame k -> fine l -> after k l s ->
  k_steady k = true \/ existsb sets_back l = false -> peek k s key = Some v ->
  exists e el, e ∈ table_entries s /\ m_els (me s) !! e = Some el /\ k_eq k (el_key el) key = true /\ el_map el = MVal v /\ (e ∈ refresh_queue s \/ el_rs el = true).
Proof. exact found_queued. Qed.
Print Assumptions C42_found.
Definition answers_later : list op * outcome * (bool * bool) := ([], ROk 0, (true, false)).
Definition due_now : list op := history_rounds ++ [OAdvance 6 6].
Definition entry_facts (s : cache) := map (fun e => (fun el => (el_key el, (match el_map el with MVal v => Some v | _ => None end), el_rs el, el_rf el)) <$> m_els (me s) !! e) (table_entries s).
Definition sees_round (s : cache) := (sees_queue s, overdue (m_steady (me s)) s, entry_facts s).
(** Two entries are due; while the second one is looked up, one entry is added and one is removed. *)
Definition one_round : list (list op * outcome * (bool * bool)) := [answers_later; ([OEmplace 12 120; OErase 11], ROk 0, (true, false))].
Example C42_complete_example : tame cfg_idle /\ fine (due_now ++ [OTick one_round]) /\ existsb sets_back (due_now ++ [OTick one_round]) = false /\
  exists s, after cfg_idle (due_now ++ [OTick one_round]) s /\
  (sees_round s, peek cfg_idle s 107, peek cfg_idle s 108) =
  (([(Some 7, Some 17); (Some 12, Some 23)], 6%nat, 13, [],
    [Some (7, Some 70, false, 17); Some (12, Some 120, false, 23); Some (8, Some 80, true, 13); Some (8, None, false, 0); Some (9, Some 90, true, 10); Some (9, None, false, 0)]), Some 70, Some 80).
Proof.
  split; [by left|]. split; [by vm_compute|]. split; [by vm_compute|]. apply (obs_after _ _ (fun s => (sees_round s, peek cfg_idle s 107, peek cfg_idle s 108))). by vm_compute.
Qed.

(** ** C30 *)
(** A round takes at most as many steps, each with at most one call of the resolver, as entries were due
    when the worker woke up: given what the resolver does in these calls, the round is complete,
    whatever the resolver would do in further calls, and nothing that was due is left in the queue.
    The resolver may call back into the cache and add, erase, replace and complete entries. *)
Theorem C30_round_ends : forall k, fine_cfg k -> forall delay idle, k_refresh k = Some (delay, idle) -> forall l items s,
  fine (l ++ [OTick items]) -> 0 < delay -> after k l s -> m_up (me s) = true -> (length (overdue (m_steady (me s)) s) <= length items)%nat ->
  exists s', after k (l ++ [OTick items]) s' /\ m_up (me s') = true /\ overdue (m_steady (me s)) s' = [] /\ forall extra, after k (l ++ [OTick (items ++ extra)]) s'.
Proof. exact round_ends. Qed.
Print Assumptions C30_round_ends.
(** After the round every value in the cache that was due and still is within its deadlines is being
    refreshed (not for weak pointers or with a clock that is set back). *)
Theorem C30_all_served : forall k, fine_cfg k -> forall delay idle, k_refresh k = Some (delay, idle) -> forall l items s s' e el v, tame k ->
  fine (l ++ [OTick items]) -> 0 < delay -> after k l s -> m_up (me s) = true -> (length (overdue (m_steady (me s)) s) <= length items)%nat ->
  k_steady k = true \/ existsb sets_back (l ++ [OTick items]) = false -> after k (l ++ [OTick items]) s' ->
  e ∈ table_entries s' -> m_els (me s') !! e = Some el -> el_map el = MVal v -> in_time s' el -> el_rf el <= m_steady (me s) -> el_rs el = true.
Proof. exact round_serves. Qed.
Print Assumptions C30_all_served.
Example C30_example : fine (due_now ++ [OTick one_round]) /\ (exists s, after cfg_idle due_now s /\ (length (overdue (m_steady (me s)) s), m_steady (me s), m_up (me s)) = (2%nat, 13, true)) /\
  exists s, after cfg_idle (due_now ++ [OTick (one_round ++ [([OClear], RThrow 3, (true, false))])]) s /\ sees_round s =
  ([(Some 7, Some 17); (Some 12, Some 23)], 6%nat, 13, [],
    [Some (7, Some 70, false, 17); Some (12, Some 120, false, 23); Some (8, Some 80, true, 13); Some (8, None, false, 0); Some (9, Some 90, true, 10); Some (9, None, false, 0)]).
Proof.
  split; [by vm_compute|]. split; [apply (obs_after _ _ (fun s => (length (overdue (m_steady (me s)) s), m_steady (me s), m_up (me s)))); by vm_compute|].
  apply (obs_after _ _ sees_round). by vm_compute.
Qed.
(** The delay has to be positive: with delay 0 and a resolver that takes no time on the clock, the value
    just fetched is due at once, and the round goes on. *)
Definition cfg_zero := set_refresh cfg_sync 0 0.
Definition answers (v : Z) : list op * outcome * (bool * bool) := ([], ROk v, (true, false)).
Example C30_zero_delay : fine [OEmplace 7 1; OTick (map answers [2; 3; 4; 5])] /\ (exists s, after cfg_zero [OEmplace 7 1] s /\ overdue (m_steady (me s)) s = [0%N]) /\
  exists s, after cfg_zero [OEmplace 7 1; OTick (map answers [2; 3; 4; 5])] s /\ (length (overdue (m_steady (me s)) s), length (m_log (me s)), peek cfg_zero s 7) = (1%nat, 4%nat, Some 5).
Proof.
  split; [by vm_compute|]. split; [apply (obs_after _ _ (fun s => overdue (m_steady (me s)) s)); by vm_compute|].
  apply (obs_after _ _ (fun s => (length (overdue (m_steady (me s)) s), length (m_log (me s)), peek cfg_zero s 7))); by vm_compute.
Qed.
