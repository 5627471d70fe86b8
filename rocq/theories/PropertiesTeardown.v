From Verif Require Import Base LinkedList BasicHashtable Mapped Cache CachePtr Histories Observe Worker WorkerProofs Teardown Owners OwnersProofs Examples PropertiesRefuted PropertiesWorker.
Local Open Scope Z_scope.

(** ** C56 *)
(** A cache with [refresh_policy] and a resolver function that is destroyed while its refresh thread is in
    the resolver: the thread adds the resolved value as a new entry to the table that the destructor has
    already emptied, and nothing removes the entry. No callback is left that could. *)
Definition torn_cfg : cfg := set_refresh (set_resolver cfg_plain RSync) 10 0.
Definition due_history : list op := [OEmplace 7 1; OEmplace 8 1; OAdvance 10 10].
Definition answers_5 : list op * outcome * (bool * bool) := ([], ROk 5, (true, false)).
Definition torn (p : point) : res cache := s <- run torn_cfg due_history st_init;; last_round torn_cfg p s answers_5.
Definition sees_left (r : res cache) := match r with Ok s => Some (size (m_cbs (me s)), map (fun x => (x.1, el_key x.2)) (map_to_list (m_els (me s)))) | _ => None end.
Theorem C56_leak_refuted : exists k delay idle l (s s' : cache) item, fine_cfg k /\ k_refresh k = Some (delay, idle) /\ fine l /\ after k l s /\
  last_round k AtResolver s item = Ok s' /\ m_cbs (me s') = ∅ /\ m_up (me s') = false /\ m_els (me s') <> ∅.
Proof.
  assert (fine_cfg torn_cfg) as Hk by (by vm_compute).
  destruct (witness_ok (run torn_cfg due_history st_init) (fun s : cache => last_round torn_cfg AtResolver s answers_5)
    (fun s : cache => bool_decide (size (m_cbs (me s)) = 0%nat) && negb (m_up (me s)) && bool_decide (size (m_els (me s)) <> 0%nat))) as (s & s' & E & E' & H); [vm_compute; reflexivity|].
  exists torn_cfg, 10, 0, due_history, s, s', answers_5. split; [exact Hk|]. split; [reflexivity|]. split; [vm_compute; reflexivity|]. split; [exact E|]. split; [exact E'|].
  clear E E'. apply andb_true_iff in H as [H H3]. apply andb_true_iff in H as [H1 H2].
  split; [exact (map_size_empty_inv _ (bool_decide_eq_true_1 _ H1))|]. split; [exact (proj1 (negb_true_iff _) H2)|]. intros H4. exact (bool_decide_eq_true_1 _ H3 (proj2 (map_size_empty_iff _) H4)).
Qed.
Print Assumptions C56_leak_refuted.
(** Destroyed just after the thread has looked up the first entry of its queue: the thread uses an entry
    that no longer exists. *)
Theorem C56_use_after_free_refuted : exists k delay idle l (s : cache) item, fine_cfg k /\ k_refresh k = Some (delay, idle) /\ fine l /\ after k l s /\ last_round k AtFound s item = UB.
Proof.
  assert (fine_cfg torn_cfg) as Hk by (by vm_compute).
  destruct (witness_ub (run torn_cfg due_history st_init) (fun s : cache => last_round torn_cfg AtFound s answers_5)) as (s & E & H); [vm_compute; reflexivity|].
  exists torn_cfg, 10, 0, due_history, s, answers_5. split; [exact Hk|]. split; [reflexivity|]. split; [vm_compute; reflexivity|]. split; [exact E|]. exact H.
Qed.
Print Assumptions C56_use_after_free_refuted.
(** Full statement: whenever the cache is destroyed, the thread ends, only entries with outstanding callbacks
    are left and every waiting request has been answered. What is missing: it holds only if the thread is
    asleep when the destructor begins. *)
Theorem C56_asleep_partial : forall k, fine_cfg k -> forall delay idle, k_refresh k = Some (delay, idle) -> forall vs (s0 : cache) w0, forallb fine_event vs = true ->
  thread_run k vs st_init WIdle = Ok (s0, w0) ->
  exists s : cache, thread_run k (vs ++ [TOp ODestroy]) st_init WIdle = Ok (s, WStopped) /\
    (forall e, entry s e -> outstanding s e) /\ (m_cbs (me s) = ∅ -> m_els (me s) = ∅) /\ (forall w, waiting w s = 0%nat) /\
    forall w, (waiting w s0 + length (deliveries w s0) <= length (deliveries w s))%nat.
Proof. exact thread_destroyed. Qed.
Print Assumptions C56_asleep_partial.
(** The same entries are due in each of these; destroyed while the thread sleeps, nothing is left. *)
Example C56_example : sees_left (torn AtResolver) = Some (0%nat, [(2%N, 7)]) /\
  sees_left ('(s, _) <- thread_run torn_cfg (map TOp due_history ++ [TOp ODestroy]) st_init WIdle;; Ok s) = Some (0%nat, []) /\
  sees_left ('(s, _) <- thread_run torn_cfg (map TOp due_history ++ [TWake [answers_5]; TOp ODestroy]) st_init WIdle;; Ok s) = Some (0%nat, []) /\
  forallb fine_event (map TOp due_history ++ [TWake [answers_5]]) = true.
Proof. do 3 (split; [by vm_compute|]). by vm_compute. Qed.

(** ** C57 *)
(** The cache is released by its user while the refresh thread completes a lookup: the destructor runs on
    the refresh thread, which then joins itself, in a destructor that must not throw. *)
Theorem C57_self_join_refuted : exists l, own_run true l [User 0] = Term.
Proof. exists [Lock Refresher; Release (User 0); Release Refresher]. by vm_compute. Qed.
Print Assumptions C57_self_join_refuted.
(** That is the only way: the program ends exactly if the refresh thread is the last owner and gives up. *)
Theorem C57_otherwise : forall stops l own, own_run stops l own = Term <->
  stops = true /\ exists l1 l2, l = l1 ++ Release Refresher :: l2 /\ own_run stops l1 own = Ok [Refresher].
Proof. exact own_term. Qed.
Print Assumptions C57_otherwise.
(** Full statement: no trace of owners ends the program. What is missing: it does not end if each time
    another thread gives up ownership, it leaves the cache without any owner or with one that is not the
    refresh thread. *)
Theorem C57_partial : forall l own stops, own = [] \/ (exists n, User n ∈ own) ->
  (forall l1 n l2 own' own'', l = l1 ++ Release (User n) :: l2 -> own_run stops l1 own = Ok own' -> own_step stops (Release (User n)) own' = Ok own'' -> own'' = [] \/ exists m, User m ∈ own'') ->
  own_run stops l own <> Term /\ forall own', own_run stops l own = Ok own' -> own' = [] \/ exists n, User n ∈ own'.
Proof. exact own_led. Qed.
Print Assumptions C57_partial.
(** Two cache objects of different threads, a lookup completed by the refresh thread and one by another thread;
    that one is the last owner; a late completion finds no cache. *)
Definition owners_trace : list owning :=
  [Lock Refresher; Copy (User 1); Release (User 0); Release Refresher; Lock (User 2); Release (User 1); Release (User 2); Lock (User 2)].
Example C57_example : own_run true owners_trace [User 0] = Ok [] /\ own_run true (take 3 owners_trace) [User 0] = Ok [User 1; Refresher] /\
  own_run true (take 6 owners_trace) [User 0] = Ok [User 2].
Proof. split; [by vm_compute|]. split; by vm_compute. Qed.
