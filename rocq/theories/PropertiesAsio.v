(** Property theorems about [asio_refresh_policy] and [asio_refresh_fn_policy].
    Model: Asio.v over Cache.v and CachePtr.v. Observers: Observe.v. Classes of histories: Histories.v. *)
From Verif Require Import Base Mapped Cache CachePtr Observe Histories PropertiesRefuted PropertiesCache Examples Asio AsioSpec AsioProofs AsioSafe.
Local Open Scope Z_scope.

(** ** C46 *)
Definition obs_asio {T} (k : cfg) (l : list aop) (f : ast comp_ptr -> T) : option T :=
  match arun k l a_init with Ok a => Some (f a) | _ => None end.
Lemma obs_asio_after {T} k l (f : ast comp_ptr -> T) t : obs_asio k l f = Some t -> exists a, arun k l a_init = Ok a /\ f a = t.
Proof. unfold obs_asio. destruct (arun k l a_init); [intros [= <-]; eauto|done..]. Qed.

(** A key that was erased (or cleared), with no later call that could add it, is back: the timer of the
    value had run out before the [erase], so that [cancel()] came too late for the queued handler, and the
    handler refreshes the value although it is no longer in the cache. *)
Definition cfg_timer := mod_keys (set_refresh cfg_sync 10 0).
Definition ran_out : list aop := [ACall (OGet 7 [] (ROk 70)); ACall (OAdvance 10 10); AFire].
Definition run_late : list aop := [AHandle 0 ([], ROk 71, (false, false))].
Theorem C46_erased_refuted :
  exists k l1 o l2 key a v, fine_cfg k /\ eq_ok k /\ (forall x, ACall x ∈ l1 ++ ACall o :: l2 -> fine_op false x = true) /\ removes k key o = true /\
    forallb (fun o => negb (aenters (fun key' => k_eq k key' key) o)) l2 = true /\ arun k (l1 ++ ACall o :: l2) a_init = Ok a /\ peek k (a_cache a) key = Some v.
Proof.
  destruct (obs_asio_after cfg_timer (ran_out ++ ACall (OErase 7) :: run_late) (fun a => peek cfg_timer (a_cache a) 7) (Some 71)) as (a & E & P); [by vm_compute|].
  exists cfg_timer, ran_out, (OErase 7), run_late, 7, a, 71. split; [clear; by intros _|]. split; [apply mod_keys_ok|]. split; [clear E P|].
  { intros x Hx. repeat (apply elem_of_cons in Hx as [Hx|Hx]; [try (injection Hx as ->; done); done|]). by apply elem_of_nil in Hx. }
  split; [reflexivity|]. split; [reflexivity|]. split; [exact E|exact P].
Qed.
Print Assumptions C46_erased_refuted.

(** If the executor runs every handler as soon as the timer has run out, before anything else happens to
    the cache, the cache is the same as with [refresh_policy] and a thread that serves one value at a
    time ([l'], [OTick]), so that all theorems about that apply; in particular an erased key stays away. *)
Theorem C46_prompt_partial : forall k l1 o l2 l' key a, fine_cfg k -> eq_ok k -> prompt (l1 ++ ACall o :: l2) = Some l' -> fine l' ->
  removes k key o = true -> forallb (fun o => negb (aenters (fun key' => k_eq k key' key) o)) l2 = true -> arun k (l1 ++ ACall o :: l2) a_init = Ok a ->
  a_queued a = [] /\ after k l' (a_cache a) /\ peek k (a_cache a) key = None.
Proof. intros k l1 o l2 l' key a Hk. exact (prompt_removed k Hk l1 o l2 l' key a). Qed.
Print Assumptions C46_prompt_partial.
(** Every such history runs without undefined behaviour. *)
Theorem C46_prompt_runs : forall k l l' s, fine_cfg k -> prompt l = Some l' -> fine l' -> after k l' s -> arun k l a_init = Ok (ASt s []).
Proof. intros k l l' s Hk. exact (prompt_after k Hk l l' s). Qed.
Print Assumptions C46_prompt_runs.
Definition in_turn_run : list aop :=
  [ACall (OGet 7 [] (ROk 70)); ACall (OGet 8 [] (ROk 80)); ACall (OAdvance 10 10); AFire; AHandle 0 ([OEmplace 9 90], ROk 71, (false, false)); ACall (OErase 8);
   AFire; AHandle 0 ([], ROk 91, (false, false)); ACall (OAdvance 10 10); AFire; AHandle 0 ([], ROk 92, (false, false))].
Example C46_prompt_example : exists l', prompt in_turn_run = Some l' /\ fine l' /\
  forallb (fun o => negb (aenters (fun key' => k_eq cfg_timer key' 8) o)) (drop 6 in_turn_run) = true /\
  exists a, arun cfg_timer in_turn_run a_init = Ok a /\ map (peek cfg_timer (a_cache a)) [7; 8; 9] = [Some 71; None; Some 92].
Proof.
  eexists. split; [reflexivity|]. split; [by vm_compute|]. split; [by vm_compute|].
  apply (obs_asio_after cfg_timer in_turn_run (fun a => map (peek cfg_timer (a_cache a)) [7; 8; 9])). by vm_compute.
Qed.

(** However late the handlers run and in whatever order: a key that is erased (or cleared) while no
    handler for it is queued stays away. *)
Theorem C46_erased_partial : forall k key l1 o l2 (a1 a : ast comp_ptr), fine_cfg k -> eq_ok k -> afine (l1 ++ ACall o :: l2) -> removes k key o = true ->
  arun k l1 a_init = Ok a1 -> ~ handler_queued k a1 key ->
  forallb (fun o => negb (aenters (fun key' => k_eq k key' key) o)) l2 = true -> arun k (l1 ++ ACall o :: l2) a_init = Ok a ->
  peek k (a_cache a) key = None.
Proof. intros k key l1 o l2 a1 a Hk. exact (asio_removed k Hk key l1 o l2 a1 a). Qed.
Print Assumptions C46_erased_partial.
(** two timers have run out; the key of the value that is not concerned is erased, later the handlers run,
    the later one first *)
Definition two_ran_out : list aop :=
  [ACall (OGet 7 [] (ROk 70)); ACall (OGet 8 [] (ROk 80)); ACall (OAdvance 5 5); ACall (OGet 9 [] (ROk 90)); ACall (OAdvance 5 5); AFire; AFire].
Definition two_late : list aop := [ACall (OAdvance 5 5); AFire; AHandle 1 ([], ROk 81, (false, false)); AHandle 0 ([], ROk 71, (false, false))].
Example C46_erased_example : afine (two_ran_out ++ ACall (OErase 9) :: two_late) /\
  forallb (fun o => negb (aenters (fun key' => k_eq cfg_timer key' 9) o)) two_late = true /\
  (exists a1 : ast comp_ptr, arun cfg_timer two_ran_out a_init = Ok a1 /\ (length (a_queued a1), map (fun e => el_key <$> m_els (me (a_cache a1)) !! e) (a_queued a1)) = (2%nat, [Some 7; Some 8])) /\
  exists a : ast comp_ptr, arun cfg_timer (two_ran_out ++ ACall (OErase 9) :: two_late) a_init = Ok a /\ (map (peek cfg_timer (a_cache a)) [7; 8; 9], a_queued a) = ([Some 71; Some 81; None], []).
Proof.
  split; [by vm_compute|]. split; [by vm_compute|]. split.
  - apply (obs_asio_after cfg_timer two_ran_out (fun a1 => (length (a_queued a1), map (fun e => el_key <$> m_els (me (a_cache a1)) !! e) (a_queued a1)))). by vm_compute.
  - apply (obs_asio_after cfg_timer (two_ran_out ++ ACall (OErase 9) :: two_late) (fun a => (map (peek cfg_timer (a_cache a)) [7; 8; 9], a_queued a))). by vm_compute.
Qed.

(** ** C47 *)
(** Every history runs to its end, however late the handlers run, in whatever order, and even after the
    cache is gone: no undefined behaviour, no [std::terminate], no endless loop. *)
Theorem C47_memory_safe : forall k l, fine_cfg k -> afine l -> exists a : ast comp_ptr, arun k l a_init = Ok a.
Proof. intros k l Hk Hl. destruct (asio_runs k Hk l Hl) as (_ & a & _ & H & _). exact (ex_intro _ a H). Qed.
Print Assumptions C47_memory_safe.
(** Every request is notified or released at most once. *)
Theorem C47_at_most_once : forall k l (a : ast comp_ptr) w, fine_cfg k -> afine l -> arun k l a_init = Ok a ->
  (waiting w (a_cache a) + length (deliveries w (a_cache a)) <= length (filter (fun x => x = w) (awaiters l)))%nat.
Proof. intros k l a w Hk. exact (asio_bound k Hk l a w). Qed.
Print Assumptions C47_at_most_once.
(** After the destruction of the cache, the remaining entries are those of outstanding resolver callbacks
    and queued handlers; none remains when they are gone; no request waits any more, and all requests
    that were waiting have been notified or released. *)
Theorem C47_destruction : forall k l1 l2 (a0 a : ast comp_ptr), fine_cfg k -> afine (l1 ++ ACall ODestroy :: l2) ->
  arun k l1 a_init = Ok a0 -> arun k (l1 ++ ACall ODestroy :: l2) a_init = Ok a ->
  (forall e, entry (a_cache a) e -> outstanding (a_cache a) e \/ e ∈ a_queued a) /\
  (m_cbs (me (a_cache a)) = ∅ -> a_queued a = [] -> m_els (me (a_cache a)) = ∅) /\
  (forall w, waiting w (a_cache a) = 0%nat) /\
  (forall w, (waiting w (a_cache a0) + length (deliveries w (a_cache a0)) <= length (deliveries w (a_cache a)))%nat).
Proof. intros k l1 l2 a0 a Hk. exact (asio_destroyed k Hk l1 l2 a0 a). Qed.
Print Assumptions C47_destruction.
(** An async resolver. The timers of two values run out; one value is erased, somebody waits for its key;
    its late handler starts a lookup whose resolver throws, the other one a lookup that is under way when
    the cache is destroyed with a third handler queued. *)
Definition cfg_atimer := mod_keys (set_refresh cfg_async 10 0).
Definition late_run : list aop :=
  [ACall (OAGet 1 7 [] true false []); ACall (OAssign 0 70 [[]]); ACall (OAGet 2 8 [] true false []); ACall (OAssign 1 80 [[]]);
   ACall (OAdvance 10 10); AFire; AFire; ACall (OErase 7); ACall (OAGet 3 7 [] true false []); AHandle 0 ([OEmplace 9 90], ROk 0, (false, true));
   ACall (OAdvance 10 10); AFire; AHandle 0 ([], ROk 0, (true, false)); ACall (OAGet 4 8 [] true false [])].
Definition late_end : list aop := [AHandle 0 ([], ROk 0, (true, false)); ACall (ODropCb 0); ACall (ODropCb 1); ACall (ODropCb 2); ACall (ODropCb 3); ACall (ODropCb 4)].
Example C47_example : afine (late_run ++ ACall ODestroy :: late_end) /\
  (exists a : ast comp_ptr, arun cfg_atimer (late_run ++ [ACall ODestroy]) a_init = Ok a /\
    (map (fun w => length (deliveries w (a_cache a))) [1; 2; 3; 4]%N, length (a_queued a), size (m_els (me (a_cache a)))) = ([1; 1; 1; 1]%nat, 1%nat, 5%nat)) /\
  exists a : ast comp_ptr, arun cfg_atimer (late_run ++ ACall ODestroy :: late_end) a_init = Ok a /\ (length (a_queued a), size (m_els (me (a_cache a))), size (m_cbs (me (a_cache a)))) = (0%nat, 0%nat, 0%nat).
Proof.
  split; [by vm_compute|]. split.
  - apply (obs_asio_after cfg_atimer (late_run ++ [ACall ODestroy]) (fun a => (map (fun w => length (deliveries w (a_cache a))) [1; 2; 3; 4]%N, length (a_queued a), size (m_els (me (a_cache a)))))). by vm_compute.
  - apply (obs_asio_after cfg_atimer (late_run ++ ACall ODestroy :: late_end) (fun a => (length (a_queued a), size (m_els (me (a_cache a))), size (m_cbs (me (a_cache a)))))). by vm_compute.
Qed.

(** ** C48 *)
(** With late handlers there can be two values for a key: the value of the late handler is added beside
    the one that the user has put there in the meantime ([count] counts both, with one key in use). *)
Definition put_again : list aop := ran_out ++ [ACall (OEmplace 7 700)] ++ run_late.
Theorem C48_two_entries_refuted :
  exists k l (a : ast comp_ptr) x y, fine_cfg k /\ tame k /\ eq_ok k /\ afine l /\ forallb (fun o => match o with ACall (OGet 7 _ _) | ACall (OEmplace 7 _) | ACall (OAdvance _ _) | AFire | AHandle _ ([], _, _) => true | _ => false end) l = true /\
    arun k l a_init = Ok a /\ live_entry (a_cache a) x 7 /\ live_entry (a_cache a) y 7 /\ x <> y /\ m_cbs (me (a_cache a)) = ∅ /\ live_count k (a_cache a) = Some 2%nat.
Proof.
  destruct (obs_asio_after cfg_timer put_again
    (fun a => (table_entries (a_cache a), map (fun e => (fun el => (el_key el, el_map el)) <$> m_els (me (a_cache a)) !! e) [1; 2]%N, map_to_list (m_cbs (me (a_cache a))), live_count cfg_timer (a_cache a)))
    ([1; 2]%N, [Some (7, MVal 700); Some (7, MVal 71)], [], Some 2%nat)) as (a & E & P); [by vm_compute|].
  injection P as P1 P2 P3 P4 P5. exists cfg_timer, put_again, a, 1%N, 2%N. split; [clear; by intros _|]. split; [by left|]. split; [apply mod_keys_ok|].
  split; [by vm_compute|]. split; [reflexivity|]. split; [exact E|]. clear E.
  assert (forall e v, e ∈ table_entries (a_cache a) -> (fun el => (el_key el, el_map el)) <$> m_els (me (a_cache a)) !! e = Some (7, MVal v) -> live_entry (a_cache a) e 7) as H.
  { clear. intros e v H1 H2. split; [exact H1|]. destruct (m_els (me (a_cache a)) !! e) as [el|]; [|done]. injection H2 as H2 H3. exists el. split; [reflexivity|]. split; [exact H2|]. left. eauto. }
  split; [eapply H; [rewrite P1; set_solver|exact P2]|]. split; [eapply H; [rewrite P1; set_solver|exact P3]|]. split; [done|]. split; [by apply map_to_list_empty_iff|exact P5].
Qed.
Print Assumptions C48_two_entries_refuted.

(** If every handler runs while its value is still in the hashtable (and its resolver does not throw), there
    is at most one live entry per key, beside the one that is being refreshed by it. *)
Theorem C48_unique_partial : forall k l (a : ast comp_ptr) x y key key', fine_cfg k -> eq_ok k -> afine l -> forallb (aplain_op k) l = true -> in_place k l ->
  arun k l a_init = Ok a -> m_up (me (a_cache a)) = true -> live_entry (a_cache a) x key -> live_entry (a_cache a) y key' -> k_eq k key key' = true ->
  x = y \/ replaces (a_cache a) x y \/ replaces (a_cache a) y x.
Proof. intros k l a x y key key' Hk. exact (asio_two k Hk l a x y key key'). Qed.
Print Assumptions C48_unique_partial.
(** Two timers run out; before their handlers run (the later one first), the value of another key is
    replaced and another value is looked up. *)
Definition in_place_run : list aop :=
  [ACall (OGet 7 [] (ROk 70)); ACall (OGet 8 [] (ROk 80)); ACall (OAdvance 5 5); ACall (OGet 9 [] (ROk 90)); ACall (OAdvance 5 5); AFire; AFire;
   ACall (OEmplace 9 99); ACall (OGet 7 [] (ROk 0)); AHandle 1 ([], ROk 81, (false, false)); ACall (OGet 10 [] (ROk 100)); AHandle 0 ([], ROk 71, (false, false))].
Example C48_unique_example : afine in_place_run /\ forallb (aplain_op cfg_timer) in_place_run = true /\ in_place cfg_timer in_place_run /\
  exists a : ast comp_ptr, arun cfg_timer in_place_run a_init = Ok a /\ (map (peek cfg_timer (a_cache a)) [7; 8; 9; 10], m_up (me (a_cache a)), live_count cfg_timer (a_cache a)) = ([Some 71; Some 81; Some 99; Some 100], true, Some 4%nat).
Proof.
  split; [by vm_compute|]. split; [by vm_compute|]. split; [apply in_place_check; by vm_compute|].
  apply (obs_asio_after cfg_timer in_place_run (fun a => (map (peek cfg_timer (a_cache a)) [7; 8; 9; 10], m_up (me (a_cache a)), live_count cfg_timer (a_cache a)))). by vm_compute.
Qed.

(** ** C51 *)
(** Every value in the cache is going to be refreshed: its timer runs, its handler is queued, or its refresh
    has been started, unless one of its deadlines has passed; for [asio_refresh_policy] and for
    [asio_refresh_fn_policy] (timers that run out in any order), however late the handlers run. (Not for
    weak pointers, with a clock that is set back, or if an async resolver throws when called to refresh a
    value.) *)
Theorem C51_complete_partial : forall k, fine_cfg k -> forall delay idle, k_refresh k = Some (delay, idle) -> forall l (a : ast comp_ptr) e el v, tame k -> afine l ->
  k_steady k = true \/ existsb aback l = false -> existsb athrows l = false -> arun k l a_init = Ok a -> m_up (me (a_cache a)) = true ->
  e ∈ table_entries (a_cache a) -> m_els (me (a_cache a)) !! e = Some el -> el_map el = MVal v -> el_rs el = false -> in_time (a_cache a) el ->
  e ∈ refresh_queue (a_cache a) \/ e ∈ a_queued a.
Proof. exact asio_complete. Qed.
Print Assumptions C51_complete_partial.
(** In particular every value that a lookup can find. *)
Theorem C51_found_partial : forall k, fine_cfg k -> forall delay idle, k_refresh k = Some (delay, idle) -> forall l (a : ast comp_ptr) key v, tame k -> afine l ->
  k_steady k = true \/ existsb aback l = false -> existsb athrows l = false -> arun k l a_init = Ok a -> peek k (a_cache a) key = Some v ->
  exists e el, e ∈ table_entries (a_cache a) /\ m_els (me (a_cache a)) !! e = Some el /\ k_eq k (el_key el) key = true /\ el_map el = MVal v /\
    (e ∈ refresh_queue (a_cache a) \/ e ∈ a_queued a \/ el_rs el = true).
Proof. exact asio_found. Qed.
Print Assumptions C51_found_partial.
(** [asio_refresh_fn_policy]: the value gives the time, here the last digit of the value. Three values; the
    timer of the second one runs out first, then those of the third and the first one; the value of a queued
    handler is erased and looked up again; handlers run in another order. *)
Definition by_digit (v t : Z) : Z := t + v mod 10.
Definition cfg_fn := mod_keys (set_refresh cfg_async 0 0).
Definition fn_run : list aop :=
  [ACall (OEmplace 7 709); ACall (OEmplace 8 803); ACall (OEmplace 9 905); ACall (OAdvance 2 2); AExpire by_digit 1; ACall (OAdvance 1 1); AExpire by_digit 0; AExpire by_digit 1; AExpire by_digit 1;
   ACall (OAdvance 4 4); AExpire by_digit 2; AExpire by_digit 0; ACall (OErase 9); ACall (OAGet 1 9 [] true false []); ACall (OAssign 0 901 []); AHandle 1 ([], ROk 0, (true, false));
   AHandle 0 ([OEmplace 10 1004], ROk 0, (true, false)); ACall (OAdvance 2 2); AExpire by_digit 0].
Definition sees_timers (a : ast comp_ptr) :=
  (map (fun e => (fun el => (el_key el, (match el_map el with MVal v => Some v | _ => None end), el_rs el, el_rf el)) <$> m_els (me (a_cache a)) !! e) (table_entries (a_cache a)),
   map (fun e => el_key <$> m_els (me (a_cache a)) !! e) (refresh_queue (a_cache a)), map (fun e => el_key <$> m_els (me (a_cache a)) !! e) (a_queued a), m_steady (me (a_cache a))).
Example C51_example : tame cfg_fn /\ afine fn_run /\ existsb aback fn_run = false /\ existsb athrows fn_run = false /\
  exists a : ast comp_ptr, arun cfg_fn fn_run a_init = Ok a /\
    (sees_timers a, map (peek cfg_fn (a_cache a)) [7; 8; 9; 10]) =
    (([Some (10, Some 1004, false, 7); Some (7, Some 709, false, 0); Some (8, Some 803, true, 0); Some (8, None, false, 0); Some (9, Some 901, false, 7); Some (9, None, false, 0)],
      [Some 9; Some 10], [Some 7], 9), [Some 709; Some 803; Some 901; Some 1004]).
Proof.
  split; [by left|]. split; [by vm_compute|]. split; [by vm_compute|]. split; [by vm_compute|].
  apply (obs_asio_after cfg_fn fn_run (fun a => (sees_timers a, map (peek cfg_fn (a_cache a)) [7; 8; 9; 10]))). by vm_compute.
Qed.

(** If the resolver throws when it is called to refresh a value, nobody refreshes the value any more: it
    has no timer and no handler, and no refresh has been started. *)
Definition thrown_away : list aop := [ACall (OEmplace 7 70); ACall (OAdvance 10 10); AFire; AHandle 0 ([], ROk 0, (false, true)); ACall (OAdvance 1000 1000); AFire].
Theorem C51_throw_refuted : exists k l (a : ast comp_ptr) e el v, fine_cfg k /\ eq_ok k /\ tame k /\ afine l /\ existsb aback l = false /\ (exists d i, k_refresh k = Some (d, i)) /\
  arun k l a_init = Ok a /\ e ∈ table_entries (a_cache a) /\ m_els (me (a_cache a)) !! e = Some el /\ el_map el = MVal v /\ in_time (a_cache a) el /\
  el_rs el = false /\ refresh_queue (a_cache a) = [] /\ a_queued a = [] /\ peek k (a_cache a) (el_key el) = Some v.
Proof.
  destruct (obs_asio_after cfg_atimer thrown_away (fun a => (table_entries (a_cache a), m_els (me (a_cache a)) !! 0%N, refresh_queue (a_cache a), a_queued a, peek cfg_atimer (a_cache a) 7))
    ([0%N; 1%N], Some (Elem 7 (MVal 70) 1 None None 10 None false), [], [], Some 70)) as (a & E & P); [by vm_compute|].
  injection P as P1 P2 P3 P4 P5. exists cfg_atimer, thrown_away, a, 0%N, (Elem 7 (MVal 70) 1 None None 10 None false), 70.
  split; [clear; by intros _|]. split; [apply mod_keys_ok|]. split; [by left|]. split; [by vm_compute|]. split; [by vm_compute|]. split; [by exists 10, 0|].
  split; [exact E|]. clear E. split; [rewrite P1; left|]. split; [exact P2|]. split; [done|]. split; [clear; done|]. split; [done|]. split; [exact P3|]. split; [exact P4|exact P5].
Qed.
Print Assumptions C51_throw_refuted.
