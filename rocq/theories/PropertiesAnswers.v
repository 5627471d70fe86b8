(** Property theorems about the answers of [get] and [async_get] and about when the resolver is called.
    Model: Cache.v over CachePtr.v. Observers: Observe.v. Classes of histories: Histories.v. *)
From Verif Require Import Base Mapped Cache CachePtr Observe Histories PropertiesRefuted PropertiesCache Examples Calls Cancel.
Local Open Scope Z_scope.

(** ** C12 *)
(** [get_if_exists] finds a value exactly when [get] ([async_get]) would hit, and it is the same value.
    ([tame]: see C12_weak_refuted for pointers with both weaken and max_size.) *)
Theorem C12_agree_partial : forall k l s key v, fine_cfg k -> tame k -> eq_ok k -> fine l -> after k l s -> m_up (me s) = true ->
  peek k s key = Some v <-> hits k s key v.
Proof. intros k l s key v Hk Ht Hq. exact (peek_hits k Hk Ht Hq l s key v). Qed.
Print Assumptions C12_agree_partial.
Example C12_agree_example : let k := mod_keys (set_age (set_max_size cfg_async 8) (Some 50) None false false) in
  let l := [OAGet 1 7 [] true false []; OAGet 2 8 [] true false []; OAssign 1 80 []; OEmplace 12 9; OAdvance 3 3; OEmplace 13 10; OErase 112] in
  fine_cfg k /\ tame k /\ eq_ok k /\ fine l /\
  exists s, after k l s /\ (m_up (me s), map (peek k s) [108; 7; 12; 213]) = (true, [Some 80; None; None; Some 10]).
Proof.
  intros k l. split; [done|]. split; [by left|]. split; [apply mod_keys_ok|]. split; [by vm_compute|].
  apply (obs_after _ _ (fun s => (m_up (me s), map (peek k s) [108; 7; 12; 213]))). by vm_compute.
Qed.
(** It changes nothing, in any state; a returned pointer is now held by the user. *)
Theorem C12_unchanged : forall k (s s' : cache) key r, step k false (OGetIf key) s = Ok (s', r) ->
  s' = match r with RetVal v => if k_pointer k then with_me s (set_dropped (me s) (m_dropped (me s) ∖ {[v]})) else s | _ => s end.
Proof. exact getif_state. Qed.
Print Assumptions C12_unchanged.
Example C12_unchanged_example : exists s, after cfg_rf history_clear s /\ answer cfg_rf s (OGetIf 8) = Some (RetVal 80).
Proof. apply (obs_after _ _ (fun s => answer cfg_rf s (OGetIf 8))). by vm_compute. Qed.

(** ** C21, C22 *)
(** A [get] that hits does not call the resolver: C12_agree_partial. A [get] that misses calls it once.
    [s0] is the cache as the resolver sees it, [s1] as it leaves it (the resolver may itself have used
    the cache; everything else that is in the log after the call is from there). If it returns a value,
    [get] returns it, and the value is in the cache afterwards, unless the resolver itself put a value for
    the key there. Other keys are as the resolver left them. *)
Theorem C21_miss : forall k l key script v s s', fine_cfg k -> tame k -> eq_ok k -> ages_ok k -> k_resolver k = RSync ->
  fine (l ++ [OGet key script (ROk v)]) -> after k l s -> after k (l ++ [OGet key script (ROk v)]) s' -> m_up (me s) = true -> peek k s key = None ->
  exists s0 s1, m_log (me s0) = EvResolve key :: m_log (me s) /\ (forall key', peek k s0 key' = peek k s key') /\
    run_nested k script s0 = Ok s1 /\ m_log (me s') = m_log (me s1) /\
    ((k_pointer k = true -> v ∉ m_dropped (me s1)) -> answer k s (OGet key script (ROk v)) = Some (RetVal v) /\
      forall key', peek k s' key' = match peek k s1 key' with Some u => Some u | None => if k_eq k key key' then Some v else None end).
Proof. intros k l key script v s s' Hk Ht Hq Ha Hr Hf H1 H2 Hu Hp. exact (sync_miss k Hk Ht Hq l key script (ROk v) s s' Ha Hf H1 H2 Hu Hr Hp). Qed.
Print Assumptions C21_miss.
Definition cfg_sync_aged := mod_keys (set_age (set_max_size cfg_sync 2) (Some 50) None false true).
Example C21_example : let l := [OEmplace 3 1; OGet 4 [] (ROk 40); OAdvance 60 60] in let o := OGet 103 [OGet 8 [] (ROk 80); OErase 4] (ROk 5) in
  ages_ok cfg_sync_aged /\ fine (l ++ [o]) /\
  (exists s, after cfg_sync_aged l s /\ (peek cfg_sync_aged s 103, answer cfg_sync_aged s o) = (None, Some (RetVal 5))) /\
  exists s, after cfg_sync_aged (l ++ [o]) s /\ (map (peek cfg_sync_aged s) [3; 4; 8], m_log (me s)) = ([Some 5; None; Some 80], [EvResolve 8; EvResolve 103; EvResolve 4]).
Proof.
  intros l o. split; [split; intros * [= <-]; lia|]. split; [by vm_compute|].
  split; [apply (obs_after _ _ (fun s => (peek cfg_sync_aged s 103, answer cfg_sync_aged s o)))|apply (obs_after _ _ (fun s => (map (peek cfg_sync_aged s) [3; 4; 8], m_log (me s))))]; by vm_compute.
Qed.
(** If the resolver throws, [get] throws the same and nothing changes in the cache. *)
Theorem C22_throw : forall k l key script x s s', fine_cfg k -> tame k -> eq_ok k -> ages_ok k -> k_resolver k = RSync ->
  fine (l ++ [OGet key script (RThrow x)]) -> after k l s -> after k (l ++ [OGet key script (RThrow x)]) s' -> m_up (me s) = true -> peek k s key = None ->
  exists s0 s1, m_log (me s0) = EvResolve key :: m_log (me s) /\ (forall key', peek k s0 key' = peek k s key') /\
    run_nested k script s0 = Ok s1 /\ m_log (me s') = m_log (me s1) /\
    answer k s (OGet key script (RThrow x)) = Some (RetErr x) /\ forall key', peek k s' key' = peek k s1 key'.
Proof. intros k l key script x s s' Hk Ht Hq Ha Hr Hf H1 H2 Hu Hp. exact (sync_miss k Hk Ht Hq l key script (RThrow x) s s' Ha Hf H1 H2 Hu Hr Hp). Qed.
Print Assumptions C22_throw.
Example C22_example : let l := [OEmplace 3 1; OGet 4 [] (ROk 40)] in let o := OGet 7 [OGet 8 [] (ROk 80)] (RThrow 5) in
  fine (l ++ [o]) /\ (exists s, after cfg_sync_aged l s /\ (peek cfg_sync_aged s 7, answer cfg_sync_aged s o) = (None, Some (RetErr 5))) /\
  exists s, after cfg_sync_aged (l ++ [o]) s /\ map (peek cfg_sync_aged s) [7; 3; 4; 8] = [None; Some 1; Some 40; Some 80].
Proof.
  intros l o. split; [by vm_compute|].
  split; [apply (obs_after _ _ (fun s => (peek cfg_sync_aged s 7, answer cfg_sync_aged s o)))|apply (obs_after _ _ (fun s => map (peek cfg_sync_aged s) [7; 3; 4; 8]))]; by vm_compute.
Qed.

(** ** C24 *)
(** An [async_get] that calls the resolver (which keeps its callback) starts a lookup. *)
Theorem C24_starts : forall k l w key s s', fine_cfg k -> tame k -> eq_ok k -> k_resolver k = RAsync -> fine l ->
  after k l s -> after k (l ++ [OAGet w key [] true false []]) s' -> m_up (me s) = true -> m_log (me s') = EvResolve key :: m_log (me s) ->
  exists i, underway k s' i key /\ waiting_on s' i = [w] /\ m_cbs (me s) !! i = None.
Proof. intros k l w key s s' Hk Ht Hq. exact (starts k Hk Ht Hq l w key s s'). Qed.
Print Assumptions C24_starts.
(** It stays open until it is completed, cancelled or dropped, the key is erased or replaced, or the size
    limit evicts it. *)
Theorem C24_stays : forall k l1 l2 s1 s2 i key, fine_cfg k -> eq_ok k -> spared k s1 s2 key -> fine (l1 ++ l2) -> ODestroy ∉ l2 ->
  existsb (touches i) l2 = false -> existsb (spoils k key) l2 = false ->
  after k l1 s1 -> after k (l1 ++ l2) s2 -> m_up (me s1) = true -> underway k s1 i key -> underway k s2 i key /\ m_up (me s2) = true.
Proof. intros k l1 l2 s1 s2 i key Hk Hq. exact (stays_underway k Hk Hq l1 l2 s1 s2 i key). Qed.
Print Assumptions C24_stays.
(** While a lookup is open, [async_get] of the key does not call the resolver: if the cache has a value
    (it is being refreshed) the caller gets it, else the caller joins the waiters of that lookup. *)
Theorem C24_joins : forall k l i w key script keep throw imm s s', fine_cfg k -> tame k -> eq_ok k -> k_resolver k = RAsync ->
  fine (l ++ [OAGet w key script keep throw imm]) -> after k l s -> after k (l ++ [OAGet w key script keep throw imm]) s' ->
  m_up (me s) = true -> underway k s i key ->
  match peek k s key with
  | Some v => exists l, m_log (me s') = l ++ EvCall w v 0 true :: m_log (me s) /\ (imm = [] -> l = [])
  | None => m_log (me s') = m_log (me s) /\ forall j, in_flight s j -> waiting_on s' j = waiting_on s j ++ (if decide (j = i) then [w] else [])
  end.
Proof. intros k l i w key script keep throw imm s s' Hk Ht Hq. exact (joins k Hk Ht Hq l i w key script keep throw imm s s'). Qed.
Print Assumptions C24_joins.
(** If the cache has no value for the key and no lookup of it is open, the resolver is called. *)
Theorem C24_calls : forall k l w key s s', fine_cfg k -> tame k -> eq_ok k -> k_resolver k = RAsync -> fine l ->
  after k l s -> after k (l ++ [OAGet w key [] true false []]) s' -> m_up (me s) = true -> peek k s key = None -> (forall i, ~ underway k s i key) ->
  m_log (me s') = EvResolve key :: m_log (me s).
Proof. intros k l w key s s' Hk. exact (asked_again k Hk l w key s s'). Qed.
Print Assumptions C24_calls.
Example C24_example : let k := mod_keys cfg_rf in let l := take 4 history_clear in let o := OAGet 5 9 [] true false [] in
  let l2 := [OAGet 6 4 [] true false []; OErase 7; OTick [([], ROk 0, (true, false))]; OAssign 3 40 []; OAdvance 1 1; OEmplace 33 3; OAGet 6 108 [] true false []] in
  eq_ok k /\ fine ((l ++ [o]) ++ l2) /\ existsb (touches 2) l2 = false /\ existsb (spoils k 9) l2 = false /\
  (exists s, after k (l ++ [o]) s /\ (waiting_on s 2, take 1 (m_log (me s))) = ([5%N], [EvResolve 9])) /\
  (exists s, after k (((l ++ [o]) ++ l2) ++ [OAGet 8 209 [] true false []]) s /\ (waiting_on s 2, resolves k 9 s) = ([5; 8]%N, 1%nat)).
Proof.
  intros k l o l2. split; [apply mod_keys_ok|]. split; [by vm_compute|]. split; [by vm_compute|]. split; [by vm_compute|].
  split; [apply (obs_after _ _ (fun s => (waiting_on s 2, take 1 (m_log (me s)))))|apply (obs_after _ _ (fun s => (waiting_on s 2, resolves k 9 s)))]; by vm_compute.
Qed.

(** ** C26 *)
(** A lookup that is cancelled, or whose callback the resolver drops: its waiters, and only they, are
    released (in the order in which they came), the lookup is over, and no request of it stays behind.
    What is missing: a callback dropped before the lookup call returns; there the statement is false
    (C26_dropped_at_once_refuted). *)
Theorem C26_released_partial : forall k l o i s s', fine_cfg k -> fine (l ++ [o]) -> after k l s -> after k (l ++ [o]) s' -> m_up (me s) = true ->
  o = OCancel i \/ o = ODropCb i -> in_flight s i ->
  m_log (me s') = rev (map EvDrop (waiting_on s i)) ++ m_log (me s) /\ ~ in_flight s' i /\ waiting_on s' i = [] /\
  forall w, waiting w s = (waiting w s' + length (filter (fun x => x = w) (waiting_on s i)))%nat.
Proof. intros k l o i s s' Hk. exact (given_up k Hk l o i s s'). Qed.
Print Assumptions C26_released_partial.
(** The key can be looked up again: the next [async_get] calls the resolver, unless there is a value or
    another lookup of the key (as after an erase). *)
Theorem C26_again_partial : forall k l o i w key s s' s2, fine_cfg k -> tame k -> eq_ok k -> k_resolver k = RAsync -> fine (l ++ [o]) -> o = OCancel i \/ o = ODropCb i ->
  after k l s -> after k (l ++ [o]) s' -> after k ((l ++ [o]) ++ [OAGet w key [] true false []]) s2 -> m_up (me s) = true -> in_flight s i ->
  peek k s' key = None -> (forall j, j <> i -> ~ underway k s' j key) -> m_log (me s2) = EvResolve key :: m_log (me s').
Proof. intros k l o i w key s s' s2 Hk. exact (free_again k Hk l o i w key s s' s2). Qed.
Print Assumptions C26_again_partial.
Example C26_example : let k := mod_keys cfg_async in let l := [OAGet 1 7 [] true false []; OAGet 2 8 [] true false []; OAGet 3 107 [] true false []; OAGet 1 207 [] true false []] in
  fine (l ++ [ODropCb 0]) /\ fine (l ++ [OCancel 0]) /\
  (exists s, after k l s /\ (waiting_on s 0, waiting 1 s, waiting_on s 1) = ([1; 3; 1]%N, 2%nat, [2%N])) /\
  (exists s, after k (l ++ [ODropCb 0]) s /\ (m_log (me s), waiting 1 s, waiting 2 s, peek k s 7) = ([EvDrop 1; EvDrop 3; EvDrop 1; EvResolve 8; EvResolve 7], 0%nat, 1%nat, None)) /\
  exists s, after k ((l ++ [OCancel 0]) ++ [OAGet 4 307 [] true false []]) s /\ (m_log (me s), waiting_on s 2) = ([EvResolve 307; EvDrop 1; EvDrop 3; EvDrop 1; EvResolve 8; EvResolve 7], [4%N]).
Proof.
  intros k l. split; [by vm_compute|]. split; [by vm_compute|].
  split; [apply (obs_after _ _ (fun s => (waiting_on s 0, waiting 1 s, waiting_on s 1))); by vm_compute|].
  split; [apply (obs_after _ _ (fun s => (m_log (me s), waiting 1 s, waiting 2 s, peek k s 7)))|apply (obs_after _ _ (fun s => (m_log (me s), waiting_on s 2)))]; by vm_compute.
Qed.
