(** Property theorems about what lookups return and about lookups in flight. Model: Cache.v over
    CachePtr.v. Observers: Observe.v. Classes of histories and the map specification: Histories.v. *)
From Verif Require Import Base Mapped Cache CachePtr Observe Histories PropertiesRefuted PropertiesCache Examples Lookups Waiters.
Local Open Scope Z_scope.

(** ** C11 *)
(** Without policies and resolver the cache is the map that [contents] computes from the history, keys
    being identified by the equality policy, for every compatible hash function. *)
Theorem C11_map : forall k l s key, eq_ok k ->
  k_resolver k = RNone -> k_max_size k = None -> k_max_age k = None -> k_refresh k = None -> k_pointer k = false ->
  fine l -> ODestroy ∉ l -> after k l s ->
  peek k s key = contents k l key /\
  (forall script out, answer k s (OGet key script out) = Some (match contents k l key with Some v => RetVal v | None => RetNone end)) /\
  (forall v, answer k s (OGetOrEmplace key v) = Some (RetVal (default v (contents k l key)))).
Proof.
  intros k l s key Hq Hr Hs Hm Hrf Hp Hf Hd Ha.
  exact (map_contents k (fun H => False_ind _ (H Hrf)) (or_introl Hp) Hq Hr Hs Hm Hrf Hp l s Hf Hd Ha key).
Qed.
Print Assumptions C11_map.
Example C11_example : let k := mod_keys cfg_plain in
  let l := [OEmplace 1 10; OEmplace 6 60; OEmplace 101 11; OErase 206; OGetOrEmplace 6 61; OGetOrEmplace 301 12; OReserve 50; OEmplace 11 5; OEmplaceThrow 11] in
  eq_ok k /\ fine l /\ map (contents k l) [1; 6; 11; 2] = [Some 11; Some 61; None; None] /\
  exists s, after k l s /\ map (peek k s) [401; 6; 11; 2] = [Some 11; Some 61; None; None].
Proof.
  intros k l. split; [apply mod_keys_ok|]. split; [by vm_compute|]. split; [by vm_compute|]. apply (obs_after _ _ (fun s => map (peek k s) [401; 6; 11; 2])). by vm_compute.
Qed.

(** ** C13 *)
(** [erase(key)] removes [key] and leaves every lookup of a different key as it was. *)
Theorem C13_erase : forall k l key s s', fine_cfg k -> tame k -> eq_ok k -> fine l -> after k l s -> after k (l ++ [OErase key]) s' ->
  forall key', peek k s' key' = if k_eq k key key' then None else peek k s key'.
Proof. intros k l key s s' Hk Ht Hq. exact (erase_peek k Hk Ht Hq l key s s'). Qed.
Print Assumptions C13_erase.
(** the key in the history has two live entries, and a colliding neighbour *)
Example C13_example : let k := mod_keys cfg_sync in let l := [OGet 1 [OGet 101 [] (ROk 10)] (ROk 20); OGet 6 [] (ROk 60); OGet 2 [] (ROk 7)] in
  fine_cfg k /\ tame k /\ eq_ok k /\ fine l /\
  (exists s, after k l s /\ (live_count k s, map (peek k s) [1; 6; 2]) = (Some 4%nat, [Some 10; Some 60; Some 7])) /\
  (exists s, after k (l ++ [OErase 201]) s /\ (live_count k s, map (peek k s) [1; 6; 2]) = (Some 2%nat, [None; Some 60; Some 7])).
Proof.
  intros k l. split; [done|]. split; [by left|]. split; [apply mod_keys_ok|]. split; [by vm_compute|].
  split; apply (obs_after _ _ (fun s => (live_count k s, map (peek k s) [1; 6; 2]))); by vm_compute.
Qed.

(** ** C14 *)
Theorem C14_clear : forall k l s s', fine_cfg k -> tame k -> fine l -> after k l s -> after k (l ++ [OClear]) s' ->
  (forall key, peek k s' key = None) /\ (m_up (me s') = true -> live_count k s' = Some 0%nat).
Proof. intros k l s s' Hk Ht. exact (clear_peek k Hk Ht l s s'). Qed.
Print Assumptions C14_clear.
Example C14_example : exists s, after cfg_full (take 8 history_full ++ [OClear]) s /\ (live_count cfg_full s, map (peek cfg_full s) [6; 7; 8; 9]) = (Some 0%nat, [None; None; None; None]).
Proof. apply (obs_after _ _ (fun s => (live_count cfg_full s, map (peek cfg_full s) [6; 7; 8; 9]))). by vm_compute. Qed.

(** ** C25 and the second half of C14 *)
(** After [erase(key)] or [clear()] nothing that happens brings the key back, as long as nobody looks
    it up with a resolver or emplaces it: not the completion of lookups that were in flight, not the
    refresh worker, not time. (Every configuration.) *)
Theorem C25_not_cached : forall k key l1 o l2 s, fine_cfg k -> eq_ok k -> fine (l1 ++ o :: l2) ->
  removes k key o = true -> forallb (fun o => negb (enters (fun key' => k_eq k key' key) o)) l2 = true ->
  after k (l1 ++ o :: l2) s -> peek k s key = None.
Proof. intros k key l1 o l2 s Hk Hq. exact (removed k Hk Hq key l1 o l2 s). Qed.
Print Assumptions C25_not_cached.
(** a lookup of 7 and a refresh of 8 are in flight at the [clear()] and complete afterwards *)
Example C25_example : fine_cfg cfg_rf /\ fine (history_clear ++ OClear :: [OAssign 0 70 []; OAssign 2 81 []; OTick []]) /\
  forallb (fun o => negb (enters (fun key' => k_eq cfg_rf key' 7) o)) [OAssign 0 70 []; OAssign 2 81 []; OTick []] = true /\
  (exists s, after cfg_rf (history_clear ++ [OAssign 0 70 []; OAssign 2 81 []]) s /\ map (peek cfg_rf s) [7; 8] = [Some 70; Some 81]) /\
  (exists s, after cfg_rf (history_clear ++ OClear :: [OAssign 0 70 []; OAssign 2 81 []; OTick []]) s /\
     (map (peek cfg_rf s) [7; 8], deliveries 1 s) = ([None; None], [EvCall 1 70 0 false])).
Proof.
  split; [done|]. split; [by vm_compute|]. split; [by vm_compute|]. split.
  - apply (obs_after _ _ (fun s => map (peek cfg_rf s) [7; 8])). by vm_compute.
  - apply (obs_after _ _ (fun s => (map (peek cfg_rf s) [7; 8], deliveries 1 s))). by vm_compute.
Qed.

(** ** C23, C25: what the waiters get *)
(** While nobody completes, cancels or drops a lookup (and the cache lives), it keeps all its waiters,
    whatever else happens; in particular after [erase] and [clear]. *)
Theorem C23_waiters_stay : forall k l1 l2 s1 s2 i, fine_cfg k -> fine (l1 ++ l2) -> ODestroy ∉ l2 -> existsb (touches i) l2 = false ->
  after k l1 s1 -> after k (l1 ++ l2) s2 -> m_up (me s1) = true -> in_flight s1 i ->
  in_flight s2 i /\ key_of s2 i = key_of s1 i /\ (exists q, waiting_on s2 i = waiting_on s1 i ++ q) /\ m_up (me s2) = true.
Proof. intros k l1 l2 s1 s2 i Hk. exact (stays_in_flight k Hk l1 l2 s1 s2 i). Qed.
Print Assumptions C23_waiters_stay.
Example C23_waiters_stay_example : let l2 := [OAGet 3 7 [] true false []; OErase 7; OClear; OAGet 4 7 [] true false []] in
  fine (history_clear ++ l2) /\ existsb (touches 0) l2 = false /\
  (exists s, after cfg_rf history_clear s /\ waiting_on s 0 = [1%N]) /\ (exists s, after cfg_rf (history_clear ++ l2) s /\ waiting_on s 0 = [1; 3]%N).
Proof.
  intros l2. split; [by vm_compute|]. split; [by vm_compute|]. split; apply (obs_after _ _ (fun s => waiting_on s 0)); by vm_compute.
Qed.
(** The completion of a lookup calls its waiters with the outcome, in the order in which they came, and
    nobody else. *)
Theorem C23_value : forall k l i v us s s', fine_cfg k -> fine (l ++ [OAssign i v us]) -> after k l s -> after k (l ++ [OAssign i v us]) s' ->
  m_up (me s) = true -> in_flight s i -> (k_pointer k = true -> v ∉ m_dropped (me s)) ->
  answer k s (OAssign i v us) = Some (RetBool true) /\
  m_log (me s') = rev (map (fun w => EvCall w v 0 false) (waiting_on s i)) ++ m_log (me s) /\ ~ in_flight s' i.
Proof. intros k l i v us s s' Hk. exact (completed k Hk l i v us s s'). Qed.
Print Assumptions C23_value.
Theorem C23_error : forall k l i x us s s', fine_cfg k -> fine (l ++ [OFail i x us]) -> after k l s -> after k (l ++ [OFail i x us]) s' ->
  m_up (me s) = true -> in_flight s i ->
  answer k s (OFail i x us) = Some (RetBool true) /\
  m_log (me s') = rev (map (fun w => EvCall w 0 x false) (waiting_on s i)) ++ m_log (me s) /\ ~ in_flight s' i.
Proof. intros k l i x us s s' Hk. exact (failed k Hk l i x us s s'). Qed.
Print Assumptions C23_error.
Example C23_value_example : let l := history_clear ++ [OAGet 3 7 [] true false []; OErase 7; OAGet 4 7 [] true false []] in
  fine (l ++ [OAssign 0 70 []]) /\ (exists s, after cfg_rf l s /\ (waiting_on s 0, waiting_on s 3, m_up (me s)) = ([1; 3]%N, [4%N], true)) /\
  (exists s, after cfg_rf (l ++ [OAssign 0 70 []]) s /\ take 2 (m_log (me s)) = [EvCall 3 70 0 false; EvCall 1 70 0 false]).
Proof.
  intros l. split; [by vm_compute|]. split; [apply (obs_after _ _ (fun s => (waiting_on s 0, waiting_on s 3, m_up (me s))))|apply (obs_after _ _ (fun s => take 2 (m_log (me s))))]; by vm_compute.
Qed.

(** ** C27, sequential use *)
Theorem C27_once : forall k l1 l2 o1 o2 i s1 s2 s3, fine_cfg k -> fine (l1 ++ o1 :: l2 ++ [o2]) ->
  ((exists v us, o1 = OAssign i v us) \/ (exists x us, o1 = OFail i x us)) -> ((exists v us, o2 = OAssign i v us) \/ (exists x us, o2 = OFail i x us)) ->
  after k l1 s1 -> answer k s1 o1 = Some (RetBool true) -> after k (l1 ++ o1 :: l2) s2 -> after k (l1 ++ o1 :: l2 ++ [o2]) s3 ->
  answer k s2 o2 <> Some (RetBool true) /\ (m_up (me s2) = true -> s3 = s2).
Proof. intros k l1 l2 o1 o2 i s1 s2 s3 Hk. exact (completes_once k Hk l1 l2 o1 o2 i s1 s2 s3). Qed.
Print Assumptions C27_once.
Example C27_example : fine (history_clear ++ OAssign 0 70 [] :: [OAGet 9 4 [] true false []] ++ [OFail 0 5 []]) /\
  (exists s, after cfg_rf history_clear s /\ answer cfg_rf s (OAssign 0 70 []) = Some (RetBool true)) /\
  (exists s, after cfg_rf (history_clear ++ OAssign 0 70 [] :: [OAGet 9 4 [] true false []]) s /\ answer cfg_rf s (OFail 0 5 []) = Some (RetBool false)).
Proof.
  split; [by vm_compute|]. split; [apply (obs_after _ _ (fun s => answer cfg_rf s (OAssign 0 70 [])))|apply (obs_after _ _ (fun s => answer cfg_rf s (OFail 0 5 [])))]; by vm_compute.
Qed.
