(** Property theorems about what the size limit evicts: C49, C50. Model: Cache.v over CachePtr.v.
    Observers: Observe.v ([evictions] counts the live entries of a key that lru_expire_ has marked to
    go, [all_evictions] those of all keys). Classes of histories: Histories.v. *)
From Verif Require Import Base Mapped Cache CachePtr Observe Histories PropertiesRefuted PropertiesCache Examples PropertiesRefresh PropertiesEntries Evict Lru.
Local Open Scope Z_scope.

(** ** C49: the limit is the only difference to a map *)
(** After any operation of any history, lookups of every key answer as those of a map (C11), unless
    the operation evicted the key; then they find nothing. *)
Theorem C49_map : forall k, fine_cfg k -> eq_ok k -> k_resolver k = RNone -> k_max_age k = None -> k_refresh k = None -> k_pointer k = false ->
  forall l o s s' key, fine (l ++ [o]) -> after k l s -> after k (l ++ [o]) s' -> m_up (me s') = true ->
  (spared k s s' key -> peek k s' key = map_op k o (peek k s) key) /\
  ((evictions k s key < evictions k s' key)%nat -> peek k s' key = None).
Proof. exact map_with_limit. Qed.
Print Assumptions C49_map.
(** Only emplace and get_or_emplace evict (whichever resolver and policies there are). *)
Theorem C49_only_insertions : forall k, fine_cfg k -> forall l o s s',
  fine (l ++ [o]) -> after k l s -> after k (l ++ [o]) s' -> m_up (me s') = true -> inserts o = false ->
  all_evictions s' = all_evictions s.
Proof. exact no_insertion. Qed.
Print Assumptions C49_only_insertions.
(** They evict no more than what the table, with the new entry, holds above the limit. In particular
    nothing is evicted while the table has room. *)
Theorem C49_amount : forall k, fine_cfg k -> forall n l o key v s s',
  k_max_size k = Some n -> fine l -> after k l s -> after k (l ++ [o]) s' -> o = OEmplace key v \/ o = OGetOrEmplace key v ->
  (all_evictions s' <= all_evictions s + (S (length (table_entries s)) - n))%nat.
Proof. exact insertion. Qed.
Print Assumptions C49_amount.
(** emplace(7) evicts the entry of 6 from a table limited to three; 1 and 5 stay. Two of the five
    entries of the table are dropped ones. Before it, keys were replaced, looked up, erased and
    evicted. *)
Definition cfg_lim := mod_keys cfg_three.
Definition history_lim := [OReserve 50; OEmplace 1 10; OEmplace 2 20; OEmplace 3 30; OEmplace 4 40; OGetIf 1; OGet 2 [] (ROk 0); OErase 3; OEmplace 5 50; OGetOrEmplace 6 60].
Definition seen (s : cache) : list (option Z) * list nat * nat * nat :=
  (map (peek cfg_lim s) [1; 5; 6; 7], map (evictions cfg_lim s) [1; 5; 6; 7], all_evictions s, length (table_entries s)).
Example C49_example : fine_cfg cfg_lim /\ eq_ok cfg_lim /\ fine (history_lim ++ [OEmplace 7 70]) /\
  (exists s, after cfg_lim history_lim s /\ seen s = ([Some 10; Some 50; Some 60; None], [0; 0; 0; 0]%nat, 2%nat, 4%nat)) /\
  exists s, after cfg_lim (history_lim ++ [OEmplace 7 70]) s /\ seen s = ([Some 10; Some 50; None; Some 70], [0; 0; 1; 0]%nat, 3%nat, 5%nat).
Proof.
  split; [by intros ?|]. split; [apply mod_keys_ok|]. split; [by vm_compute|].
  split; apply (obs_after _ _ seen); by vm_compute.
Qed.

(** ** C50: the least recently used entries go first *)
(** A value that a lookup (get or get_or_emplace) found in a cache limited to n entries is still found
    as long as no more than n - 1 other keys are looked up or inserted after it, however often and in
    whatever order, and it is not erased, replaced or cleared. (A value that was only inserted has no
    such guarantee, C45.) *)
Theorem C50_recent_stay : forall k, fine_cfg k -> eq_ok k -> k_resolver k = RNone -> k_max_age k = None -> k_refresh k = None -> k_pointer k = false ->
  forall n, k_max_size k = Some n ->
  forall l1 o l2 key ks v s s', fine (l1 ++ o :: l2) -> after k l1 s -> after k (l1 ++ o :: l2) s' ->
  peek k s key = Some v -> uses k key o = true -> ODestroy ∉ l2 -> existsb (spoils k key) l2 = false ->
  (forall o' key', o' ∈ l2 -> raises o' = Some key' -> k_eq k key' key = true \/ exists x, x ∈ ks /\ k_eq k key' x = true) ->
  (length ks < n)%nat -> peek k s' key = Some v.
Proof. exact lru_keeps. Qed.
Print Assumptions C50_recent_stay.
(** Limit three: 1 is looked up; then 2 other keys are used again and again, and it stays. A third one
    is one too many. *)
Definition history_use := [OEmplace 1 10; OEmplace 2 20].
Definition use_1 := OGet 101 [] (ROk 0).
Definition others := [OEmplace 3 30; OEmplace 4 40; OGet 3 [] (ROk 0); OEmplace 3 31; OErase 104; OGetOrEmplace 4 41; OGet 104 [] (ROk 0); OEmplace 203 32; OGet 3 [] (ROk 0)].
Definition third := [OEmplace 3 30; OGet 3 [] (ROk 0); OEmplace 4 40; OGet 4 [] (ROk 0); OEmplace 5 50].
Definition found (s : cache) : list (option Z) := map (peek cfg_lim s) [1; 2; 3; 4; 5].
Example C50_example : fine_cfg cfg_lim /\ eq_ok cfg_lim /\ fine (history_use ++ use_1 :: others) /\
  uses cfg_lim 1 use_1 = true /\ ODestroy ∉ others /\ existsb (spoils cfg_lim 1) others = false /\
  (forall o' key', o' ∈ others -> raises o' = Some key' -> k_eq cfg_lim key' 1 = true \/ exists x, x ∈ [3; 4] /\ k_eq cfg_lim key' x = true) /\
  (exists s, after cfg_lim history_use s /\ found s = [Some 10; Some 20; None; None; None]) /\
  (exists s, after cfg_lim (history_use ++ use_1 :: others) s /\ found s = [Some 10; None; Some 32; Some 41; None]) /\
  exists s, after cfg_lim (history_use ++ use_1 :: third) s /\ found s = [None; None; Some 30; Some 40; Some 50].
Proof.
  split; [by intros ?|]. split; [apply mod_keys_ok|]. split; [by vm_compute|]. split; [by vm_compute|]. split; [|split; [by vm_compute|split; [|split; [|split]]]].
  - by rewrite elem_of_list_In; vm_compute; intuition congruence.
  - intros o' key' Ho Hr. right. unfold others in Ho. rewrite !elem_of_cons in Ho.
    destruct Ho as [->|[->|[->|[->|[->|[->|[->|[->|[->|Ho]]]]]]]]]; simpl in Hr; simplify_eq; try (by apply elem_of_nil in Ho); solve [exists 3; by split; [left|]|exists 4; by split; [right; left|]].
  - apply (obs_after _ _ found). by vm_compute.
  - apply (obs_after _ _ found). by vm_compute.
  - apply (obs_after _ _ found). by vm_compute.
Qed.
