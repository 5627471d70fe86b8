(** Property theorems about the entries of the cache: C15, C16, C19, C20. Model: Cache.v over
    CachePtr.v. Observers: Observe.v. Classes of histories: Histories.v. *)
From Verif Require Import Base Mapped Cache CachePtr Observe Histories PropertiesRefuted PropertiesCache Examples PropertiesRefresh Entries Bound Inserted.
Local Open Scope Z_scope.

(** ** C20 *)
(** Two entries for equal keys that both may still produce a value (have one, whether or not its
    deadline has passed, or a weak pointer to one, or are being looked up) are the same, or one of them
    is being looked up to replace the other by a refresh. Not covered: sync resolvers that create the
    entry they are called for ([plain_op]; see C20_two_entries_refuted). *)
Theorem C20_unique_partial : forall k, fine_cfg k -> eq_ok k -> forall l s x y key key',
  fine l -> forallb (plain_op k) l = true -> after k l s -> m_up (me s) = true ->
  live_entry s x key -> live_entry s y key' -> k_eq k key key' = true ->
  x = y \/ k_refresh k <> None /\ (replaces s x y \/ replaces s y x).
Proof. exact two_live. Qed.
Print Assumptions C20_unique_partial.
(** There are at most two. *)
Theorem C20_at_most_two_partial : forall k, fine_cfg k -> eq_ok k -> forall l s x y z kx ky kz,
  fine l -> forallb (plain_op k) l = true -> after k l s -> m_up (me s) = true ->
  live_entry s x kx -> live_entry s y ky -> live_entry s z kz -> k_eq k kx ky = true -> k_eq k ky kz = true ->
  x = y \/ y = z \/ x = z.
Proof. exact three_live. Qed.
Print Assumptions C20_at_most_two_partial.
(** The answer of a lookup does not depend on the order of the entries: every entry that has a value
    and is in time gives its value. (Not covered: weak pointers with max_size.) *)
Theorem C20_any_entry_partial : forall k, fine_cfg k -> tame k -> eq_ok k -> forall l s e el key v,
  fine l -> forallb (plain_op k) l = true -> after k l s -> m_up (me s) = true ->
  e ∈ table_entries s -> m_els (me s) !! e = Some el -> el_map el = MVal v -> in_time s el -> k_eq k (el_key el) key = true ->
  peek k s key = Some v.
Proof. exact any_live. Qed.
Print Assumptions C20_any_entry_partial.
Definition entries_seen (s : cache) : list (N * option (Z * mapped)) :=
  map (fun e => (e, (fun el => (el_key el, el_map el)) <$> m_els (me s) !! e)) (table_entries s).
(** a value and its replacement, whose lookup has a waiter; a colliding neighbour *)
Example C20_example : forallb (plain_op cfg_idle) (before_refresh ++ until_refresh ++ in_refresh) = true /\
  fine (before_refresh ++ until_refresh ++ in_refresh) /\
  exists s, after cfg_idle (before_refresh ++ until_refresh ++ in_refresh) s /\ (entries_seen s, m_up (me s)) =
    ([(0%N, Some (7, MVal 70)); (1%N, Some (7, MPend (Pend [PRefresh 1 0] false false))); (2%N, Some (8, MVal 1))], true).
Proof.
  split; [by vm_compute|]. split; [by vm_compute|]. apply (obs_after _ _ (fun s => (entries_seen s, m_up (me s)))). vm_compute. done.
Qed.
Example C20_sync_example : let k := mod_keys (set_age cfg_sync (Some 50) None false true) in
  let l := [OGet 1 [OGet 2 [] (ROk 20); OErase 2] (ROk 10); OGet 6 [] (RThrow 3); OEmplace 101 11; OAdvance 60 60; OGet 2 [] (ROk 21); OGet 1 [OEmplace 6 1] (ROk 12)] in
  forallb (plain_op k) l = true /\ fine l /\ exists s, after k l s /\ (entries_seen s, map (peek k s) [1; 2; 6]) =
    ([(6%N, Some (6, MVal 1)); (5%N, Some (1, MVal 12)); (4%N, Some (2, MVal 21))], [Some 12; Some 21; Some 1]).
Proof.
  intros k l. split; [by vm_compute|]. split; [by vm_compute|]. apply (obs_after _ _ (fun s => (entries_seen s, map (peek k s) [1; 2; 6]))). vm_compute. done.
Qed.
(** weak pointers: five keys, some replaced, one after its object died *)
Example C20_weak_example : let k := mod_keys (set_pointer (set_max_size cfg_plain 2) true) in
  let l := [OEmplace 7 70; OEmplace 8 80; OEmplace 9 90; OEmplace 10 100; OEmplace 11 110; OEmplace 9 91; ORelease 100; OGetOrEmplace 10 101] in
  forallb (plain_op k) l = true /\ fine l /\ exists s, after k l s /\ (entries_seen s, m_up (me s)) =
    ([(6%N, Some (10, MWeak (Some 101))); (4%N, Some (11, MWeak (Some 110))); (0%N, Some (7, MVal 70)); (1%N, Some (8, MWeak (Some 80))); (5%N, Some (9, MWeak (Some 91)))], true).
Proof.
  intros k l. split; [by vm_compute|]. split; [by vm_compute|]. apply (obs_after _ _ (fun s => (entries_seen s, m_up (me s)))). vm_compute. done.
Qed.

(** ** C15 *)
(** Exactly when get_or_emplace gives the value of its argument, the value that is there, or throws:
    it throws while a lookup for the key is underway and there is no value (C15_get_or_emplace_refuted),
    and otherwise does what it says. The keys that the size limit does not evict have the values
    they should have afterwards. Not covered: weak pointers with max_size (see C40, C45). *)
Theorem C15_answers_partial : forall k, fine_cfg k -> tame k -> eq_ok k -> forall l key v s s',
  ages_ok k -> fine l -> after k l s -> after k (l ++ [OGetOrEmplace key v]) s' -> m_up (me s) = true ->
  (k_pointer k = true -> v ∉ m_dropped (me s)) ->
  match peek k s key with
  | Some u => answer k s (OGetOrEmplace key v) = Some (RetVal u) /\ forall key', spared k s s' key' -> peek k s' key' = peek k s key'
  | None =>
      (exists i, underway k s i key) /\ answer k s (OGetOrEmplace key v) = Some RetThrew /\ (forall key', spared k s s' key' -> peek k s' key' = peek k s key') \/
      (forall i, ~ underway k s i key) /\ answer k s (OGetOrEmplace key v) = Some (RetVal v) /\
      forall key', spared k s s' key' -> peek k s' key' = if k_eq k key key' then Some v else peek k s key'
  end.
Proof. exact goe_answers. Qed.
Print Assumptions C15_answers_partial.
(** ** C16 *)
(** Without a resolver the cache never has more values than the limit. With one it may:
    C16_max_size_refuted. *)
Theorem C16_bound_partial : forall k, fine_cfg k -> forall n, k_max_size k = Some n -> tame k -> k_resolver k = RNone -> forall l s c,
  fine l -> after k l s -> live_count k s = Some c -> (c <= n)%nat.
Proof. exact bounded. Qed.
Print Assumptions C16_bound_partial.
(** ** C19 *)
(** Whatever negative caching policy is listed, a lookup right after one whose resolver threw calls
    the resolver again. *)
Theorem C19_forgotten_refuted : forall k, fine_cfg k -> tame k -> eq_ok k -> forall l key x script out s s1 s2,
  ages_ok k -> k_resolver k = RSync -> fine ((l ++ [OGet key [] (RThrow x)]) ++ [OGet key script out]) ->
  after k l s -> after k (l ++ [OGet key [] (RThrow x)]) s1 -> after k ((l ++ [OGet key [] (RThrow x)]) ++ [OGet key script out]) s2 ->
  m_up (me s) = true -> peek k s key = None ->
  peek k s1 key = None /\ exists l', m_log (me s2) = l' ++ EvResolve key :: m_log (me s1).
Proof. exact forgotten. Qed.
Print Assumptions C19_forgotten_refuted.
Definition cfg_three := set_max_size cfg_plain 3.
Definition history_three := [OReserve 50; OEmplace 1 10; OEmplace 2 20; OEmplace 3 30; OEmplace 4 40; OGetIf 1; OGetOrEmplace 2 21; OErase 3; OEmplace 5 50; OGetOrEmplace 6 60; OEmplace 7 70].
Example C16_bound_example : tame cfg_three /\ fine history_three /\ exists s, after cfg_three history_three s /\ live_count cfg_three s = Some 3%nat.
Proof. split; [by left|]. split; [by vm_compute|]. apply (obs_after _ _ (live_count cfg_three)). by vm_compute. Qed.
Definition history_goe := [OEmplace 7 70; OAGet 1 8 [] true false []; OAGet 2 9 [] true false []; OFail 1 0 []].
(** a value, a key whose lookup is underway, keys without either (one after a failed lookup) *)
Example C15_answers_example : fine history_goe /\ exists s, after cfg_async history_goe s /\
  map (fun key => answer cfg_async s (OGetOrEmplace key 5)) [7; 8; 9; 10] = [Some (RetVal 70); Some RetThrew; Some (RetVal 5); Some (RetVal 5)].
Proof. split; [by vm_compute|]. apply (obs_after _ _ (fun s => map (fun key => answer cfg_async s (OGetOrEmplace key 5)) [7; 8; 9; 10])). by vm_compute. Qed.
Definition history_forgotten := ([OEmplace 2 20; OGet 3 [] (RThrow 1)] ++ [OGet 1 [] (RThrow 5)]) ++ [OGet 1 [] (RThrow 6)].
Example C19_forgotten_example : ages_ok cfg_neg /\ fine history_forgotten /\
  exists s, after cfg_neg history_forgotten s /\ m_log (me s) = [EvResolve 1; EvResolve 1; EvResolve 3].
Proof.
  split; [split; simpl; intros; [|done]|]. { by simplify_eq. } split; [by vm_compute|]. apply (obs_after _ _ (fun s => m_log (me s))). by vm_compute.
Qed.

(** ** C45: a value just inserted is gone at once *)
(** With max_size 1 the first key stays and every other is dropped as soon as it is inserted. Values
    that are already marked to go still count (policy_removal_check_ uses size(), not count()), so one
    insertion into a larger cache can drop every value of the cold half, the new one included. *)
Definition insert_many (n : nat) : list op := map (fun i => OEmplace (Z.of_nat i) 5) (seq 0 n).
Theorem C45_inserted_refuted :
  (exists s, after (set_max_size cfg_plain 1) (insert_many 2) s /\ map (peek (set_max_size cfg_plain 1) s) [0; 1] = [Some 5; None]) /\
  exists s, after (set_max_size cfg_plain 8) (insert_many 16) s /\ live_count (set_max_size cfg_plain 8) s = Some 8%nat /\ peek (set_max_size cfg_plain 8) s 15 = None.
Proof.
  split; [apply (obs_after _ _ (fun s => map (peek (set_max_size cfg_plain 1) s) [0; 1])); by vm_compute|].
  destruct (obs_after (set_max_size cfg_plain 8) (insert_many 16) (fun s => (live_count (set_max_size cfg_plain 8) s, peek (set_max_size cfg_plain 8) s 15)) (Some 8%nat, None)) as (s & Ha & [= H1 H2]);
    [by vm_compute|]. exists s. split; [exact Ha|split; [exact H1|exact H2]].
Qed.
Print Assumptions C45_inserted_refuted.
(** An inserted value is available if the table had, counting the dropped ones, at most 2n - 2
    entries. The cold half then holds something older to drop. *)
Theorem C45_inserted_partial : forall k, fine_cfg k -> forall n, k_max_size k = Some n -> tame k -> eq_ok k -> forall l key v s s' key',
  ages_ok k -> fine l -> after k l s -> after k (l ++ [OEmplace key v]) s' -> m_up (me s) = true -> (k_pointer k = true -> v ∉ m_dropped (me s)) ->
  (length (table_entries s) + 2 <= 2 * n)%nat -> k_eq k key key' = true -> peek k s' key' = Some v.
Proof. exact emplace_stays. Qed.
Print Assumptions C45_inserted_partial.
Definition cfg_eight := mod_keys (set_max_size cfg_plain 8).
Example C45_inserted_example : fine history_three /\ fine_cfg cfg_eight /\ eq_ok cfg_eight /\
  exists s, after cfg_eight (history_three ++ [OEmplace 9 90]) s /\ (length (table_entries s), peek cfg_eight s 9) = (7%nat, Some 90).
Proof.
  split; [by vm_compute|]. split; [by intros ?|]. split; [apply mod_keys_ok|].
  apply (obs_after _ _ (fun s => (length (table_entries s), peek cfg_eight s 9))). by vm_compute.
Qed.
(** With max_size 1, as long as a value is there no other can be inserted. *)
Theorem C45_one_refuted : forall k, fine_cfg k -> forall n, k_max_size k = Some n -> tame k -> eq_ok k -> forall l key v other s s',
  n = 1%nat -> fine l -> after k l s -> after k (l ++ [OEmplace key v]) s' -> m_up (me s) = true -> (k_pointer k = true -> v ∉ m_dropped (me s)) ->
  is_Some (peek k s other) -> k_eq k key other = false -> peek k s' key = None.
Proof. exact emplace_vanishes. Qed.
Print Assumptions C45_one_refuted.
Example C45_one_example : let k := set_max_size cfg_plain 1 in let l := [OEmplace 3 30; OEmplace 3 31; OGetIf 3] in
  fine l /\ (exists s, after k l s /\ peek k s 3 = Some 31) /\ exists s, after k (l ++ [OEmplace 4 40]) s /\ map (peek k s) [3; 4] = [Some 31; None].
Proof.
  intros k l. split; [by vm_compute|]. split; [apply (obs_after _ _ (fun s => peek k s 3)); by vm_compute|].
  apply (obs_after _ _ (fun s => map (peek k s) [3; 4])). by vm_compute.
Qed.
