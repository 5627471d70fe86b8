(** C31: pointer caches whose old entries become weak pointers. The objects are numbers; [m_dropped] are
    those to which the user has no pointer left. *)
From Verif Require Import Base Mapped Cache CachePtr Histories Observe PropertiesRefuted WeakPtr.
From stdpp Require Import list gmap.
From Verif Require Import Examples.
Local Open Scope Z_scope.

(** A lookup never returns an object that has died: the user still has a pointer to it, or an element of
    the cache holds a strong one. Likewise for [get] without a resolver (below). So once the last
    pointer to the object is gone, lookups miss. *)
Theorem C31_never_dead : forall k, fine_cfg k -> forall l s key v, fine l -> after k l s -> peek k s key = Some v ->
  v ∉ m_dropped (me s) \/ exists e el, m_els (me s) !! e = Some el /\ el_map el = MVal v.
Proof. exact peek_live. Qed.
Print Assumptions C31_never_dead.

Theorem C31_get_never_dead_partial : forall k, fine_cfg k -> forall l s key script out v, fine l -> after k l s -> k_resolver k = RNone ->
  fine_op false (OGet key script out) = true -> answer k s (OGet key script out) = Some (RetVal v) ->
  v ∉ m_dropped (me s) \/ exists e el, m_els (me s) !! e = Some el /\ el_map el = MVal v.
Proof. exact get_live. Qed.
Print Assumptions C31_get_never_dead_partial.

(** With pointers and the weaken policy the object that was put in under a key is what lookups of the
    key return, however many other entries are added (so that the size limit, if any, weakens this
    one), until the key is erased or replaced - as long as the user keeps a pointer to the object and,
    with max_age [d], less than [d] has passed: on the clock of the policy and, if that is not steady, on
    the steady clock. Missing for the full claim: refresh_age, and histories in which a resolver or a
    waiting callback drops some pointer or lets time pass while the cache is working. *)
Theorem C31_kept_partial : forall k, fine_cfg k -> k_refresh k = None -> k_pointer k = true -> k_weaken k = true ->
  forall l1 key v l2 s1 s3 key', eq_ok k -> fine (l1 ++ OEmplace key v :: l2) -> after k l1 s1 -> after k (l1 ++ OEmplace key v :: l2) s3 ->
  m_up (me s1) = true -> v ∉ m_dropped (me s1) -> k_eq k key key' = true ->
  ODestroy ∉ l2 -> existsb (spoils k key') l2 = false -> forallb (clings v) l2 = true ->
  k_steady k = true \/ existsb sets_back l2 = false ->
  (forall d, k_max_age k = Some d -> m_wall (me s3) < m_wall (me s1) + d /\ (k_steady k = false -> m_steady (me s3) < m_steady (me s1) + d)) ->
  peek k s3 key' = Some v.
Proof. exact kept_pointer. Qed.
Print Assumptions C31_kept_partial.

(** However an object came into the cache (a resolver or get_or_emplace may have put it there): what a
    lookup finds now and would find at a later time [s2], if only time passed, is found until then. *)
Theorem C31_found_partial : forall k, fine_cfg k -> k_refresh k = None -> k_pointer k = true -> k_weaken k = true ->
  forall l1 dw ds l2 s1 s2 s3 key v, eq_ok k -> fine (l1 ++ l2) -> forallb (plain_op k) l1 = true ->
  after k l1 s1 -> after k (l1 ++ [OAdvance dw ds]) s2 -> after k (l1 ++ l2) s3 ->
  peek k s1 key = Some v -> peek k s2 key = Some v -> v ∉ m_dropped (me s1) ->
  ODestroy ∉ l2 -> existsb (spoils k key) l2 = false -> forallb (clings v) l2 = true -> k_steady k = true \/ existsb sets_back l2 = false ->
  m_wall (me s3) <= m_wall (me s2) -> m_steady (me s3) <= m_steady (me s2) -> peek k s3 key = Some v.
Proof. exact found_pointer. Qed.
Print Assumptions C31_found_partial.

(** Two entries at most, four insertions: the first two objects are weak in the end. The user drops the
    second one, and then only the first one is found. *)
Definition weak_first : list op := [OEmplace 5 50].
Definition weak_later : list op := [OEmplace 6 60; OEmplace 8 80; OEmplace 9 90; OEmplace 10 100; ORelease 80; OAdvance 3 3; OGet 9 [] (ROk 0)].
Definition weak_maps (s : cache) := map (fun e => el_map <$> m_els (me s) !! e) (table_entries s).
Definition cfg_ptr : cfg := mod_keys (set_pointer (set_max_size cfg_plain 2) true).
Definition sees_weak (s : cache) := (weak_maps s, map (peek cfg_ptr s) [5; 7; 6; 8; 9; 10]).
Example C31_kept_example : fine_cfg cfg_ptr /\ eq_ok cfg_ptr /\ fine (weak_first ++ OEmplace 7 70 :: weak_later) /\ k_eq cfg_ptr 7 107 = true /\
  ODestroy ∉ weak_later /\ existsb (spoils cfg_ptr 107) weak_later = false /\ forallb (clings 70) weak_later = true /\ existsb sets_back weak_later = false /\
  (exists s, after cfg_ptr weak_first s /\ (m_up (me s), bool_decide (70 ∈ m_dropped (me s))) = (true, false)) /\
  (exists s, after cfg_ptr (weak_first ++ OEmplace 7 70 :: weak_later) s /\ sees_weak s =
    ([Some (MVal 50); Some (MWeak (Some 100)); Some (MVal 60); Some (MWeak (Some 70)); Some (MWeak (Some 80)); Some (MVal 90)],
     [Some 50; Some 70; Some 60; None; Some 90; Some 100])).
Proof.
  split; [intros []; done|]. split; [apply mod_keys_ok|]. split; [by vm_compute|]. split; [done|].
  split; [intros H; repeat (apply elem_of_cons in H as [?|H]; [done|]); by apply elem_of_nil in H|]. split; [by vm_compute|]. split; [by vm_compute|]. split; [by vm_compute|].
  split; [apply (obs_after _ _ (fun s => (m_up (me s), bool_decide (70 ∈ m_dropped (me s))))); by vm_compute|apply (obs_after _ _ sees_weak); by vm_compute].
Qed.
(** The object of key 7 comes from the resolver, the one of key 5 from get_or_emplace. The latter is weak
    in the end; both are found until their age. The user drops another one. *)
Definition cfg_aptr : cfg := mod_keys (set_age (set_pointer (set_max_size cfg_sync 2) true) (Some 50) None false false).
Definition aged_first : list op := [OEmplace 4 40; OGetOrEmplace 5 50; OAdvance 10 10; OGet 7 [] (ROk 70)].
Definition aged_later : list op := [OEmplace 9 90; OGet 8 [] (ROk 80); OGetOrEmplace 10 100; OEmplace 11 110; ORelease 90; OAdvance 25 20; OEmplace 12 120].
Definition sees_aged (s : cache) := (map (peek cfg_aptr s) [4; 5; 7; 8; 9; 10; 11; 12], m_wall (me s), m_steady (me s), elements (m_dropped (me s))).
Example C31_found_example : fine_cfg cfg_aptr /\ eq_ok cfg_aptr /\ fine (aged_first ++ aged_later) /\ forallb (plain_op cfg_aptr) aged_first = true /\
  ODestroy ∉ aged_later /\ existsb (fun o => spoils cfg_aptr 7 o || spoils cfg_aptr 5 o || sets_back o) aged_later = false /\ forallb (fun o => clings 70 o && clings 50 o) aged_later = true /\
  (exists s, after cfg_aptr aged_first s /\ sees_aged s = ([Some 40; Some 50; Some 70; None; None; None; None; None], 10, 10, [])) /\
  (exists s, after cfg_aptr (aged_first ++ [OAdvance 25 20]) s /\ sees_aged s = ([Some 40; Some 50; Some 70; None; None; None; None; None], 35, 30, [])) /\
  (exists s, after cfg_aptr (aged_first ++ aged_later) s /\ (weak_maps s, sees_aged s) =
    ([Some (MWeak (Some 50)); Some (MWeak (Some 100)); Some (MVal 110); Some (MVal 70); Some (MWeak (Some 120)); Some (MVal 80); Some (MVal 40); Some (MWeak (Some 90))],
     ([Some 40; Some 50; Some 70; Some 80; None; Some 100; Some 110; Some 120], 35, 30, [90]))) /\
  exists s, after cfg_aptr (aged_first ++ aged_later ++ [OAdvance 15 20]) s /\ sees_aged s = ([None; None; Some 70; Some 80; None; Some 100; Some 110; Some 120], 50, 50, [90]).
Proof.
  split; [intros []; done|]. split; [apply mod_keys_ok|]. split; [by vm_compute|]. split; [by vm_compute|].
  split; [intros H; repeat (apply elem_of_cons in H as [?|H]; [done|]); by apply elem_of_nil in H|]. split; [by vm_compute|]. split; [by vm_compute|].
  split; [apply (obs_after _ _ sees_aged); by vm_compute|]. split; [apply (obs_after _ _ sees_aged); by vm_compute|].
  split; [apply (obs_after _ _ (fun s => (weak_maps s, sees_aged s))); by vm_compute|apply (obs_after _ _ sees_aged); by vm_compute].
Qed.
(** An object that only the cache holds is found too. *)
Definition weak_only : list op := weak_first ++ OEmplace 7 70 :: weak_later ++ [ORelease 60].
Definition sees_only (s : cache) := (bool_decide (60 ∈ m_dropped (me s)), peek cfg_ptr s 6, answer cfg_ptr s (OGet 6 [] (ROk 0)), answer cfg_ptr s (OGet 8 [] (ROk 0))).
Example C31_never_dead_example : fine weak_only /\ k_resolver cfg_ptr = RNone /\ fine_op false (OGet 6 [] (ROk 0)) = true /\
  exists s, after cfg_ptr weak_only s /\ sees_only s = (true, Some 60, Some (RetVal 60), Some RetNone).
Proof. split; [by vm_compute|]. split; [done|]. split; [done|]. apply (obs_after _ _ sees_only). by vm_compute. Qed.
