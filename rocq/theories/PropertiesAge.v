(** Property theorems about the age of values.
    Model: Cache.v over CachePtr.v. Observers: Observe.v. Classes of histories: Histories.v. *)
From Verif Require Import Base Mapped Cache CachePtr Observe Histories PropertiesRefuted PropertiesCache Examples Calls Origins.
Local Open Scope Z_scope.

(** ** C17 *)
(** A value that a lookup hands out was given to the key by some operation [o] of the history (between
    the states [s1] and [s2]); and with max_age [d], less than [d] ago: on the clock of the policy (for
    clocks that are not steady, if [o] itself does not set that clock back, for then it has no definite
    time) and, if that clock is not steady, on the steady clock, wherever the clock went in between. *)
Theorem C17_fresh : forall k l s key v, fine_cfg k -> fine l -> after k l s ->
  peek k s key = Some v \/ tame k /\ eq_ok k /\ m_up (me s) = true /\ hits k s key v ->
  exists l1 o l2 s1 s2, l = l1 ++ o :: l2 /\ after k l1 s1 /\ after k (l1 ++ [o]) s2 /\
    supplies k (key_of s1) (m_ncb (me s1)) false key v o = true /\
    forall d, k_max_age k = Some d ->
      (k_steady k = true \/ sets_back o = false -> m_wall (me s) < m_wall (me s2) + d) /\
      (k_steady k = false -> m_steady (me s) < m_steady (me s2) + d).
Proof. exact found_fresh. Qed.
Print Assumptions C17_fresh.
Definition cfg_aged := mod_keys (set_age cfg_async (Some 50) None false false).
Definition history_aged : list op :=
  [OAGet 1 7 [] true false []; OAGet 2 8 [] true false []; OAdvance 20 20; OAssign 0 70 [[OAdvance 5 5]]; OAdvance 30 30; OAdvance (-20) 10; OAssign 1 80 []; OAdvance 8 8].
Example C17_example : fine history_aged /\ (exists s, after cfg_aged history_aged s /\ map (peek cfg_aged s) [107; 8; 9] = [Some 70; Some 80; None]) /\
  exists s, after cfg_aged (history_aged ++ [OAdvance 0 2]) s /\ map (peek cfg_aged s) [107; 8; 9] = [None; Some 80; None].
Proof.
  split; [by vm_compute|]. split; apply (obs_after _ _ (fun s => map (peek cfg_aged s) [107; 8; 9])); by vm_compute.
Qed.

(** ** C18 *)
(** Without the refresh policy, which replaces values and lets them idle out (see C28 and C39): let [key]
    have the value [v] after an operation [o]. As long as no operation removes or replaces the key and the
    size limit does not evict it, lookups of it return [v], whatever else happens; with max_age [d], if the value was
    assigned by [o] (before it there was no value, or [o] replaces it), as long as less than [d] has
    passed since [o] began: on the clock of the policy and, if that is not steady, on the steady clock.
    About setting back a clock that is not steady: [o] does not, and later operations do it between
    other operations, or not at all if a resolver puts the very key that it is asked for into the cache. *)
Theorem C18_kept_partial : forall k l1 o l2 s1 s2 s3 key v, fine_cfg k -> eq_ok k -> tame k -> k_refresh k = None ->
  fine (l1 ++ o :: l2) -> after k l1 s1 -> after k (l1 ++ [o]) s2 -> after k (l1 ++ o :: l2) s3 ->
  peek k s2 key = Some v -> ODestroy ∉ l2 -> existsb (spoils k key) l2 = false -> spared k s2 s3 key ->
  k_steady k = true \/ existsb sets_back l2 = false \/
    forallb (plain_op k) (l1 ++ [o]) = true /\ (forall o', o' ∈ l2 -> sets_back o' = false \/ exists dw ds, o' = OAdvance dw ds) ->
  (forall d, k_max_age k = Some d ->
    (k_steady k = true \/ sets_back o = false) /\
    (peek k s1 key = None \/ exists key' v', o = OEmplace key' v' /\ k_eq k key' key = true /\ (k_pointer k = true -> v' ∉ m_dropped (me s1))) /\
    forall l' l'' s, l2 = l' ++ l'' -> after k (l1 ++ o :: l') s ->
      m_wall (me s) < m_wall (me s1) + d /\ (k_steady k = false -> m_steady (me s) < m_steady (me s1) + d)) ->
  peek k s3 key = Some v.
Proof. exact kept_all. Qed.
Print Assumptions C18_kept_partial.
Definition later_aged : list op := [OEmplace 12 1; OAdvance 30 30; OErase 9; OGet 107 [] (ROk 3); OAdvance (-20) 10; OAssign 1 80 []; OEmplaceThrow 2; OAdvance 4 4].
Definition before_aged : list op := take 3 history_aged.
Definition assign_aged : op := OAssign 0 70 [[OAdvance 5 5]].
Example C18_example :
  eq_ok cfg_aged /\ fine (before_aged ++ assign_aged :: later_aged) /\ existsb (spoils cfg_aged 7) later_aged = false /\ forallb (plain_op cfg_aged) (before_aged ++ [assign_aged]) = true /\
  (exists s, after cfg_aged before_aged s /\ (peek cfg_aged s 7, m_wall (me s), m_steady (me s)) = (None, 20, 20)) /\
  (exists s, after cfg_aged (before_aged ++ [assign_aged]) s /\ peek cfg_aged s 7 = Some 70) /\
  (exists s, after cfg_aged (before_aged ++ assign_aged :: take 2 later_aged) s /\ (m_wall (me s), m_steady (me s)) = (55, 55)) /\
  exists s, after cfg_aged (before_aged ++ assign_aged :: later_aged) s /\ (peek cfg_aged s 7, m_wall (me s), m_steady (me s)) = (Some 70, 39, 69).
Proof.
  split; [apply mod_keys_ok|]. do 3 (split; [by vm_compute|]). split; [|split; [|split]].
  - apply (obs_after _ _ (fun s => (peek cfg_aged s 7, m_wall (me s), m_steady (me s)))); by vm_compute.
  - apply (obs_after _ _ (fun s => peek cfg_aged s 7)); by vm_compute.
  - apply (obs_after _ _ (fun s => (m_wall (me s), m_steady (me s)))); by vm_compute.
  - apply (obs_after _ _ (fun s => (peek cfg_aged s 7, m_wall (me s), m_steady (me s)))); by vm_compute.
Qed.
