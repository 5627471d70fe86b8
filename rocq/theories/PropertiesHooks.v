(** Property theorems about the events that the table sends to its policies, and about building and
    destroying it. Model: Hooks.v (with Cache.v and CachePtr.v). *)
From Verif Require Import Base Mapped Cache CachePtr Observe Histories PropertiesRefuted PropertiesCache Examples Hooks HooksProofs.
Local Open Scope Z_scope.

(** ** C54 *)
(** The policies of a cache, in any order, between other policies: an event has the effect that it has in
    Cache.v, in every state. *)
Theorem C54_any_order : forall k v n ps (s s' : cache) e, Permutation (pols k ++ replicate n PolOther) ps ->
  base_invoke k v ps s e = Ok s' <->
  match v with PvCreate => on_create_ k s e | PvHit => on_hit_ k s e | PvUnlink => on_unlink_ k s e | PvAssign b => on_assign_ k s e b end = Ok s'.
Proof. exact cache_order. Qed.
Print Assumptions C54_any_order.
(** A value of a cache with a limit, ages and refreshes; a hit moves its idle deadline and makes it hot, whatever the order. *)
Example C54_example : let k := set_refresh (set_age (set_max_size (set_resolver cfg_plain RSync) 8) (Some 50) (Some 5) false false) 10 20 in let ps := [PolRefresh 10 20; PolOther; PolAge false 5; PolQueue; PolAge true 50] in
  let deadlines f := fun s : cache => (option_map el_cn (m_els (me s) !! 0%N), match f s with Ok s' => option_map el_cn (m_els (me s') !! 0%N) | _ => None end) in
  Permutation (pols k ++ replicate 1 PolOther) ps /\
  exists s, after k [OEmplace 7 1; OEmplace 8 2; OEmplace 9 3; OAdvance 4 4] s /\
    (deadlines (fun s => base_invoke k PvHit ps s 0) s, deadlines (fun s => on_hit_ k s 0) s) = ((Some (Some 20), Some (Some 24)), (Some (Some 20), Some (Some 24))).
Proof.
  intros k ps deadlines. split.
  - unfold ps. simpl. solve_Permutation.
  - apply (obs_after _ _ (fun s => (deadlines (fun s => base_invoke k PvHit ps s 0) s, deadlines (fun s => on_hit_ k s 0) s))). by vm_compute.
Qed.

(** ** C55 *)
(** The thread of [refresh_policy] cannot be started: the constructor does not throw, the program ends. *)
Theorem C55_terminates_refuted : exists ps, construct ps = Term.
Proof. by exists [NoInit; Throws]. Qed.
Print Assumptions C55_terminates_refuted.
(** If every start succeeds, the table is built, with all policies started that can be; its destructor stops
    all of them. Missing: constructors in which a start fails. *)
Theorem C55_started_partial : forall ps, ~ In Throws ps -> exists r, construct ps = Ok (Built r) /\
  (forall j, j ∈ r <-> ps !! j = Some Starts) /\ destruct_table ps (Built r) = [].
Proof. exact built_ok. Qed.
Print Assumptions C55_started_partial.
Example C55_example : ~ In Throws [NoInit; Starts; NoInit; Starts] /\ construct [NoInit; Starts; NoInit; Starts] = Ok (Built [1; 3]%nat).
Proof. split; [simpl; intuition congruence|done]. Qed.
