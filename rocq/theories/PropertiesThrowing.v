(** Property theorems about calls during which the user's equality throws. Model: Throwing.v. Each call of a
    history comes with the pairs of keys for which the comparison throws during that call. *)
From Verif Require Import Base Mapped Cache Throwing CachePtr Observe Histories PropertiesRefuted Examples ThrowingProofs.
Local Open Scope Z_scope.

(** ** C58 *)
(** Full statement: an exception of the equality reaches the caller and leaves a cache that works and has lost
    nothing but, in [emplace], the entries for the given key. What is missing: [erase] ends the program. *)
Definition bad_7 (a b : Z) : bool := a =? 7.
Theorem C58_erase_refuted : exists k bad l key (s : cache), fine_cfg k /\ eq_ok k /\ fine l /\ after k l s /\ peek k s key = Some 70 /\ call k bad (OErase key) s = Term.
Proof.
  exists (mod_keys cfg_plain), bad_7, [OEmplace 7 70], 7.
  destruct (obs_after (mod_keys cfg_plain) [OEmplace 7 70] (fun s => (peek (mod_keys cfg_plain) s 7, match call (mod_keys cfg_plain) bad_7 (OErase 7) s with Term => true | _ => false end)) (Some 70, true)) as (s & Ha & E); [vm_compute; reflexivity|].
  exists s. split; [by vm_compute|]. split; [apply mod_keys_ok|]. split; [vm_compute; reflexivity|]. split; [exact Ha|]. injection E as E1 E2. split; [exact E1|].
  destruct (call (mod_keys cfg_plain) bad_7 (OErase 7) s); congruence.
Qed.
Print Assumptions C58_erase_refuted.
(** No history of calls that throw or do not throw leads to undefined behaviour, and only [erase] ends the
    program. *)
Theorem C58_safe_partial : forall k l, fine_cfg k -> forallb fine_call l = true ->
  (exists s : cache, run_calls k l st_init = Ok s) \/ run_calls k l (st_init : cache) = Term /\ exists bad key, (bad, OErase key) ∈ l.
Proof. intros k l Hk. exact (calls_safe k Hk l). Qed.
Print Assumptions C58_safe_partial.
(** A lookup ([get], [async_get], [get_or_emplace]) that ends with the exception called no callback and no
    resolver, dropped no waiting request, and did not change what lookups find. *)
Theorem C58_lookup : forall k l bad o (s s' : cache), fine_cfg k -> forallb fine_call l = true -> run_calls k l st_init = Ok s ->
  fine_op false o = true -> is_lookup o = true -> call k bad o s = Ok (s', None) ->
  m_log (me s') = m_log (me s) /\ m_cbs (me s') = m_cbs (me s) /\ (forall w, waiting w s' = waiting w s) /\ (tame k -> forall key, peek k s' key = peek k s key).
Proof. intros k l bad o s s' Hk. exact (lookup_threw k Hk l bad o s s'). Qed.
Print Assumptions C58_lookup.
(** [emplace] that ends with the exception: other keys keep their values, every waiting request still waits or
    was answered. *)
Theorem C58_emplace : forall k l bad key v (s s' : cache), fine_cfg k -> forallb fine_call l = true -> run_calls k l st_init = Ok s ->
  call k bad (OEmplace key v) s = Ok (s', None) ->
  (forall w, (waiting w s' + length (deliveries w s') = waiting w s + length (deliveries w s))%nat) /\
  (tame k -> eq_ok k -> forall key', k_eq k key key' = false -> peek k s' key' = peek k s key').
Proof. intros k l bad key v s s' Hk. exact (emplace_threw k Hk l bad key v s s'). Qed.
Print Assumptions C58_emplace.
(** The exception is not swallowed: if the key is there and all comparisons with it throw, the call ends with the
    exception. *)
Theorem C58_reported : forall k l bad o key v (s : cache), fine_cfg k -> eq_ok k -> forallb fine_call l = true -> run_calls k l st_init = Ok s ->
  peek k s key = Some v -> asked_key k o = Some key -> (forall a, bad a key = true) ->
  match o with OErase _ => call k bad o s = Term | _ => exists s', call k bad o s = Ok (s', None) end.
Proof. intros k l bad o key v s Hk. exact (call_reports k Hk l bad o key v s). Qed.
Print Assumptions C58_reported.
(** A comparison that does not throw changes nothing: the calls are those of Cache.v. *)
Theorem C58_quiet : forall k l bad o (s : cache), fine_cfg k -> forallb fine_call l = true -> run_calls k l st_init = Ok s ->
  fine_op false o = true -> (forall a b, bad a b = false) -> call k bad o s = ('(s, r) <- step k false o s;; Ok (s, Some r)).
Proof. intros k l bad o s Hk. exact (call_quiet k Hk l bad o s). Qed.
Print Assumptions C58_quiet.
(** The keys 2, 17, 7, 12 and 22 have the same hash and their entries are in this order in one bucket. The
    comparison with 7 throws: [get(2)] and [get(17)] end before it, [get(12)] throws, [emplace(12)] throws
    before it reaches the entry for 12, [emplace(17)] throws after the entry for 17 is gone. *)
Definition quiet (a b : Z) : bool := false.
Definition chained : list ((Z -> Z -> bool) * op) := [(quiet, OEmplace 2 20); (quiet, OEmplace 17 5); (quiet, OEmplace 7 70); (quiet, OEmplace 12 12)].
Definition thrown : list ((Z -> Z -> bool) * op) := chained ++ [(bad_7, OGet 12 [] (ROk 0)); (bad_7, OEmplace 12 1); (bad_7, OEmplace 17 1); (bad_7, OGetOrEmplace 22 1)].
Definition seen (l : list ((Z -> Z -> bool) * op)) (o : op) :=
  match run_calls (mod_keys cfg_plain) l st_init with
  | Ok s => match call (mod_keys cfg_plain) bad_7 o s with Ok (s', r) => Some (r, map (peek (mod_keys cfg_plain) s') [2; 17; 7; 12; 22]) | _ => None end
  | _ => None
  end.
Example C58_example : (fine_cfg (mod_keys cfg_plain) /\ tame (mod_keys cfg_plain) /\ eq_ok (mod_keys cfg_plain) /\ forallb fine_call thrown = true) /\
  seen chained (OGet 2 [] (ROk 0)) = Some (Some (RetVal 20), [Some 20; Some 5; Some 70; Some 12; None]) /\
  seen chained (OGet 12 [] (ROk 0)) = Some (None, [Some 20; Some 5; Some 70; Some 12; None]) /\
  seen chained (OGetOrEmplace 22 1) = Some (None, [Some 20; Some 5; Some 70; Some 12; None]) /\
  seen chained (OEmplace 12 1) = Some (None, [Some 20; Some 5; Some 70; Some 12; None]) /\
  seen chained (OEmplace 17 1) = Some (None, [Some 20; None; Some 70; Some 12; None]) /\
  seen thrown (OEmplace 2 3) = Some (None, [None; None; Some 70; Some 12; None]).
Proof.
  split; [split; [by vm_compute|]; split; [by left|]; split; [apply mod_keys_ok|by vm_compute]|].
  do 5 (split; [by vm_compute|]). by vm_compute.
Qed.
