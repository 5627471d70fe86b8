(** Concrete runs of the model on which a property fails. Each statement gives the configuration, the
    history and what is observed; the runs are computed. *)
From Verif Require Import Base Mapped Cache CachePtr Observe Histories.
Local Open Scope Z_scope.

(** A plain configuration: integer keys, identity hash, load factor 1. *)
Definition cfg_plain : cfg := {|
  k_hash := Z.to_N; k_eq := Z.eqb; k_pointer := false; k_resolver := RNone; k_max_size := None; k_weaken := false;
  k_max_age := None; k_err_age := None; k_neg := false; k_steady := true; k_refresh := None;
  k_over := fun n b => bool_decide (b < n)%nat; k_mbc := 1024%nat; k_req := fun n => n |}.
Definition set_resolver (k : cfg) r := Cfg (k_hash k) (k_eq k) (k_pointer k) r (k_max_size k) (k_weaken k) (k_max_age k) (k_err_age k) (k_neg k) (k_steady k) (k_refresh k) (k_over k) (k_mbc k) (k_req k).
Definition set_max_size (k : cfg) n := Cfg (k_hash k) (k_eq k) (k_pointer k) (k_resolver k) (Some n) (k_weaken k) (k_max_age k) (k_err_age k) (k_neg k) (k_steady k) (k_refresh k) (k_over k) (k_mbc k) (k_req k).
Definition set_pointer (k : cfg) w := Cfg (k_hash k) (k_eq k) true (k_resolver k) (k_max_size k) w (k_max_age k) (k_err_age k) (k_neg k) (k_steady k) (k_refresh k) (k_over k) (k_mbc k) (k_req k).
Definition set_age (k : cfg) a ea ng st := Cfg (k_hash k) (k_eq k) (k_pointer k) (k_resolver k) (k_max_size k) (k_weaken k) a ea ng st (k_refresh k) (k_over k) (k_mbc k) (k_req k).
Definition set_refresh (k : cfg) d i := Cfg (k_hash k) (k_eq k) (k_pointer k) (k_resolver k) (k_max_size k) (k_weaken k) (k_max_age k) (k_err_age k) (k_neg k) (k_steady k) (Some (d, i)) (k_over k) (k_mbc k) (k_req k).

(** Computing an observation after a history. *)
Definition obs {T} (k : cfg) (l : list op) (f : cache -> T) : option T :=
  match run k l st_init with Ok s => Some (f s) | _ => None end.
Lemma obs_after {T} k l (f : cache -> T) t : obs k l f = Some t -> exists s, after k l s /\ f s = t.
Proof. unfold obs, after. destruct (run k l st_init); [intros [= <-]; eauto|done..]. Qed.

(** ** C15: get_or_emplace throws for a key whose lookup is in flight *)
Definition cfg_async := set_resolver cfg_plain RAsync.
Theorem C15_get_or_emplace_refuted : exists s, after cfg_async [OAGet 1 7 [] true false []] s /\
  answer cfg_async s (OGetOrEmplace 7 5) = Some RetThrew.
Proof. apply (obs_after cfg_async _ (fun s => answer cfg_async s _)). vm_compute. done. Qed.
Print Assumptions C15_get_or_emplace_refuted.

(** ** C16: the size limit is not applied when a lookup inserts *)
Definition cfg_sync := set_resolver cfg_plain RSync.
Definition cfg_sync1 := set_max_size cfg_sync 1.
Theorem C16_max_size_refuted :
  exists s, after cfg_sync1 [OGet 1 [] (ROk 10); OGet 2 [] (ROk 20); OGet 3 [] (ROk 30)] s /\ live_count cfg_sync1 s = Some 3%nat.
Proof. apply (obs_after _ _ (live_count cfg_sync1)). vm_compute. done. Qed.
Print Assumptions C16_max_size_refuted.

(** ** C19: an error is not remembered although every negative caching policy is listed *)
Definition cfg_neg := set_age cfg_sync (Some 1000) (Some 1000) true true.
Theorem C19_negative_cache_refuted : exists s, after cfg_neg [OGet 1 [] (RThrow 5)] s /\
  (resolves cfg_neg 1 s = 1%nat /\ answer cfg_neg s (OGet 1 [] (RThrow 6)) = Some (RetErr 6)) /\
  exists s', after cfg_neg [OGet 1 [] (RThrow 5); OGet 1 [] (RThrow 6)] s' /\ resolves cfg_neg 1 s' = 2%nat.
Proof.
  destruct (obs_after cfg_neg [OGet 1 [] (RThrow 5)] (fun s => (resolves cfg_neg 1 s, answer cfg_neg s (OGet 1 [] (RThrow 6)))) (1%nat, Some (RetErr 6)))
    as (s & H & [= E1 E2]); [by vm_compute|].
  exists s. split; [exact H|]. split; [exact (conj E1 E2)|]. apply (obs_after _ _ (resolves cfg_neg 1)). by vm_compute.
Qed.
Print Assumptions C19_negative_cache_refuted.

(** ** C20, C21: a sync resolver that looks up its own key creates two live entries *)
Theorem C20_two_entries_refuted : exists s, after cfg_sync [OGet 1 [OGet 1 [] (ROk 10)] (ROk 20)] s /\ live_count cfg_sync s = Some 2%nat.
Proof. apply (obs_after _ _ (live_count cfg_sync)). by vm_compute. Qed.
Print Assumptions C20_two_entries_refuted.
(** the outer call returns 20, later calls 10 *)
Theorem C21_memoised_refuted : exists s, after cfg_sync [] s /\
  answer cfg_sync s (OGet 1 [OGet 1 [] (ROk 10)] (ROk 20)) = Some (RetVal 20) /\
  exists s', after cfg_sync [OGet 1 [OGet 1 [] (ROk 10)] (ROk 20)] s' /\ peek cfg_sync s' 1 = Some 10.
Proof.
  destruct (obs_after cfg_sync [] (fun s => answer cfg_sync s (OGet 1 [OGet 1 [] (ROk 10)] (ROk 20))) (Some (RetVal 20))) as (s & H & E); [by vm_compute|].
  exists s. split; [exact H|]. split; [exact E|]. apply (obs_after _ _ (fun s => peek cfg_sync s 1)). by vm_compute.
Qed.
Print Assumptions C21_memoised_refuted.

(** ** C26: a resolver that drops its callback before it returns: the request is stored in an entry
    that nothing can complete any more *)
Theorem C26_dropped_at_once_refuted : exists s, after cfg_async [OAGet 1 7 [] false false []] s /\
  (waiting 1 s, deliveries 1 s, map_to_list (m_cbs (me s))) = (1%nat, [], []).
Proof. apply (obs_after _ _ (fun s => (waiting 1 s, deliveries 1 s, map_to_list (m_cbs (me s))))). by vm_compute. Qed.
Print Assumptions C26_dropped_at_once_refuted.

(** ** C37: completion callbacks that use the cache *)
(** What one more operation does to the program. *)
Definition fate {T} (r : res T) : res unit := match r with Ok _ => Ok tt | UB => UB | Term => Term | Fuel => Fuel end.
(** an error callback that asks for the same key again changes the callback list being walked *)
Theorem C37_error_callback_refuted : exists s, after cfg_async [OAGet 1 7 [] true false []] s /\
  fate (step cfg_async false (OFail 0 5 [[OAGet 2 7 [] true false []]]) s) = UB.
Proof. apply (obs_after _ _ (fun s => fate (step cfg_async false _ s))). by vm_compute. Qed.
Print Assumptions C37_error_callback_refuted.
(** with a size limit, a callback that inserts destroys the value the other callbacks receive *)
Definition cfg_async2 := set_max_size cfg_async 2.
Theorem C37_value_callback_refuted :
  exists s, after cfg_async2 [OAGet 1 7 [] true false []; OAGet 2 8 [] true false []; OAGet 3 8 [] true false []; OAGet 4 7 [] true false []] s /\
  fate (step cfg_async2 false (OAssign 1 5 [[OEmplace 9 1]]) s) = UB.
Proof. apply (obs_after _ _ (fun s => fate (step cfg_async2 false _ s))). by vm_compute. Qed.
Print Assumptions C37_value_callback_refuted.
(** with a refresh policy, a callback that erases the key: the unlinked entry is put into the refresh
    queue, and is still there when it is destroyed *)
Definition cfg_arefresh := set_refresh cfg_async 10 0.
Theorem C37_erase_callback_refuted :
  exists s, after cfg_arefresh [OAGet 1 7 [] true false []] s /\
  fate (run cfg_arefresh [OAssign 0 5 [[OErase 7]]; ODropCb 0; OAdvance 0 100; OTick [([], ROk 0, (true, false))]] s) = UB.
Proof. apply (obs_after _ _ (fun s => fate (run cfg_arefresh _ s))). by vm_compute. Qed.
Print Assumptions C37_erase_callback_refuted.

(** ** C38: an error that converts to false is indistinguishable from the value 0 *)
Theorem C38_falsy_error_refuted : exists s s', after cfg_async [OAGet 1 7 [] true false []; OFail 0 0 []] s /\
  after cfg_async [OAGet 1 7 [] true false []; OAssign 0 0 []] s' /\ deliveries 1 s = deliveries 1 s' /\ deliveries 1 s <> [].
Proof.
  destruct (obs_after cfg_async [OAGet 1 7 [] true false []; OFail 0 0 []] (deliveries 1) [EvCall 1 0 0 false]) as (s & H & E); [by vm_compute|].
  destruct (obs_after cfg_async [OAGet 1 7 [] true false []; OAssign 0 0 []] (deliveries 1) [EvCall 1 0 0 false]) as (s' & H' & E'); [by vm_compute|].
  exists s, s'. split; [exact H|]. split; [exact H'|]. rewrite E, E'. by split.
Qed.
Print Assumptions C38_falsy_error_refuted.

(** ** C41 *)
(** the constructor of a value returned by a sync resolver throws *)
Theorem C41_sync_constructor_refuted : fate (run cfg_sync [OGet 7 [] RCtor] (st_init : cache)) = Term.
Proof. by vm_compute. Qed.
Print Assumptions C41_sync_constructor_refuted.
(** the constructor throws while a lookup completes: the requests are dropped, and completing again
    with an error terminates *)
Theorem C41_async_constructor_refuted : exists s, after cfg_async [OAGet 1 7 [] true false []; OAssignThrow 0] s /\
  (deliveries 1 s, fate (step cfg_async false (OFail 0 5 []) s)) = ([EvDrop 1], Term).
Proof. apply (obs_after _ _ (fun s => (deliveries 1 s, fate (step cfg_async false (OFail 0 5 []) s)))). by vm_compute. Qed.
Print Assumptions C41_async_constructor_refuted.
(** an async resolver throws when the refresh worker calls it *)
Theorem C41_refresh_resolver_refuted :
  fate (run cfg_arefresh [OAGet 1 7 [] true false []; OAssign 0 5 []; OAdvance 0 10; OTick [([], ROk 0, (true, true))]] (st_init : cache)) = Term.
Proof. by vm_compute. Qed.
Print Assumptions C41_refresh_resolver_refuted.

(** ** C12, C13: pointers with weaken and max_size *)
(** Key 2 keeps a weak pointer to an object that the cache also stores, strongly, for key 1. *)
Definition cfg_weak := let k := set_pointer (set_max_size (set_age cfg_plain (Some 10) None false true) 2) true in
  Cfg (fun _ => 0%N) (k_eq k) (k_pointer k) (k_resolver k) (k_max_size k) (k_weaken k)
    (k_max_age k) (k_err_age k) (k_neg k) (k_steady k) (k_refresh k) (k_over k) (k_mbc k) (k_req k).
Definition history_weak := [OEmplace 1 50; OAdvance 5 5; OEmplace 2 50; OGet 1 [] RCtor; OEmplace 3 60; ORelease 50].
(** [get(2)] first removes the aged entry of key 1, and with it the last owner of the object:
    [get_if_exists(2)] finds it and [get(2)] does not. *)
Theorem C12_weak_refuted : exists s, after cfg_weak (history_weak ++ [OAdvance 5 5]) s /\
  (peek cfg_weak s 2, answer cfg_weak s (OGet 2 [] RCtor)) = (Some 50, Some RetNone).
Proof. apply (obs_after _ _ (fun s => (peek cfg_weak s 2, answer cfg_weak s (OGet 2 [] RCtor)))). by vm_compute. Qed.
Print Assumptions C12_weak_refuted.
(** [erase(1)] changes the answer for key 2. *)
Theorem C13_weak_refuted : exists s s', after cfg_weak history_weak s /\ after cfg_weak (history_weak ++ [OErase 1]) s' /\
  peek cfg_weak s 2 = Some 50 /\ peek cfg_weak s' 2 = None.
Proof.
  destruct (obs_after cfg_weak history_weak (fun s => peek cfg_weak s 2) (Some 50)) as (s & H & E); [by vm_compute|].
  destruct (obs_after cfg_weak (history_weak ++ [OErase 1]) (fun s => peek cfg_weak s 2) None) as (s' & H' & E'); [by vm_compute|].
  exists s, s'. split; [exact H|]. split; [exact H'|]. split; [exact E|exact E'].
Qed.
Print Assumptions C13_weak_refuted.

(** ** C21: a resolver that puts a value for the key into the cache itself *)
(** [get(7)] returns 6, what the resolver returned, but later lookups return 5. *)
Theorem C21_reentrant_refuted : exists s s', after cfg_sync [] s /\ answer cfg_sync s (OGet 7 [OEmplace 7 5] (ROk 6)) = Some (RetVal 6) /\
  after cfg_sync [OGet 7 [OEmplace 7 5] (ROk 6)] s' /\ (answer cfg_sync s' (OGet 7 [] (ROk 8)), live_count cfg_sync s') = (Some (RetVal 5), Some 2%nat).
Proof.
  destruct (obs_after cfg_sync [] (fun s => answer cfg_sync s (OGet 7 [OEmplace 7 5] (ROk 6))) (Some (RetVal 6))) as (s & H & E); [by vm_compute|].
  destruct (obs_after cfg_sync [OGet 7 [OEmplace 7 5] (ROk 6)] (fun s => (answer cfg_sync s (OGet 7 [] (ROk 8)), live_count cfg_sync s)) (Some (RetVal 5), Some 2%nat)) as (s' & H' & E'); [by vm_compute|].
  exists s, s'. split; [exact H|]. split; [exact E|]. split; [exact H'|exact E'].
Qed.
Print Assumptions C21_reentrant_refuted.

(** ** C29: the resolver drops the callback of a background refresh *)
(** Key 7 is refreshed every 10 s (no idle timeout). After the resolver dropped one refresh lookup, the
    worker never calls the resolver for the key again and the old value stays. *)
Definition history_dropped := [OAGet 1 7 [] true false []; OAssign 0 70 []; OAdvance 12 12; OTick [([], ROk 0, (true, false))]; ODropCb 1].
Definition round : list op := [OAdvance 50 50; OTick [([], ROk 0, (true, false))]].
Lemma run_app' k l1 l2 : forall s : cache, run k (l1 ++ l2) s = (s <- run k l1 s;; run k l2 s).
Proof.
  induction l1 as [|o l1 IHl]; intros s; [done|]. change (run k ((o :: l1) ++ l2) s) with ('(s, _) <- step k false o s;; run k (l1 ++ l2) s).
  change (run k (o :: l1) s) with ('(s, _) <- step k false o s;; run k l1 s). destruct (step k false o s) as [[s1 r]| | |]; unfold rbind; [apply IHl|done..].
Qed.
(** The worker has nothing to do and nothing has a deadline. *)
Definition clocks (s : cache) (w st : Z) : cache := with_me s (set_clocks (me s) w st).
Definition frozen (s : cache) : Prop := m_up (me s) = true /\ c_dfront comp_ptr (cs s) = Ok None /\
  forall w st, (resolves cfg_arefresh 7 (clocks s w st), peek cfg_arefresh (clocks s w st) 7) = (2%nat, Some 70).
Lemma worker_idle k s now it r : c_dfront comp_ptr (cs s) = Ok None -> worker k s now (it :: r) = Ok s.
Proof. intros Hd. destruct it as [[u out] [kp th]]. unfold worker. rewrite Hd. reflexivity. Qed.
Lemma round_frozen s w st : frozen s -> exists w' st', run cfg_arefresh round (clocks s w st) = Ok (clocks s w' st').
Proof.
  intros (Hup & Hd & _). exists (w + 50), (st + 50). unfold round.
  change (run cfg_arefresh [OAdvance 50 50; OTick [([], ROk 0, (true, false))]] (clocks s w st)) with
    ('(s, _) <- step cfg_arefresh false (OAdvance 50 50) (clocks s w st);; '(s, _) <- step cfg_arefresh false (OTick [([], ROk 0, (true, false))]) s;; Ok s).
  assert (step cfg_arefresh false (OAdvance 50 50) (clocks s w st) = Ok (clocks s (w + 50) (st + 50), RetNone)) as ->.
  { unfold step, step_with. change (m_up (me (clocks s w st))) with (m_up (me s)). rewrite Hup. reflexivity. }
  unfold rbind at 1. cbv beta iota.
  assert (forall s', m_up (me s') = true -> c_dfront comp_ptr (cs s') = Ok None ->
    step cfg_arefresh false (OTick [([], ROk 0, (true, false))]) s' = Ok (s', RetNone)) as Ht.
  { intros s' Hup' Hd'. unfold step, step_with. rewrite Hup'. change (negb true) with false. cbv beta iota. simpl andb. cbv iota.
    unfold cfg_arefresh at 1. simpl k_refresh. cbv iota. simpl map. rewrite worker_idle by exact Hd'. reflexivity. }
  rewrite Ht by assumption. reflexivity.
Qed.
Lemma rounds_frozen s n : frozen s -> forall w st, exists w' st', run cfg_arefresh (concat (replicate n round)) (clocks s w st) = Ok (clocks s w' st').
Proof.
  intros Hs. induction n as [|n IH]; intros w st; [by exists w, st|].
  change (concat (replicate (S n) round)) with (round ++ concat (replicate n round)).
  destruct (round_frozen s w st Hs) as (w1 & st1 & E). rewrite run_app', E. unfold rbind. apply IH.
Qed.
Lemma ok_of {T} (r : res T) (P : T -> Prop) : match r with Ok s => P s | _ => False end -> exists s, r = Ok s /\ P s.
Proof. destruct r; intros H; [by eexists|destruct H..]. Qed.
Lemma dropped_frozen : exists s, run cfg_arefresh history_dropped (st_init : cache) = Ok s /\ frozen s.
Proof. apply (ok_of (run cfg_arefresh history_dropped (st_init : cache)) frozen). vm_compute. split; [reflexivity|]. split; [reflexivity|]. intros w st. reflexivity. Qed.
Theorem C29_dropped_refresh_refuted : forall n, exists s,
  after cfg_arefresh (history_dropped ++ concat (replicate n round)) s /\ (resolves cfg_arefresh 7 s, peek cfg_arefresh s 7) = (2%nat, Some 70).
Proof.
  intros n. destruct dropped_frozen as (s & Es & H).
  assert (clocks s (m_wall (me s)) (m_steady (me s)) = s) as E0 by (clear; destruct s as [c []]; reflexivity).
  destruct (rounds_frozen s n H (m_wall (me s)) (m_steady (me s))) as (w & st & E). exists (clocks s w st). split; [|apply H].
  unfold after. rewrite run_app', Es. unfold rbind. rewrite E0 in E. exact E.
Qed.
Print Assumptions C29_dropped_refresh_refuted.
