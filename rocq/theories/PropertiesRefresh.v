(** Property theorems about the refresh policy.
    Model: Cache.v over CachePtr.v. Observers: Observe.v. Classes of histories: Histories.v. *)
From Verif Require Import Base Mapped Cache CachePtr Observe Histories PropertiesRefuted PropertiesCache Examples Calls Origins Idle Refresh Gap Avail.
Local Open Scope Z_scope.

(** ** C39 *)
(** A value is used by [get], [async_get] and [get_or_emplace] of its key. With idle timeout [idle], a
    value that a lookup hands out was given to the key by some operation [o], and less than [idle] ago
    [o] ended or a later operation ended that used the key (or ran a program that did). *)
Theorem C39_expires : forall k l s key v d idle, fine_cfg k -> eq_ok k -> fine l -> after k l s -> k_refresh k = Some (d, idle) -> idle <> 0 ->
  peek k s key = Some v \/ tame k /\ m_up (me s) = true /\ hits k s key v ->
  exists l1 o l2 s1, l = l1 ++ o :: l2 /\ after k l1 s1 /\ supplies k (key_of s1) (m_ncb (me s1)) false key v o = true /\
    exists la ob lb sb, o :: l2 = la ++ ob :: lb /\ (la = [] \/ asks k key ob = true) /\ after k (l1 ++ la ++ [ob]) sb /\ m_steady (me s) < m_steady (me sb) + idle.
Proof. exact found_used. Qed.
Print Assumptions C39_expires.
Definition cfg_idle := mod_keys (set_age (set_refresh cfg_async 10 30) (Some 100) None false false).
Definition history_idle : list op :=
  [OAGet 1 7 [] true false []; OAGet 2 8 [] true false []; OAssign 0 70 []; OAssign 1 80 []; OAdvance 20 20; OAGet 3 107 [] true false []; OAdvance 15 15].
Example C39_expires_example :
  fine history_idle /\ (exists s, after cfg_idle history_idle s /\ map (peek cfg_idle s) [207; 8] = [Some 70; None]) /\
  exists s, after cfg_idle (history_idle ++ [OAdvance 0 15]) s /\ map (peek cfg_idle s) [207; 8] = [None; None].
Proof. split; [by vm_compute|]. split; apply (obs_after _ _ (fun s => map (peek cfg_idle s) [207; 8])); by vm_compute. Qed.

(** A value that a lookup [o] uses stays for [idle] after the beginning of [o] (and for longer, if it is
    used again in the meantime), as long as no operation removes or replaces the key, the clock is not
    set back, no lookup of the key in flight completes (see C28 for that), and with max_age [d], the
    value was given to the key less than [d] ago. This includes the time while the refresh worker looks
    the key up in the background. The size limit must not evict the value ([spared]). *)
Theorem C39_used_partial : forall k dl idle l1 o l2 s1 s3 key v, fine_cfg k -> eq_ok k -> tame k -> k_refresh k = Some (dl, idle) -> idle <> 0 ->
  fine (l1 ++ o :: l2) -> after k l1 s1 -> after k (l1 ++ o :: l2) s3 ->
  peek k s1 key = Some v -> uses k key o = true -> (forall key' v', o = OGetOrEmplace key' v' -> k_pointer k = true -> v' ∉ m_dropped (me s1)) ->
  ODestroy ∉ l2 -> existsb (spoils k key) (o :: l2) = false -> spared k s1 s3 key -> k_steady k = true \/ existsb sets_back (o :: l2) = false ->
  (forall l' o' l'' s, o :: l2 = l' ++ o' :: l'' -> after k (l1 ++ l') s -> undisturbed k s key o') ->
  (forall d, k_max_age k = Some d -> forall la oa lb sa, l1 = la ++ oa :: lb -> after k la sa -> supplies k (key_of sa) (m_ncb (me sa)) false key v oa = true ->
    (k_steady k = true \/ sets_back oa = false) /\ m_wall (me s3) < m_wall (me sa) + d /\ (k_steady k = false -> m_steady (me s3) < m_steady (me sa) + d)) ->
  m_steady (me s3) < m_steady (me s1) + idle -> peek k s3 key = Some v.
Proof. exact used_stays. Qed.
Print Assumptions C39_used_partial.
Definition before_used : list op := take 5 history_idle.
Definition after_used : list op :=
  [OTick [([], ROk 0, (true, false)); ([], ROk 0, (true, false))]; OAdvance 25 25; OEmplace 12 1; OErase 9; OAssign 3 81 []; OAdvance 4 4].
Definition use_idle : op := OAGet 3 107 [] true false [].
Lemma idle_keys : exists s, after cfg_idle (before_used ++ use_idle :: take 4 after_used) s /\ map (key_of s) [2; 3]%N = [Some 7; Some 8].
Proof. apply (obs_after _ _ (fun s => map (key_of s) [2; 3]%N)). vm_compute. done. Qed.
Example C39_used_example :
  fine (before_used ++ use_idle :: after_used) /\ uses cfg_idle 7 use_idle = true /\ ODestroy ∉ after_used /\
  existsb (spoils cfg_idle 7) (use_idle :: after_used) = false /\ existsb sets_back (use_idle :: after_used) = false /\
  (forall l' o' l'' s, use_idle :: after_used = l' ++ o' :: l'' -> after cfg_idle (before_used ++ l') s -> undisturbed cfg_idle s 7 o') /\
  (exists s, after cfg_idle before_used s /\ (peek cfg_idle s 7, m_wall (me s), m_steady (me s)) = (Some 70, 20, 20)) /\
  exists s, after cfg_idle (before_used ++ use_idle :: after_used) s /\ (map (peek cfg_idle s) [7; 8; 12], m_wall (me s), m_steady (me s)) = ([Some 70; None; Some 1], 49, 49).
Proof.
  do 2 (split; [by vm_compute|]). split; [intros H; repeat (apply elem_of_cons in H as [H|H]; [done|]); by apply elem_of_nil in H|].
  do 2 (split; [by vm_compute|]). split; [|split].
  - intros l' o' l'' s E A. unfold use_idle, after_used in E.
    destruct l' as [|? [|? [|? [|? [|? [|? [|? l']]]]]]]; cbn [app] in E;
      [injection E as <- _; clear A; by split; [intros i key' Ht|]|injection E as _ <- _; clear A; split; [by intros i key' Ht|left; by split; [|intros i Ht]]|
       injection E as _ _ <- _; clear A; by split; [intros i key' Ht|]|injection E as _ _ _ <- _; clear A; by split; [intros i key' Ht|]|
       injection E as _ _ _ _ <- _; clear A; by split; [intros i key' Ht|]| |injection E as _ _ _ _ _ _ <- _; clear A; by split; [intros i key' Ht|]|
       clear A; injection E as _ _ _ _ _ _ _ E; by destruct l'].
    injection E as <- <- <- <- <- <- _. split; [|done]. intros i key' Ht Hi. destruct idle_keys as (s' & A' & Hk).
    assert (s' = s) as ->. { unfold after in A, A'. unfold use_idle, after_used in A'. cbn [take] in A'. rewrite A in A'. injection A' as H'. symmetry. exact H'. }
    clear A A'. simpl in Ht. apply bool_decide_eq_true in Ht as <-.
    cbn [map] in Hk. injection Hk as _ Hk. rewrite Hk in Hi. by injection Hi as <-.
  - apply (obs_after _ _ (fun s => (peek cfg_idle s 7, m_wall (me s), m_steady (me s)))); by vm_compute.
  - apply (obs_after _ _ (fun s => (map (peek cfg_idle s) [7; 8; 12], m_wall (me s), m_steady (me s)))); by vm_compute.
Qed.

(** The same for a value that [emplace] has put into the cache. *)
Theorem C39_emplaced_partial : forall k dl idle l1 key' l2 s1 s3 key v, fine_cfg k -> eq_ok k -> tame k -> k_refresh k = Some (dl, idle) -> idle <> 0 ->
  fine (l1 ++ OEmplace key' v :: l2) -> after k l1 s1 -> after k (l1 ++ OEmplace key' v :: l2) s3 ->
  m_up (me s1) = true -> k_eq k key' key = true -> (k_pointer k = true -> v ∉ m_dropped (me s1)) ->
  ODestroy ∉ l2 -> existsb (spoils k key) l2 = false -> spared k s1 s3 key -> k_steady k = true \/ existsb sets_back l2 = false ->
  (forall l' o' l'' s, l2 = l' ++ o' :: l'' -> after k (l1 ++ OEmplace key' v :: l') s -> undisturbed k s key o') ->
  (forall d, k_max_age k = Some d -> m_wall (me s3) < m_wall (me s1) + d /\ (k_steady k = false -> m_steady (me s3) < m_steady (me s1) + d)) ->
  m_steady (me s3) < m_steady (me s1) + idle -> peek k s3 key = Some v.
Proof. exact emplaced_stays. Qed.
Print Assumptions C39_emplaced_partial.
Definition after_emplaced : list op := [OAdvance 25 25; OTick [([], ROk 0, (true, false)); ([], ROk 0, (true, false)); ([], ROk 0, (true, false))]; OErase 8; OAdvance 4 4].
Example C39_emplaced_example :
  fine (before_used ++ OEmplace 109 90 :: after_emplaced) /\ ODestroy ∉ after_emplaced /\ existsb (spoils cfg_idle 9) after_emplaced = false /\ existsb sets_back after_emplaced = false /\
  (forall l' o' l'' s, after_emplaced = l' ++ o' :: l'' -> undisturbed cfg_idle s 9 o') /\
  (exists s, after cfg_idle before_used s /\ (m_wall (me s), m_steady (me s)) = (20, 20)) /\
  exists s, after cfg_idle (before_used ++ OEmplace 109 90 :: after_emplaced) s /\ (map (peek cfg_idle s) [7; 8; 9], map (key_of s) [2; 3; 4]%N, m_wall (me s), m_steady (me s)) = ([None; None; Some 90], [Some 109; None; None], 49, 49).
Proof.
  split; [by vm_compute|]. split; [intros H; repeat (apply elem_of_cons in H as [H|H]; [done|]); by apply elem_of_nil in H|].
  do 2 (split; [by vm_compute|]). split; [|split].
  - intros l' o' l'' s E. unfold after_emplaced in E. destruct l' as [|? [|? [|? [|? l']]]]; cbn [app] in E; [injection E as <- _|injection E as _ <- _|injection E as _ _ <- _|injection E as _ _ _ <- _|injection E as _ _ _ _ E; by destruct l'];
      [by split; [intros i key' Ht|]|split; [by intros i key' Ht|left; by split; [|intros i Ht]]|by split; [intros i key' Ht|]|by split; [intros i key' Ht|]].
  - apply (obs_after _ _ (fun s => (m_wall (me s), m_steady (me s)))); by vm_compute.
  - apply (obs_after _ _ (fun s => (map (peek cfg_idle s) [7; 8; 9], map (key_of s) [2; 3; 4]%N, m_wall (me s), m_steady (me s)))); by vm_compute.
Qed.

(** ** C28 *)
(** A value is served for as long as it would be if only time passed: what a lookup finds now and would
    find at a later time [s2] is found by lookups until then, whatever happens in the meantime,
    including the refresh worker looking the key up in the background - unless an operation removes or
    replaces the key, the size limit evicts it, the clock is set back, or a lookup of the key completes
    (see the next theorems). Not covered: rounds of the refresh worker in which some of the started
    lookups complete before the round ends and in which a value of this very key is due for refresh
    (see C28_sync and C28_async for these); and refresh delay 0 with such lookups. *)
Theorem C28_no_gap_partial : forall k, fine_cfg k -> eq_ok k -> tame k -> forall l1 dw ds l2 s1 s2 s3 key v, spared k s1 s3 key ->
  fine (l1 ++ l2) -> k_resolver k = RAsync \/ forallb (plain_op k) l1 = true ->
  after k l1 s1 -> after k (l1 ++ [OAdvance dw ds]) s2 -> after k (l1 ++ l2) s3 ->
  peek k s1 key = Some v -> peek k s2 key = Some v ->
  ODestroy ∉ l2 -> existsb (spoils k key) l2 = false -> k_steady k = true \/ existsb sets_back l2 = false ->
  k_refresh k = None \/ (forall l' o' l'' s, l2 = l' ++ o' :: l'' -> after k (l1 ++ l') s -> undisturbed k s key o') ->
  m_wall (me s3) <= m_wall (me s2) -> m_steady (me s3) <= m_steady (me s2) -> peek k s3 key = Some v.
Proof. exact no_gap. Qed.
Print Assumptions C28_no_gap_partial.
Definition before_refresh : list op := [OAGet 1 7 [] true false []; OAssign 0 70 []].
Definition until_refresh : list op := [OAdvance 12 12; OTick [([], ROk 0, (true, false))]].
Definition in_refresh : list op := [OEmplace 8 1; OAGet 2 207 [] true false []; OAdvance 17 17].
Definition sees_idle (s : cache) := (map (peek cfg_idle s) [107; 8], map (key_of s) [0; 1]%N, m_wall (me s), m_steady (me s)).
Example C28_no_gap_example :
  fine (before_refresh ++ until_refresh ++ in_refresh) /\ ODestroy ∉ until_refresh ++ in_refresh /\ existsb (spoils cfg_idle 107) (until_refresh ++ in_refresh) = false /\ existsb sets_back (until_refresh ++ in_refresh) = false /\
  (forall l' o' l'' s, until_refresh ++ in_refresh = l' ++ o' :: l'' -> undisturbed cfg_idle s 107 o') /\
  (exists s, after cfg_idle before_refresh s /\ sees_idle s = ([Some 70; None], [Some 7; None], 0, 0)) /\
  (exists s, after cfg_idle (before_refresh ++ [OAdvance 29 29]) s /\ sees_idle s = ([Some 70; None], [Some 7; None], 29, 29)) /\
  exists s, after cfg_idle (before_refresh ++ until_refresh ++ in_refresh) s /\ sees_idle s = ([Some 70; Some 1], [Some 7; Some 7], 29, 29).
Proof.
  split; [by vm_compute|]. split; [intros H; repeat (apply elem_of_cons in H as [H|H]; [done|]); by apply elem_of_nil in H|].
  do 2 (split; [by vm_compute|]). split; [|split; [|split]].
  - intros l' o' l'' s E. unfold until_refresh, in_refresh in E. destruct l' as [|? [|? [|? [|? [|? l']]]]]; cbn [app] in E; [injection E as <- _|injection E as _ <- _|injection E as _ _ <- _|injection E as _ _ _ <- _|injection E as _ _ _ _ <- _|injection E as _ _ _ _ _ E; by destruct l'];
      [by split; [intros i key' Ht|]|split; [by intros i key' Ht|left; by split; [|intros i Ht]]|by split; [intros i key' Ht|]|by split; [intros i key' Ht|]|by split; [intros i key' Ht|]].
  - apply (obs_after _ _ sees_idle); by vm_compute.
  - apply (obs_after _ _ sees_idle); by vm_compute.
  - apply (obs_after _ _ sees_idle); by vm_compute.
Qed.

(** The same with a sync resolver: the worker replaces the value of key 7, which is due, and leaves the
    one of key 8 alone. *)
Definition cfg_sidle := mod_keys (set_refresh cfg_sync 10 30).
Definition before_round : list op := [OGet 7 [] (ROk 70); OAdvance 5 5; OGet 8 [] (ROk 80)].
Definition in_round : list op := [OAdvance 7 7; OTick [([], ROk 71, (true, false))]].
Definition due_keys (s : cache) := map (fun e => el_key <$> m_els (me s) !! e) (overdue (m_steady (me s)) s).
Definition sees_round (s : cache) := (map (peek cfg_sidle s) [7; 108], due_keys s, m_wall (me s), m_steady (me s)).
Example C28_no_gap_sync_example :
  fine (before_round ++ in_round) /\ ODestroy ∉ in_round /\ existsb (spoils cfg_sidle 108) in_round = false /\ existsb sets_back in_round = false /\
  (forall l' o' l'' s, in_round = l' ++ o' :: l'' -> after cfg_sidle (before_round ++ l') s -> undisturbed cfg_sidle s 108 o') /\
  (exists s, after cfg_sidle before_round s /\ sees_round s = ([Some 70; Some 80], [], 5, 5)) /\
  (exists s, after cfg_sidle (before_round ++ [OAdvance 7 7]) s /\ sees_round s = ([Some 70; Some 80], [Some 7], 12, 12)) /\
  exists s, after cfg_sidle (before_round ++ in_round) s /\ sees_round s = ([Some 71; Some 80], [], 12, 12).
Proof.
  split; [by vm_compute|]. split; [intros H; repeat (apply elem_of_cons in H as [H|H]; [done|]); by apply elem_of_nil in H|].
  do 2 (split; [by vm_compute|]).
  assert (exists s, after cfg_sidle (before_round ++ [OAdvance 7 7]) s /\ sees_round s = ([Some 70; Some 80], [Some 7], 12, 12)) as Hdue by (apply (obs_after _ _ sees_round); by vm_compute).
  split; [|split; [|split; [exact Hdue|]]].
  - intros l' o' l'' s E Ha. unfold in_round in E. destruct l' as [|? [|? l']]; cbn [app] in E; [injection E as <- _|injection E as <- <- _|clear Ha; injection E as _ _ E; by destruct l'].
    + split; [|exact I]. intros i key' Ht. discriminate Ht.
    + split; [intros i key' Ht; discriminate Ht|]. right. split; [exists 10, 30; split; reflexivity|]. intros e el He Hel.
      destruct Hdue as (s' & Ha' & Hs). assert (s' = s) as -> by (unfold after in Ha, Ha'; rewrite Ha in Ha'; injection Ha' as ->; reflexivity). clear Ha Ha'.
      unfold sees_round in Hs. injection Hs as _ _ Hd _ _. apply (elem_of_list_fmap_1 (fun e => el_key <$> m_els (me s) !! e)) in He. unfold due_keys in Hd. rewrite Hel in He. change (el_key <$> Some el ∈ map (fun e => el_key <$> m_els (me s) !! e) (overdue (m_steady (me s)) s)) in He. rewrite Hd in He.
      apply elem_of_list_singleton in He. injection He as ->. reflexivity.
  - apply (obs_after _ _ sees_round); by vm_compute.
  - apply (obs_after _ _ sees_round); by vm_compute.
Qed.

(** Rounds of the refresh worker with a sync resolver that returns a value each time it is called: there
    is no gap either. What was found is still found after the round, or has been replaced by one of the
    new values; and it has been replaced if it was due and the round ran to its end. *)
Theorem C28_sync : forall k, fine_cfg k -> eq_ok k -> tame k -> forall delay idle, k_refresh k = Some (delay, idle) -> 0 < delay -> k_resolver k = RSync -> ages_ok k ->
  forall l items s s' key old, fine (l ++ [OTick items]) -> forallb (plain_op k) l = true ->
  (forall it, it ∈ items -> it.1.1 = [] /\ exists v, it.1.2 = ROk v /\ (k_pointer k = true -> v ∉ m_dropped (me s))) ->
  after k l s -> after k (l ++ [OTick items]) s' -> peek k s key = Some old ->
  exists v, peek k s' key = Some v /\ (v = old \/ exists it, it ∈ items /\ it.1.2 = ROk v) /\
    (due_value k s key -> (length (overdue (m_steady (me s)) s) <= length items)%nat -> exists it, it ∈ items /\ it.1.2 = ROk v).
Proof. exact sync_round. Qed.
Print Assumptions C28_sync.
Definition due_found (key : Z) (s : cache) : bool :=
  existsb (fun e => match m_els (me s) !! e with Some el => k_eq cfg_sidle (el_key el) key && match el_map el with MVal _ => true | _ => false end | None => false end) (overdue (m_steady (me s)) s).
Definition sees_due (s : cache) := (map (peek cfg_sidle s) [107; 8], map (fun key => due_found key s) [107; 8], length (overdue (m_steady (me s)) s)).
Lemma due_found_ok key s : due_found key s = true -> due_value cfg_sidle s key.
Proof.
  intros (e & He%elem_of_list_In & H)%existsb_exists. destruct (m_els (me s) !! e) as [el|] eqn:Ee; [|done]. apply andb_true_iff in H as [H1 H2].
  destruct (el_map el) as [|v| | | |] eqn:Em; try done. by exists e, el, v.
Qed.
Definition round_items : list (list op * outcome * (bool * bool)) := [([], ROk 71, (true, false)); ([], ROk 81, (true, false))].
Example C28_sync_example :
  fine ((before_round ++ [OAdvance 7 7]) ++ [OTick round_items]) /\ forallb (plain_op cfg_sidle) (before_round ++ [OAdvance 7 7]) = true /\
  (exists s, after cfg_sidle (before_round ++ [OAdvance 7 7]) s /\ sees_due s = ([Some 70; Some 80], [true; false], 1%nat)) /\
  exists s, after cfg_sidle ((before_round ++ [OAdvance 7 7]) ++ [OTick round_items]) s /\ sees_due s = ([Some 71; Some 80], [false; false], 0%nat).
Proof.
  do 2 (split; [by vm_compute|]). split; apply (obs_after _ _ sees_due); by vm_compute.
Qed.

(** The same with an async resolver: lookups that the round starts may complete with a value before the
    round ends, even while the resolver is being called; there is no gap. The new value is in force at
    once, or the old one stays. The resolver may also start further lookups, and insert and erase other
    keys. *)
Theorem C28_async : forall k, fine_cfg k -> eq_ok k -> tame k -> forall delay idle, k_refresh k = Some (delay, idle) -> k_resolver k = RAsync -> ages_ok k ->
  forall l items s s' key old, fine (l ++ [OTick items]) ->
  (forall it o, it ∈ items -> o ∈ it.1.1 -> answering k (m_ncb (me s)) key o = true) ->
  after k l s -> after k (l ++ [OTick items]) s' -> peek k s key = Some old ->
  exists v, peek k s' key = Some v /\ (v = old \/ exists it, it ∈ items /\ existsb (completes_with v) it.1.1 = true).
Proof. exact async_round. Qed.
Print Assumptions C28_async.
Definition two_values : list op := [OAGet 1 7 [] true false []; OAssign 0 70 []; OAGet 2 8 [] true false []; OAssign 1 80 []; OEmplace 9 90; OAdvance 12 12].
Definition at_once : list (list op * outcome * (bool * bool)) :=
  [([OAssign 2 71 []; OGetIf 7; OAGet 3 11 [OAssign 3 110 []] true false []], ROk 0, (true, false)); ([OErase 9; OEmplace 12 5], ROk 0, (true, false))].
Definition sees_two (s : cache) := (map (peek cfg_idle s) [107; 8; 9; 11], m_ncb (me s)).
Example C28_async_example :
  fine (two_values ++ [OTick at_once]) /\ forallb (fun it => forallb (answering cfg_idle 2 107) it.1.1 && forallb (answering cfg_idle 2 8) it.1.1) at_once = true /\
  (exists s, after cfg_idle two_values s /\ sees_two s = ([Some 70; Some 80; Some 90; None], 2%N)) /\
  exists s, after cfg_idle (two_values ++ [OTick at_once]) s /\ sees_two s = ([Some 71; Some 80; None; Some 110], 5%N).
Proof.
  do 2 (split; [by vm_compute|]). split; apply (obs_after _ _ sees_two); by vm_compute.
Qed.

(** When a lookup of the key completes with a value, that value is found from then on. With a refresh
    policy: if the old value was still there (otherwise the new value inherits an idle deadline that has
    passed, see C28_deadline). The completion callbacks take no time. *)
Theorem C28_takes_over : forall k, fine_cfg k -> eq_ok k -> tame k -> forall l i v us s s' key, ages_ok k -> k_max_size k = None \/ k_weaken k = false ->
  (forall d idle, k_refresh k = Some (d, idle) -> exists old, peek k s key = Some old) ->
  fine (l ++ [OAssign i v us]) -> after k l s -> after k (l ++ [OAssign i v us]) s' -> m_up (me s) = true -> underway k s i key ->
  (k_pointer k = true -> v ∉ m_dropped (me s)) -> m_steady (me s') = m_steady (me s) ->
  peek k s' key = Some v.
Proof. exact takes_over. Qed.
Print Assumptions C28_takes_over.
Definition refreshing : list op := before_refresh ++ until_refresh ++ in_refresh.
Example C28_takes_over_example :
  (exists s, after cfg_idle refreshing s /\ (peek cfg_idle s 107, is_underway cfg_idle 1 107 s, m_up (me s), m_steady (me s)) = (Some 70, true, true, 29)) /\
  fine (refreshing ++ [OAssign 1 71 [[OGetIf 7]]]) /\
  exists s, after cfg_idle (refreshing ++ [OAssign 1 71 [[OGetIf 7]]]) s /\ (peek cfg_idle s 107, is_underway cfg_idle 1 107 s, m_up (me s), m_steady (me s)) = (Some 71, false, true, 29).
Proof.
  split; [|split; [by vm_compute|]];
    apply (obs_after _ _ (fun s => (peek cfg_idle s 107, is_underway cfg_idle 1 107 s, m_up (me s), m_steady (me s)))); by vm_compute.
Qed.

(** If the old value was going to idle out [ds] from now, then so does the new value: a refresh does
    not count as a use. (Without max_age, which would be another reason for the old value to go.) *)
Theorem C28_deadline : forall k, fine_cfg k -> eq_ok k -> tame k -> forall l i v us dw ds s s1 s2 key old, k_max_age k = None ->
  fine (l ++ [OAssign i v us; OAdvance dw ds]) -> after k l s -> after k (l ++ [OAdvance dw ds]) s1 -> after k (l ++ [OAssign i v us; OAdvance dw ds]) s2 ->
  underway k s i key -> peek k s key = Some old -> (k_pointer k = true -> v ∉ m_dropped (me s)) ->
  peek k s1 key = None -> peek k s2 key = None.
Proof. exact not_prolonged. Qed.
Print Assumptions C28_deadline.
Definition cfg_idle_forever := mod_keys (set_refresh cfg_async 10 30).
Definition used_refresh : list op := before_refresh ++ until_refresh ++ [OAdvance 8 8].
Example C28_deadline_example :
  fine (used_refresh ++ [OAssign 1 71 []; OAdvance 10 10]) /\
  (exists s, after cfg_idle_forever used_refresh s /\ (peek cfg_idle_forever s 107, is_underway cfg_idle_forever 1 107 s) = (Some 70, true)) /\
  (exists s, after cfg_idle_forever (used_refresh ++ [OAdvance 10 10]) s /\ peek cfg_idle_forever s 107 = None) /\
  (exists s, after cfg_idle_forever (used_refresh ++ [OAssign 1 71 []; OAdvance 9 9]) s /\ peek cfg_idle_forever s 107 = Some 71) /\
  exists s, after cfg_idle_forever (used_refresh ++ [OAssign 1 71 []; OAdvance 10 10]) s /\ peek cfg_idle_forever s 107 = None.
Proof.
  split; [by vm_compute|]. split; [apply (obs_after _ _ (fun s => (peek cfg_idle_forever s 107, is_underway cfg_idle_forever 1 107 s))); by vm_compute|].
  split; [|split]; apply (obs_after _ _ (fun s => peek cfg_idle_forever s 107)); by vm_compute.
Qed.

(** A lookup that fails leaves no value for the key: the old value does not survive a failed refresh. *)
Theorem C28_failure : forall k, fine_cfg k -> eq_ok k -> tame k -> forall l i x us s s' key,
  fine (l ++ [OFail i x us]) -> after k l s -> after k (l ++ [OFail i x us]) s' -> m_up (me s) = true -> underway k s i key ->
  peek k s' key = None.
Proof. exact failed_refresh. Qed.
Print Assumptions C28_failure.
Example C28_failure_example :
  fine (refreshing ++ [OFail 1 5 []]) /\
  (exists s, after cfg_idle refreshing s /\ (map (peek cfg_idle s) [107; 8], is_underway cfg_idle 1 107 s) = ([Some 70; Some 1], true)) /\
  exists s, after cfg_idle (refreshing ++ [OFail 1 5 []]) s /\ (map (peek cfg_idle s) [107; 8], is_underway cfg_idle 1 107 s) = ([None; Some 1], false).
Proof.
  split; [by vm_compute|]. split; apply (obs_after _ _ (fun s => (map (peek cfg_idle s) [107; 8], is_underway cfg_idle 1 107 s))); by vm_compute.
Qed.
