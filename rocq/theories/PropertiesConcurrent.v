(** C32 and C27: several threads use one cache. *)
From Verif Require Import Base Mapped Cache CachePtr Histories Observe PropertiesRefuted Concurrency ConcurrencyProofs.
From stdpp Require Import list gmap.
From Verif Require Import Examples CompSim CacheSim.
Local Open Scope Z_scope.

(** ** C32 *)
(** Let [bd] say what accesses to the cache's memory a call makes and in which order, locking and
    unlocking included. It may be as fine-grained as one likes and lock again inside; but, as with the
    lock_guard of all these functions, it locks first, unlocks last, and alone it does what the
    operation does. Then whatever the schedule, for any number of threads: no call fails, at every
    moment the results so far are those of the calls made one after the other, in an order that
    respects real time (so also the order of every thread), and all threads can finish: there is no
    deadlock. *)
Theorem C32_linearizable : forall k, fine_cfg k -> forall bd,
  (forall o, locked o = true -> guarded (bd o)) ->
  (forall o (s s' : cache) r, locked o = true -> step k false o s = Ok (s', r) -> exec (bd o) s = Ok (s', r)) ->
  forall l s0 ps sched, fine l -> after k l s0 -> m_up (me s0) = true -> Forall (Forall (fun o => fine_op false o = true /\ locked o = true)) ps ->
  exists c, play bd sched (start s0 ps) = Ok c /\
    (exists lin s, looks_like (step k false) s0 ps c lin s) /\
    (exists sched' c', play bd sched' c = Ok c' /\ finished c').
Proof. intros k Hk bd H1 H2 l s0 ps sched Hf Ha Hup. exact (all_guarded k Hk bd s0 ps sched H1 H2 (nice_after k Hk l s0 Hf Ha Hup)). Qed.
Print Assumptions C32_linearizable.

(** The same with calls on callbacks, which look at [called] before they lock: if no two threads use
    the same callback. (If they do, see C27 below.) *)
Theorem C32_calls : forall k, fine_cfg k -> forall l s0 ps sched, fine l -> after k l s0 -> m_up (me s0) = true ->
  Forall (Forall (fun o => concurrent o = true)) ps -> apart ps ->
  exists c, play (call k) sched (start s0 ps) = Ok c /\
    (exists lin s, looks_like (step k false) s0 ps c lin s) /\
    (exists sched' c', play (call k) sched' c = Ok c' /\ finished c').
Proof. intros k Hk l s0 ps sched Hf Ha Hup. exact (all_calls k Hk s0 ps sched (nice_after k Hk l s0 Hf Ha Hup)). Qed.
Print Assumptions C32_calls.

(** A finer [bd]: [emplace] (hashtable.ii:769-795) in five accesses, one of them under a second lock.
    Two threads insert and erase; thread 1 tries to lock four times while thread 0 inserts. *)
Definition finer (k : cfg) (o : op) : prog cache ret :=
  match o with
  | OEmplace key v =>
    PAcq (PAct (fun s : cache => Ok (s, m_up (me s) && holds k s v)) (fun b : bool =>
      if b then
        PAct (fun s => s <- expire k s key;; Ok (s, tt)) (fun _ => PAcq (PAct (fun s => allocate s key (MVal v)) (fun e => PRel
          (PAct (fun s => s <- link k s (k_hash k key) e;; Ok (s, tt)) (fun _ =>
             PAct (fun s => s <- maintenance_ k s;; Ok (s, tt)) (fun _ => PRel (PRet RetNone)))))))
      else PRel (PRet RetNone)))
  | _ => PAcq (PAct (step k false o) (fun r => PRel (PRet r)))
  end.
Definition two_threads : list (list op) := [[OEmplace 1 10; OGetIf 2]; [OEmplace 2 20; OErase 1; OGetIf 1]].
Definition mixed : list nat := [0;0;1;0;1;0;1;0;0;1;0;0;1;0;1;1;1;0;1;1;0;0;0;1;1;1;0;1;0;1;1;1;1;1;0;0;1;1;1;1;0;0;1;0;0;1;1;1;1;1;1;1;1]%nat.
Definition replies {S O R : Type} (c : conf S O R) : list (nat * nat * R) := omap (fun e => match e with HRes t n r => Some ((t, n), r) | _ => None end) (c_hist c).
Example C32_linearizable_example : fine_cfg cfg_plain /\
  (forall o, locked o = true -> guarded (finer cfg_plain o)) /\
  (forall o (s s' : cache) r, locked o = true -> step cfg_plain false o s = Ok (s', r) -> exec (finer cfg_plain o) s = Ok (s', r)) /\
  Forall (Forall (fun o => fine_op false o = true /\ locked o = true)) two_threads /\
  match play (finer cfg_plain) mixed (start st_init two_threads) with Ok c => Some (replies c) | _ => None end =
    Some [((0, 0), RetNone); ((1, 0), RetNone); ((0, 1), RetVal 20); ((1, 1), RetNone); ((1, 2), RetNone)]%nat.
Proof.
  split; [by intros []|]. split.
  { intros o Ho. destruct o; try done; (eexists; split; [reflexivity|]); try (simpl; split; [lia|done]).
    simpl. split; [lia|]. intros []; [|done]. repeat (split; [lia|]; intros); try split; lia. }
  split.
  { intros o s s' r Ho E. destruct o; try done; cbn [finer exec]; try (rewrite E; done).
    rewrite step_eq in E. unfold step_with in E. destruct (m_up (me s)); cbn [rbind negb andb] in E |- *; [|done]. destruct (holds cfg_plain s v); cbn [rbind exec] in E |- *; [|done].
    unfold emplace in E. destruct (expire cfg_plain s key) as [s1| | |]; try done. cbn [rbind] in E |- *.
    destruct (allocate s1 key (MVal v)) as [[s2 e]| | |]; try done. cbn [rbind] in E |- *.
    destruct (link cfg_plain s2 (k_hash cfg_plain key) e) as [s3| | |]; done. }
  split; [repeat constructor|]. by vm_compute.
Qed.

(** Two lookups are under way (callbacks 0 and 1). Thread 0 completes the first one, thread 1 fails the
    second one and then makes a new lookup (callback 2), thread 2 completes that. *)
Definition under_way : list op := [OAGet 1 5 [] true false []; OAGet 2 6 [] true false []].
Definition three_threads : list (list op) := [[OAssign 0 50 []; OFail 0 9 []; OGetIf 5]; [OFail 1 7 []; OAGet 3 8 [] true false []; OAdvance 1 1]; [OAssign 2 80 []; OErase 5; OAssign 2 81 []]].
Definition shuffled : list nat := [0;1;0;1;2;0;1;2;0;1;1;1;2;0;0;1;1;1;1;2;2;1;0;2;2;2;0;2;0;0;1;1;2;2;2;2;0;0;0;0;1;1;1;2;2;2;2;2;2;2;2;0;0;0;0;0]%nat.
Definition outcome_of {T : Type} (k : cfg) (l : list op) (sched : list nat) (ps : list (list op)) (f : conf cache op ret -> T) : option T :=
  match run k l st_init with Ok s => match play (call k) sched (start s ps) with Ok c => Some (f c) | _ => None end | _ => None end.
Example C32_calls_example : fine_cfg cfg_async /\ fine under_way /\ (exists s, after cfg_async under_way s /\ m_up (me s) = true) /\
  Forall (Forall (fun o => concurrent o = true)) three_threads /\ apart three_threads /\
  outcome_of cfg_async under_way shuffled three_threads replies =
    Some [((0, 0), RetBool true); ((1, 0), RetBool true); ((2, 0), RetNone); ((0, 1), RetBool false); ((2, 1), RetNone); ((0, 2), RetNone); ((2, 2), RetBool true)]%nat.
Proof.
  split; [by intros []|]. split; [done|]. split; [apply (obs_after _ _ (fun s => m_up (me s))); by vm_compute|]. split; [repeat constructor|]. split.
  { assert (forallb (fun t => forallb (fun u => bool_decide (t = u) || match three_threads !! t, three_threads !! u with
      | Some l, Some l' => forallb (fun o => forallb (fun o' => match callback_of o with Some i => negb (touches i o') | None => true end) l') l
      | _, _ => true end) [0;1;2]%nat) [0;1;2]%nat = true) as H by by vm_compute.
    intros t u l l' o o' i Hl Hl' Hne Ho Ho' Hc.
    assert (forall t l, three_threads !! t = Some l -> t ∈ [0;1;2]%nat) as Hin.
    { intros [|[|[|t']]] l1 E; set_solver. }
    pose proof (Hin _ _ Hl) as H1. pose proof (Hin _ _ Hl') as H2. apply elem_of_list_In in H1, H2, Ho, Ho'.
    rewrite forallb_forall in H. specialize (H t H1). rewrite forallb_forall in H. specialize (H u H2). rewrite bool_decide_false in H by done.
    rewrite Hl, Hl' in H. simpl in H. rewrite forallb_forall in H. specialize (H o Ho). rewrite forallb_forall in H. specialize (H o' Ho').
    rewrite Hc in H. by apply negb_true_iff. }
  by vm_compute.
Qed.

(** ** C27: two threads complete the same lookup *)
(** Both look at [called] before either of them takes the lock. The second assign_error finds no pending
    lookup; it is noexcept, so the program terminates. (In C++ the unprotected read and the write of
    [called] are also a data race.) *)
Definition racers : list (list op) := [[OFail 0 1 []]; [OFail 0 2 []]].
Definition race : list nat := [0;1;0;1;0;0;0;0;1;1]%nat.
Definition terminates (k : cfg) (l : list op) (sched : list nat) (ps : list (list op)) : bool :=
  match run k l (st_init : cache) with Ok s => match play (call k) sched (start s ps) with Term => true | _ => false end | _ => false end.
Lemma race_ends k l sched ps : terminates k l sched ps = true -> exists s0, after k l s0 /\ play (call k) sched (start s0 ps) = Term.
Proof. unfold terminates, after. destruct (run k l (st_init : cache)) as [s| | |]; try done. intros H. exists s. split; [done|]. by destruct (play (call k) sched (start (s : cache) ps)). Qed.
Theorem C27_race_refuted : exists k l s0 sched, fine_cfg k /\ fine l /\ after k l s0 /\ play (call k) sched (start s0 racers) = Term.
Proof.
  destruct (race_ends cfg_async under_way race racers) as (s0 & Ha & Hp); [by vm_compute|].
  exists cfg_async, under_way, s0, race. split; [by intros []|]. split; [done|]. split; [exact Ha|exact Hp].
Qed.
Print Assumptions C27_race_refuted.
