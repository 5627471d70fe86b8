(** Lemmas about [asio_resolver_policy] (for PropertiesAsioResolver.v): a history with an executor is a
    history of Cache.v, and the completion handlers on the executor are those that the cache has called. *)
From stdpp Require Import sorting.
From Verif Require Import Base AQueue ATable BasicHashtable QueueProofs BasicHashtableProofs ContainersProofs Mapped Cache CachePtr CacheAbs CompSim CacheSim AbsInv AbsPrim AbsPrim2 AbsSweep AbsOps AbsComp Histories Trace AbsTrace TraceInv Delay AbsTraceCb AbsResolve AbsStep AbsLook Effects Observe Transfer Lookups Waiters Answers Calls Cancel AsioResolver.

Notation xcache := (xst comp_ptr).

Lemma called_eq (s : cache) : called s = handlers (fun _ => true) (rev (m_log (me s))).
Proof. reflexivity. Qed.
Lemma handlers_app f l1 l2 : handlers f (l1 ++ l2) = handlers f l1 ++ handlers f l2.
Proof. unfold handlers. by rewrite map_app, concat_app. Qed.
Lemma handlers_split f l : Permutation (handlers f l ++ handlers (fun b => negb (f b)) l) (handlers (fun _ => true) l).
Proof.
  induction l as [|v l IH]; [done|]. change (v :: l) with ([v] ++ l). rewrite !handlers_app.
  assert (Permutation (handlers f [v] ++ handlers (fun b => negb (f b)) [v]) (handlers (fun _ => true) [v])) as H.
  { unfold handlers. destruct v as [|w y x i| |]; simpl; try done. by destruct (f i). }
  rewrite <-H, <-IH. clear. rewrite <-!app_assoc. apply Permutation_app_head. rewrite !app_assoc. apply Permutation_app_tail. apply Permutation_app_comm.
Qed.
Lemma queued_app l1 l2 : queued (l1 ++ l2) = queued l1 ++ queued l2.
Proof. unfold queued. by rewrite map_app, concat_app. Qed.
Lemma queued_done l : queued (map jdone l) = l.
Proof. unfold queued. induction l as [|[[w v] x] l IH]; [done|]. simpl in *. by rewrite IH. Qed.
Lemma queued_resolve l : queued (map JResolve l) = [].
Proof. unfold queued. induction l as [|i l IH]; [done|]. exact IH. Qed.
Lemma outside_fine o : xfine_op (XCall o) = true -> fine_op false (outside o) = true.
Proof. destruct o; simpl; try done. intros _. induction items as [|i l IH]; [done|]. exact IH. Qed.
Lemma outside_waiters o w : cnt w (op_waiters (outside o)) = cnt w (match o with OAGet w _ _ _ _ _ => [w] | _ => [] end).
Proof.
  destruct o; try done. simpl. replace (concat _) with (@nil N); [done|]. induction items as [|i l IH]; [done|]. exact IH.
Qed.

Section x.
  Context (k : cfg) (Hk : fine_cfg k).

  Lemma news_called (s s' : cache) : (exists l, m_log (me s') = l ++ m_log (me s)) ->
    called s' = called s ++ handlers (fun _ => true) (news s s').
  Proof using.
    intros [l E]. rewrite !called_eq. unfold news. rewrite E, rev_app_distr, handlers_app. f_equal. f_equal. f_equal. rewrite app_length.
    replace (_ - _) with (length l) by lia. by rewrite take_app.
  Qed.
  Lemma run_log l2 : forall l (s s' : cache), fine (l ++ l2) -> after k l s -> run k l2 s = Ok s' -> exists m, m_log (me s') = m ++ m_log (me s).
  Proof using Hk.
    induction l2 as [|o l2 IH]; intros l s s' Hf Ha R; [injection R as <-; by exists []|].
    assert (fine ((l ++ [o]) ++ l2)) as Hf2 by (by rewrite <-app_assoc).
    rewrite run_cons in R. destruct (step k false o s) as [[s1 r]| | |] eqn:E; try done. unfold rbind in R.
    assert (after k (l ++ [o]) s1) as Ha1. { apply after_app. exists s. split; [done|]. rewrite (run_cons k o []), E. done. }
    destruct (IH (l ++ [o]) s1 s' Hf2 Ha1 R) as [m Hm]. clear IH.
    apply fine_app in Hf as [Hf1 Hf3]. change (o :: l2) with ([o] ++ l2) in Hf3. apply fine_app in Hf3 as [Hf3%fine_one _].
    destruct (after_abs k Hk l s Hf1 Ha) as (sa & _ & S & T & _). destruct (fine_step k Hk o sa s Hf3 S T) as (sa' & s2 & r2 & _ & Ec & _ & _ & _ & m' & Em).
    rewrite E in Ec. injection Ec as -> ->. exists (m ++ m'). by rewrite Hm, Em, app_assoc.
  Qed.
  (** the history of the cache, and what has become of the calls of completion callbacks *)
  Definition xinv (l : list xop) (x : xcache) : Prop :=
    (exists l', fine l' /\ after k l' (x_cache x) /\ forall w, cnt w (waiters l') <= cnt w (xwaiters l)) /\
    Permutation (x_done x ++ queued (x_jobs x)) (called (x_cache x)).
  Lemma xinv_init : xinv [] x_init.
  Proof using. split; [exists []; split_and!; try done|done]. Qed.
  Lemma fine_run l1 l2 (s : cache) : fine (l1 ++ l2) -> after k l1 s -> exists s', run k l2 s = Ok s' /\ after k (l1 ++ l2) s'.
  Proof using Hk.
    intros Hf Ha. destruct (fine_runs k Hk _ Hf) as (_ & s' & _ & Ha' & _). exists s'. split; [|done].
    apply after_app in Ha' as (s1 & Ha1 & R). assert (s1 = s) as -> by (unfold after in *; congruence). done.
  Qed.
  Lemma waiters_app l1 l2 : waiters (l1 ++ l2) = waiters l1 ++ waiters l2.
  Proof using. unfold waiters. by rewrite map_app, concat_app. Qed.
  Lemma xwaiters_app l1 l2 : xwaiters (l1 ++ l2) = xwaiters l1 ++ xwaiters l2.
  Proof using. unfold xwaiters. by rewrite map_app, concat_app. Qed.
  Lemma xstep_inv l o x : xfine_op o = true -> xinv l x -> exists x', xstep k o x = Ok x' /\ xinv (l ++ [o]) x'.
  Proof using Hk.
    intros Hf [(l' & Hf' & Ha & Hw) Hp]. destruct o as [o| |n body keep]; [|done|].
    - pose proof (outside_fine o Hf) as Ho. assert (fine (l' ++ [outside o])) as Hf2 by (apply fine_app; split; [done|by apply fine_one]).
      destruct (fine_run l' [outside o] _ Hf2 Ha) as (s' & R & Ha'). destruct (run_log _ _ _ _ Hf2 Ha R) as [m Hm].
      rewrite (run_cons k _ []) in R. unfold xstep. destruct (step k false (outside o) (x_cache x)) as [[s1 r]| | |] eqn:E; try done. injection R as ->.
      eexists. split; [reflexivity|]. split.
      + exists (l' ++ [outside o]). split_and!; [done|exact Ha'|]. intros w. rewrite waiters_app, xwaiters_app, !cnt_app. specialize (Hw w).
        unfold waiters at 2, xwaiters at 2. simpl map. simpl concat. rewrite !app_nil_r, outside_waiters. destruct o; lia.
      + simpl. rewrite (news_called (x_cache x) s') by (by exists m). rewrite !queued_app, queued_resolve, queued_done. simpl. rewrite app_assoc. by apply Permutation_app_tail.
    - unfold xstep. destruct (x_jobs x !! n) as [j|] eqn:Ej.
      2: { exists x. split; [done|]. split; [|done]. exists l'. split_and!; try done. intros w. rewrite xwaiters_app, cnt_app. specialize (Hw w). lia. }
      set (tl := match j with JResolve i => if keep then [] else [ODropCb i] | JDone _ _ _ => [] end).
      assert (fine (l' ++ (map inside body ++ tl))) as Hf2.
      { apply fine_app. split; [done|]. apply fine_app. split.
        - simpl in Hf. clear -Hf. unfold fine. induction body as [|o b IH]; [done|]. simpl in *. apply andb_true_iff in Hf as [H1 H2]. by rewrite H1, IH.
        - unfold tl. destruct j as [i|]; [|done]. by destruct keep. }
      destruct (fine_run l' _ _ Hf2 Ha) as (s' & R & Ha'). rewrite R. destruct (run_log _ _ _ _ Hf2 Ha R) as [m Hm].
      eexists. split; [reflexivity|]. split.
      + exists (l' ++ (map inside body ++ tl)). split_and!; [done|exact Ha'|]. intros w. rewrite !waiters_app, xwaiters_app, !cnt_app. specialize (Hw w).
        unfold xwaiters at 2. simpl map. simpl concat. rewrite app_nil_r. assert (cnt w (waiters tl) = 0) as ->; [|lia].
        unfold tl. destruct j as [i|]; [|done]. by destruct keep.
      + simpl. rewrite (news_called (x_cache x) s') by (by exists m). set (nw := news (x_cache x) s').
        rewrite <-Hp. rewrite <-(handlers_split id nw). change (fun b => negb (id b)) with negb.
        assert (queued (x_jobs x) = queued (take n (x_jobs x)) ++ match j with JDone w v e => [(w, v, e)] | JResolve _ => [] end ++ queued (drop (S n) (x_jobs x))) as ->.
        { rewrite <-(take_drop_middle _ _ _ Ej) at 1. change (j :: drop (S n) (x_jobs x)) with ([j] ++ drop (S n) (x_jobs x)). rewrite !queued_app. by destruct j. }
        rewrite !queued_app, queued_done. clear. set (a := match j with JResolve _ => _ | JDone _ _ _ => _ end).
        generalize (x_done x) (queued (take n (x_jobs x))) (queued (drop (S n) (x_jobs x))) (handlers negb nw) (handlers id nw). intros d t e hn hi.
        rewrite <-!app_assoc. apply Permutation_app_head. solve_Permutation.
  Qed.
  Lemma xrun_app l1 : forall l2 (x : xcache), xrun k (l1 ++ l2) x = (x <- xrun k l1 x;; xrun k l2 x).
  Proof using.
    induction l1 as [|o l1 IH]; intros l2 x; [done|]. simpl. destruct (xstep k o x) as [x1| | |]; try done. unfold rbind at 1 3. apply IH.
  Qed.
  Lemma xfine_app l1 l2 : xfine (l1 ++ l2) <-> xfine l1 /\ xfine l2.
  Proof using. unfold xfine. rewrite forallb_app, andb_true_iff. done. Qed.
  Lemma xrun_inv l2 : forall l1 x, xfine l2 -> xinv l1 x -> exists x', xrun k l2 x = Ok x' /\ xinv (l1 ++ l2) x'.
  Proof using Hk.
    induction l2 as [|o l2 IH]; intros l1 x Hf H; [exists x; split; [done|by rewrite app_nil_r]|].
    unfold xfine in Hf. simpl in Hf. apply andb_true_iff in Hf as [Hf1 Hf2]. destruct (xstep_inv l1 o x Hf1 H) as (x1 & E & H1).
    destruct (IH (l1 ++ [o]) x1 Hf2 H1) as (x2 & R & H2). exists x2. split; [|by rewrite <-app_assoc in H2]. simpl. rewrite E. exact R.
  Qed.
  Lemma x_safe l : xfine l -> exists x : xcache, xrun k l x_init = Ok x.
  Proof using Hk. intros Hf. destruct (xrun_inv l [] x_init Hf xinv_init) as (x & R & _). by exists x. Qed.
  Lemma x_inv l (x : xcache) : xfine l -> xrun k l x_init = Ok x -> xinv l x.
  Proof using Hk. intros Hf R. destruct (xrun_inv l [] x_init Hf xinv_init) as (x' & R' & H). rewrite R in R'. by injection R' as ->. Qed.
  Lemma x_one l o (x x' : xcache) : xrun k l x_init = Ok x -> xrun k (l ++ [o]) x_init = Ok x' -> xstep k o x = Ok x'.
  Proof using. intros R R'. rewrite xrun_app, R in R'. unfold rbind in R'. simpl in R'. destruct (xstep k o x); try done. Qed.
  Lemma news_app (s s' : cache) l : m_log (me s') = l ++ m_log (me s) -> news s s' = rev l.
  Proof using. intros E. unfold news. rewrite E, app_length. replace (_ - _) with (length l) by lia. by rewrite take_app. Qed.
  Lemma made_none (s s' : cache) : m_ncb (me s') = m_ncb (me s) -> made s s' = [].
  Proof using. intros E. unfold made. rewrite E, N.sub_diag. done. Qed.

  (** ** completions *)
  Lemma x_completed l i v us (x x' : xcache) : xfine l -> xrun k l x_init = Ok x -> xrun k (l ++ [XCall (OAssign i v us)]) x_init = Ok x' ->
    m_up (me (x_cache x)) = true -> in_flight (x_cache x) i -> (k_pointer k = true -> v ∉ m_dropped (me (x_cache x))) ->
    queued (x_jobs x') = queued (x_jobs x) ++ map (fun w => (w, v, 0%Z)) (waiting_on (x_cache x) i) /\ x_done x' = x_done x /\ ~ in_flight (x_cache x') i.
  Proof using Hk.
    intros Hf R R' Hup Hin Hv. destruct (x_inv l x Hf R) as [(l' & Hf' & Ha & _) _]. pose proof (x_one l _ x x' R R') as E. clear R R'.
    unfold xstep in E. simpl outside in E. destruct (step k false (OAssign i v []) (x_cache x)) as [[s' r]| | |] eqn:Es; try done. unfold rbind in E. injection E as <-. simpl.
    assert (after k (l' ++ [OAssign i v []]) s') as Ha'. { apply after_app. exists (x_cache x). split; [done|]. rewrite (run_cons k _ []), Es. done. }
    destruct (completed k Hk l' i v [] (x_cache x) s') as (_ & L & Hn); try done. { apply fine_app. by split. }
    rewrite !queued_app, queued_resolve, queued_done, (news_app _ _ _ L), rev_involutive. split_and!; try done. f_equal. simpl. clear.
    induction (waiting_on (x_cache x) i) as [|w q IH]; [done|]. unfold handlers in *. simpl. by rewrite IH.
  Qed.
  Lemma x_failed l i e us (x x' : xcache) : xfine l -> xrun k l x_init = Ok x -> xrun k (l ++ [XCall (OFail i e us)]) x_init = Ok x' ->
    m_up (me (x_cache x)) = true -> in_flight (x_cache x) i ->
    queued (x_jobs x') = queued (x_jobs x) ++ map (fun w => (w, 0%Z, e)) (waiting_on (x_cache x) i) /\ x_done x' = x_done x /\ ~ in_flight (x_cache x') i.
  Proof using Hk.
    intros Hf R R' Hup Hin. destruct (x_inv l x Hf R) as [(l' & Hf' & Ha & _) _]. pose proof (x_one l _ x x' R R') as E. clear R R'.
    unfold xstep in E. simpl outside in E. destruct (step k false (OFail i e []) (x_cache x)) as [[s' r]| | |] eqn:Es; try done. unfold rbind in E. injection E as <-. simpl.
    assert (after k (l' ++ [OFail i e []]) s') as Ha'. { apply after_app. exists (x_cache x). split; [done|]. rewrite (run_cons k _ []), Es. done. }
    destruct (failed k Hk l' i e [] (x_cache x) s') as (_ & L & Hn); try done. { apply fine_app. by split. }
    rewrite !queued_app, queued_resolve, queued_done, (news_app _ _ _ L), rev_involutive. split_and!; try done. f_equal. simpl. clear.
    induction (waiting_on (x_cache x) i) as [|w q IH]; [done|]. unfold handlers in *. simpl. by rewrite IH.
  Qed.

  Lemma x_dispatched l n j i v us (x x' : xcache) : xfine (l ++ [XRun n [OAssign i v us] true]) -> xrun k l x_init = Ok x -> xrun k (l ++ [XRun n [OAssign i v us] true]) x_init = Ok x' ->
    m_up (me (x_cache x)) = true -> in_flight (x_cache x) i -> (k_pointer k = true -> v ∉ m_dropped (me (x_cache x))) -> x_jobs x !! n = Some j ->
    x_done x' = x_done x ++ match j with JDone w v e => [(w, v, e)] | JResolve _ => [] end ++ map (fun w => (w, v, 0%Z)) (waiting_on (x_cache x) i) /\
    x_jobs x' = take n (x_jobs x) ++ drop (S n) (x_jobs x) /\ ~ in_flight (x_cache x') i.
  Proof using Hk.
    intros Hf R R' Hup Hin Hv Ej. apply xfine_app in Hf as [Hf Hfo]. destruct (x_inv l x Hf R) as [(l' & Hf' & Ha & _) _]. pose proof (x_one l _ x x' R R') as E. clear R R'.
    assert (fine_op false (inside (OAssign i v us)) = true) as Ho. { unfold xfine in Hfo. simpl in Hfo. rewrite !andb_true_r in Hfo. simpl. by rewrite Hfo. }
    unfold xstep in E. rewrite Ej in E. set (o := inside (OAssign i v us)) in *.
    replace (map inside [OAssign i v us] ++ _) with [o] in E by (by destruct j). rewrite (run_cons k o []) in E.
    destruct (step k false o (x_cache x)) as [[s' r]| | |] eqn:Es; try done. unfold rbind in E. simpl run in E. cbv iota beta in E. injection E as <-. simpl.
    assert (after k (l' ++ [o]) s') as Ha'. { apply after_app. exists (x_cache x). split; [done|]. rewrite (run_cons k _ []), Es. done. }
    destruct (completed k Hk l' i v (map (map inside) us) (x_cache x) s') as (_ & L & Hn); try done. { apply fine_app. split; [done|]. by apply fine_one. }
    rewrite (news_app _ _ _ L), rev_involutive. assert (handlers id (map (fun w => EvCall w v 0 false) (waiting_on (x_cache x) i)) = []) as ->.
    { clear. induction (waiting_on (x_cache x) i) as [|w q IH]; [done|]. unfold handlers in *. simpl. exact IH. }
    split_and!; [|by rewrite app_nil_r|done]. do 2 f_equal. clear. induction (waiting_on (x_cache x) i) as [|w q IH]; [done|]. unfold handlers in *. simpl. by rewrite IH.
  Qed.

  (** ** at most once, and the end *)
  Lemma count_called (l : list ev) w : length (List.filter (fun h => bool_decide (h.1.1 = w)) (handlers (fun _ => true) l)) + length (List.filter (fun v => match v with EvDrop w' => bool_decide (w' = w) | _ => false end) l) =
    length (List.filter (about w) l).
  Proof using.
    induction l as [|v l IH]; [done|]. change (v :: l) with ([v] ++ l). rewrite handlers_app, !List.filter_app, !app_length, <-IH. destruct v as [|w' y x i|w'|]; simpl; try lia; destruct (bool_decide (w' = w)); simpl; lia.
  Qed.
  Lemma x_once l (x : xcache) w : xfine l -> xrun k l x_init = Ok x ->
    runs w (x_done x ++ queued (x_jobs x)) + waiting w (x_cache x) <= cnt w (xwaiters l).
  Proof using Hk.
    intros Hf R. unfold runs. destruct (x_inv l x Hf R) as [(l' & Hf' & Ha & Hw) Hp].
    assert (forall l1 l2 : list (N * Z * Z), Permutation l1 l2 -> length (List.filter (fun h => bool_decide (h.1.1 = w)) l1) = length (List.filter (fun h => bool_decide (h.1.1 = w)) l2)) as Hpf.
    { clear. intros l1 l2 P. induction P; simpl; repeat case_match; simpl; lia. }
    rewrite (Hpf _ _ Hp). pose proof (deliveries_bound k Hk l' (x_cache x) w Hf' Ha) as Hd. specialize (Hw w).
    rewrite called_eq. pose proof (count_called (rev (m_log (me (x_cache x)))) w) as Hc. unfold deliveries in Hd.
    assert (length (List.filter (about w) (rev (m_log (me (x_cache x))))) = length (List.filter (about w) (m_log (me (x_cache x))))) as Hr.
    { clear. induction (m_log (me (x_cache x))) as [|v r IH]; [done|]. simpl. rewrite List.filter_app, app_length, IH. simpl. destruct (about w v); simpl; lia. }
    lia.
  Qed.
  Lemma xdone_run l2 : forall l1 (x x' : xcache), xfine l2 -> xinv l1 x -> xrun k l2 x = Ok x' ->
    exists l', forall l0, fine l0 -> after k l0 (x_cache x) -> fine (l0 ++ l') /\ after k (l0 ++ l') (x_cache x').
  Proof using Hk.
    induction l2 as [|o l2 IH]; intros l1 x x' Hf H R; [injection R as <-; exists []; intros l0; by rewrite app_nil_r|].
    unfold xfine in Hf. simpl in Hf. apply andb_true_iff in Hf as [Hf1 Hf2]. destruct (xstep_inv l1 o x Hf1 H) as (x1 & E & H1).
    simpl in R. rewrite E in R. unfold rbind in R. destruct (IH (l1 ++ [o]) x1 x' Hf2 H1 R) as [l' Hl']. clear IH.
    assert (exists lo, fine lo /\ run k lo (x_cache x) = Ok (x_cache x1)) as (lo & Hfo & Ro).
    { destruct o as [o| |n body keep]; [| done |]; unfold xstep in E.
      - exists [outside o]. split; [apply fine_one; by apply outside_fine|]. rewrite (run_cons k _ []). destruct (step k false (outside o) (x_cache x)) as [[s' r]| | |]; try done. injection E as <-. done.
      - destruct (x_jobs x !! n) as [j|]; [|injection E as <-; by exists []].
        set (lo := map inside body ++ _) in E. exists lo. split.
        + unfold lo. apply fine_app. split.
          * simpl in Hf1. clear -Hf1. unfold fine. induction body as [|o b IH]; [done|]. simpl in *. apply andb_true_iff in Hf1 as [H1 H2]. by rewrite H1, IH.
          * destruct j as [i|]; [|done]. by destruct keep.
        + destruct (run k lo (x_cache x)) as [s'| | |]; try done. injection E as <-. done. }
    exists (lo ++ l'). intros l0 Hf0 Ha0. rewrite app_assoc. apply Hl'; [by apply fine_app|]. apply after_app. by exists (x_cache x).
  Qed.
  Lemma x_destroyed l1 l2 (x : xcache) : xfine (l1 ++ XCall ODestroy :: l2) -> xrun k (l1 ++ XCall ODestroy :: l2) x_init = Ok x ->
    (forall e, entry (x_cache x) e -> outstanding (x_cache x) e) /\ (m_cbs (me (x_cache x)) = ∅ -> m_els (me (x_cache x)) = ∅) /\ (forall w, waiting w (x_cache x) = 0).
  Proof using Hk.
    intros Hf R. apply xfine_app in Hf as [Hf1 Hf2]. change (XCall ODestroy :: l2) with ([XCall ODestroy] ++ l2) in *. rewrite xrun_app in R.
    destruct (xrun k l1 x_init) as [x1| | |] eqn:R1; try done. unfold rbind in R. pose proof (x_inv l1 x1 Hf1 R1) as H1. destruct H1 as [(l' & Hf' & Ha & Hw) Hp].
    rewrite xrun_app in R. destruct (xrun k [XCall ODestroy] x1) as [x2| | |] eqn:R2; try done. unfold rbind in R.
    apply xfine_app in Hf2 as [_ Hf2].
    assert (xinv (l1 ++ [XCall ODestroy]) x2) as H2. { destruct (xstep_inv l1 (XCall ODestroy) x1 eq_refl) as (x2' & E & H2); [split; [by exists l'|done]|]. change (xrun k [XCall ODestroy] x1) with (x <- xstep k (XCall ODestroy) x1;; Ok x) in R2. rewrite E in R2. injection R2 as <-. done. }
    destruct (xdone_run l2 _ x2 x Hf2 H2 R) as [l3 Hl3].
    assert (after k (l' ++ [ODestroy]) (x_cache x2)) as Ha2.
    { apply after_app. exists (x_cache x1). split; [done|]. change (xrun k [XCall ODestroy] x1) with (x <- xstep k (XCall ODestroy) x1;; Ok x) in R2. unfold xstep in R2. change (outside ODestroy) with ODestroy in R2. rewrite (run_cons k _ []). destruct (step k false ODestroy (x_cache x1)) as [[s' r]| | |]; try done. injection R2 as <-. done. }
    destruct (Hl3 (l' ++ [ODestroy])) as [Hf3 Ha3]; [apply fine_app; by split|done|]. rewrite <-app_assoc in *.
    destruct (destroyed k Hk l' l3 (x_cache x1) (x_cache x) Hf3 Ha Ha3) as (D1 & D2 & D3 & _). done.
  Qed.

  (** ** async_get *)
  Notation srel := (srel comp_abs comp_ptr crel).
  Notation look := (looki k).
  Context (Hta : tame k) (Hq : eq_ok k).
  (** what a call with a resolver and a handler that are queued does *)
  Lemma aget_queued (s s' : sta) w key script keep throw r : ready k s -> m_up (me s) = true -> k_resolver k = RAsync -> look s key true <> R0 ->
    step k false (OAGet w key script keep throw []) s = Ok (s', r) -> m_ncb (me s') = m_ncb (me s).
  Proof using Hk Hta.
    intros R Hup Hr E. destruct (ready_facts k s R Hup) as (Hi & Ht & HJ & Hu). rewrite step_aget by done.
    pose proof (get_answer k g0 s key true Hta Hi Ht HJ) as Ha.
    pose proof (v_ncb _ _ (env_get k s key true)) as N1. unfold async_get. rewrite (proj1 (get_ends k g0 s key true Hi Ht)).
    assert (exists e q, (f_get k s key true).2 = Some (e, q) /\ (f_find k s key true).2 = Some (e, q)) as (e & q & Eg & Ef).
    { rewrite (get_result k). destruct (look s key true) as [|u|u|]; try done; destruct Ha as [e Ha]; rewrite Ha; eauto. }
    destruct (f_get k s key true) as [s1 r1]. simpl in *. subst r1. unfold rbind at 1. unfold async_finish. destruct q as [|v|u|]; simpl.
    - intros [= <- <-]. simpl. done.
    - intros [= <- <-]. by rewrite (v_ncb _ _ (env_give k _ _)).
    - intros [= <- <-]. done.
    - unfold s_upd, upd_el. destruct (rd_el (me s1) e) as [el| | |]; simpl; try done. intros [= <- <-]. done.
  Qed.
  Lemma aget_made (s s' : sta) w key r : ready k s -> m_up (me s) = true -> k_resolver k = RAsync -> look s key true = R0 ->
    step k false (OAGet w key [] true false []) s = Ok (s', r) -> m_ncb (me s') = N.succ (m_ncb (me s)).
  Proof using Hk Hta.
    intros R Hup Hr E. destruct (ready_facts k s R Hup) as (Hi & Ht & HJ & Hu). rewrite step_aget by done.
    pose proof (get_answer k g0 s key true Hta Hi Ht HJ) as Ha. rewrite E in Ha.
    destruct (find_ends k g0 s key true Hi Ht) as (_ & I1 & X1 & T1). set (sm := (f_find k s key true).1) in *.
    assert (env s sm) as V by apply env_find.
    destruct (apre_ends k g0 sm key I1 T1 eq_refl) as (I2 & X2 & T2 & H2 & Hel2 & _ & _ & Er). destruct (apre_env k sm key) as (_ & N2 & C2).
    unfold async_get. rewrite (proj1 (get_ends k g0 s key true Hi Ht)), (get_miss k s key true Ha). fold sm. simpl rbind. rewrite Er. simpl rbind.
    set (e := m_nxt (me sm)) in *. set (i := m_ncb (me sm)) in *. set (sp := f_apre k sm key) in *. clearbody sp.
    rewrite C2, lookup_insert. simpl rbind. unfold cb_holders. change (m_cbs (me (s_log sp (EvResolve key)))) with (m_cbs (me sp)).
    rewrite C2, lookup_insert. simpl rbind.
    set (sq := with_me (s_log sp (EvResolve key)) _). assert (m_els (me sq) !! e = Some (with_rc (fresh_el key (MPend pend_init)) 3)) as Hq1 by exact Hel2.
    unfold s_el, rd_el. rewrite Hq1. simpl rbind. change (m_get _ true _) with RP. unfold async_finish, s_upd, upd_el, rd_el. rewrite Hq1. simpl rbind.
    unfold drop_ref, s_el, rd_el. simpl me. simpl m_els. rewrite lookup_insert. simpl. unfold s_upd, upd_el, rd_el. simpl. rewrite lookup_insert. simpl.
    intros [= <- <-]. simpl. rewrite N2. unfold i. by rewrite (v_ncb _ _ V).
  Qed.
  Lemma x_step l o (x : xcache) s' r : xfine l -> xrun k l x_init = Ok x -> fine_op false o = true -> step k false o (x_cache x) = Ok (s', r) ->
    exists l', fine (l' ++ [o]) /\ after k l' (x_cache x) /\ after k (l' ++ [o]) s'.
  Proof using Hk.
    intros Hf R Ho E. destruct (x_inv l x Hf R) as [(l' & Hf' & Ha & _) _]. exists l'. split_and!; [apply fine_app; split; [done|by apply fine_one]|done|].
    apply after_app. exists (x_cache x). split; [done|]. rewrite (run_cons k _ []), E. done.
  Qed.
  Lemma x_async_get l w key script keep throw imm (x x' : xcache) : k_resolver k = RAsync -> xfine l -> xrun k l x_init = Ok x ->
    xrun k (l ++ [XCall (OAGet w key script keep throw imm)]) x_init = Ok x' -> m_up (me (x_cache x)) = true ->
    x_done x' = x_done x /\
    match peek k (x_cache x) key with
    | Some v => x_jobs x' = x_jobs x ++ [JDone w v 0]
    | None =>
      (exists i, underway k (x_cache x) i key /\ x_jobs x' = x_jobs x /\ waiting_on (x_cache x') i = waiting_on (x_cache x) i ++ [w]) \/
      (forall i, ~ underway k (x_cache x) i key) /\
      exists i, x_jobs x' = x_jobs x ++ [JResolve i] /\ underway k (x_cache x') i key /\ waiting_on (x_cache x') i = [w] /\ m_cbs (me (x_cache x)) !! i = None
    end.
  Proof using Hk Hta Hq.
    intros Hr Hf R R' Hup. pose proof (x_one l _ x x' R R') as E. clear R'.
    unfold xstep in E. simpl outside in E. set (o := OAGet w key [] true false []) in *. destruct (step k false o (x_cache x)) as [[s' r]| | |] eqn:Es; try done. unfold rbind in E. injection E as <-. simpl. split; [done|].
    destruct (x_step l o x s' r Hf R eq_refl Es) as (l' & Hf2 & Ha & Ha'). pose proof Hf2 as Hf3. apply fine_app in Hf3 as [Hf' _].
    destruct (after_ready k Hk Hta Hq l' (x_cache x) Hf' Ha) as (sa & S & Rd). pose proof (look_up sa _ S) as U. rewrite Hup in U. symmetry in U. pose proof (srel_me sa _ S) as M.
    assert (exists sa', step k false o sa = Ok (sa', r) /\ srel sa' s') as (sa' & Ea & S').
    { destruct (top_step k Hk o sa (proj1 Rd) eq_refl) as (s1 & r1 & E1 & _). destruct (step_c k _ _ _ _ _ _ S E1) as (s2 & E2 & S2). rewrite Es in E2. injection E2 as <- <-. by exists s1. }
    pose proof (srel_me sa' _ S') as M'. destruct (ready_facts k sa Rd U) as (Hi & Htn & HJ & _).
    destruct (peek k (x_cache x) key) as [v|] eqn:Hp.
    - pose proof (peek_some k Hta sa _ key v S Rd U Hp) as El. destruct (aget_hit k Hk Hta Hq sa w key [] true false [] v Rd U Hr eq_refl El) as (sa2 & l2 & Es2 & L2 & Hl2).
      fold o in Es2. rewrite Ea in Es2. injection Es2 as <- _. rewrite Hl2 in L2 by done.
      assert (m_ncb (me sa') = m_ncb (me sa)) as Hn. { eapply aget_queued; [done|done|done| |exact Ea]. intros E0. destruct (ready_facts k sa Rd U) as (_ & _ & _ & Hu). by rewrite (look_false k Hta Hq g0 sa key v Hi Htn HJ Hu El) in E0. }
      rewrite made_none by (rewrite <-M, <-M'; done). rewrite (news_app _ _ [EvCall w v 0 true]) by (rewrite <-M, <-M', L2; done). done.
    - pose proof (peek_none k Hta sa _ key S Rd U Hp) as El. destruct (look_kinds k sa key true) as [E'|[[u Eu]|[_ E']]].
      + right. assert (forall i, ~ underway k (x_cache x) i key) as Hnu.
        { intros i Hu. destruct (underway_open k sa _ i key S (proj1 Rd) Hup Hu) as [_ [e Ho]]. by apply (open_look k Hq sa i e key Rd U Ho). }
        split; [done|]. destruct (aget_new k Hk Hta Hq sa w key [] Rd U Hr E') as (sa2 & e & Es2 & L2 & Ho & HW). fold o in Es2. rewrite Ea in Es2. injection Es2 as <- _.
        pose proof (aget_made sa sa' w key r Rd U Hr E' Ea) as Hn. exists (m_ncb (me sa)). rewrite (news_app _ _ [EvResolve key]) by (rewrite <-M, <-M', L2; done).
        assert (made (x_cache x) s' = [m_ncb (me sa)]) as ->. { unfold made. rewrite <-M, <-M', Hn. replace (N.to_nat (N.succ (m_ncb (me sa)) - m_ncb (me sa))) with 1 by lia. simpl. by rewrite N.add_0_r. }
        destruct Ho as (c & el & p & Hc & Hcc & He & Hel & Em & Ep & Ek). split_and!; [done|..].
        * exists c, el, p. rewrite <-M', He. done.
        * unfold waiting_on. rewrite <-M', Hc, He. exact HW.
        * rewrite <-M. destruct (m_cbs (me sa) !! m_ncb (me sa)) eqn:Ec; [|done]. destruct Rd as [[Hi' _ _] _]. pose proof (i_ncb _ _ _ Hi' (m_ncb (me sa)) ltac:(eauto)). lia.
      + apply (look_true k) in Eu. congruence.
      + left. destruct (look_open k sa key Hta HJ Hr E') as (i & Ho). assert (underway k (x_cache x) i key) as Hu by (by eapply open_underway). exists i. split; [done|].
        pose proof (joins k Hk Hta Hq l' i w key [] true false [] (x_cache x) s' Hr Hf2 Ha Ha' Hup Hu) as Hj. rewrite Hp in Hj. destruct Hj as [L2 HW].
        assert (m_ncb (me sa') = m_ncb (me sa)) as Hn by (eapply aget_queued; [done|done|done| |exact Ea]; congruence).
        rewrite made_none by (rewrite <-M, <-M'; done). rewrite (news_app _ _ []) by done. split; [by rewrite app_nil_r|].
        rewrite HW; [by rewrite decide_True|]. destruct Hu as (c & _ & _ & Hc & Hcc & _). by exists c.
  Qed.
  (** on the executor: what is at hand is not given to the caller before its own job has ended *)
  Lemma x_posted l n w key script keep throw imm j v (x x' : xcache) : k_resolver k = RAsync -> xfine (l ++ [XRun n [OAGet w key script keep throw imm] true]) -> xrun k l x_init = Ok x ->
    xrun k (l ++ [XRun n [OAGet w key script keep throw imm] true]) x_init = Ok x' -> m_up (me (x_cache x)) = true -> x_jobs x !! n = Some j -> peek k (x_cache x) key = Some v ->
    x_jobs x' = take n (x_jobs x) ++ drop (S n) (x_jobs x) ++ [JDone w v 0] /\ x_done x' = x_done x ++ match j with JDone w v e => [(w, v, e)] | JResolve _ => [] end.
  Proof using Hk Hta Hq.
    intros Hr Hf R R' Hup Ej Hp. pose proof (x_one l _ x x' R R') as E. clear R'. apply xfine_app in Hf as [Hf Hfo].
    assert (fine_op false (inside (OAGet w key script keep throw imm)) = true) as Ho. { unfold xfine in Hfo. simpl in Hfo. rewrite !andb_true_r in Hfo. simpl. by rewrite Hfo. }
    unfold xstep in E. rewrite Ej in E. set (o := inside (OAGet w key script keep throw imm)) in *.
    replace (map inside [OAGet w key script keep throw imm] ++ _) with [o] in E by (by destruct j). rewrite (run_cons k o []) in E.
    destruct (step k false o (x_cache x)) as [[s' r]| | |] eqn:Es; try done. unfold rbind in E. simpl run in E. cbv iota beta in E. injection E as <-. simpl.
    destruct (x_step l o x s' r Hf R Ho Es) as (l' & Hf2 & Ha & Ha'). apply fine_app in Hf2 as [Hf' _].
    destruct (after_ready k Hk Hta Hq l' (x_cache x) Hf' Ha) as (sa & S & Rd). pose proof (look_up sa _ S) as U. rewrite Hup in U. symmetry in U. pose proof (srel_me sa _ S) as M.
    pose proof (peek_some k Hta sa _ key v S Rd U Hp) as El. destruct (aget_hit k Hk Hta Hq sa w key (map inside script) keep throw [] v Rd U Hr eq_refl El) as (sa2 & l2 & Es2 & L2 & Hl2).
    destruct (step_c k _ _ _ _ _ _ S Es2) as (s2 & E2 & S2). change o with (OAGet w key (map inside script) keep throw []) in Es. rewrite Es in E2. injection E2 as <- _. rewrite Hl2 in L2 by done.
    rewrite (news_app _ _ [EvCall w v 0 true]) by (rewrite <-M, <-(srel_me _ _ S2), L2; done). simpl. by rewrite app_nil_r.
  Qed.
End x.
