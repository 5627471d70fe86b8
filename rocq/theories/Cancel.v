(** Lookups that are given up: [cancel] and the end of the resolver's callback (lemmas for
    PropertiesAnswers.v). *)
From stdpp Require Import sorting.
From Verif Require Import Base AQueue ATable BasicHashtable QueueProofs BasicHashtableProofs ContainersProofs Mapped Cache CachePtr CacheAbs CompSim CacheSim AbsInv AbsPrim AbsPrim2 AbsSweep AbsOps AbsComp Histories Trace AbsTrace TraceInv Delay AbsTraceCb AbsResolve AbsStep AbsLook Effects Observe Transfer Lookups Waiters Answers Calls.

Section cancel.
  Context (k : cfg) (Hk : fine_cfg k).
  Notation srel := (srel comp_abs comp_ptr crel).
  Notation top := (top k).

  Lemma drops_log ps : forall (s : sta), m_log (me (f_drops s ps)) = rev (map EvDrop (waits_of ps)) ++ m_log (me s).
  Proof using.
    induction ps as [|p ps IH]; intros s; [done|]. unfold f_drops in *. simpl. rewrite IH. unfold waits_of. simpl. rewrite map_app, rev_app_distr, <-app_assoc. f_equal.
    destruct p as [w|n o]; simpl; [done|]. by destruct (f_dec_me s o) as (_ & _ & -> & _).
  Qed.
  Lemma cancel_log (s : sta) e el p : m_els (me s) !! e = Some el -> el_map el = MPend p ->
    m_log (me (f_cancel s e)) = rev (map EvDrop (waits_of (p_cbq p))) ++ m_log (me s).
  Proof using.
    intros He Em. unfold f_cancel. rewrite He, Em, drops_log. f_equal. by destruct (p_upd_me s e (fun el => with_map el (MPend (p_cancel p)))) as (_ & _ & -> & _).
  Qed.
  Lemma ndone_drops q w : ndone (rev (map EvDrop q)) w = cnt w q.
  Proof using. induction q as [|x q IH]; [done|]. simpl. rewrite ndone_app, IH, cnt_cons. unfold ndone; simpl. lia. Qed.
  Definition gives_up (i : N) (o : op) : Prop := o = OCancel i \/ o = ODropCb i.
  Lemma given_up_abs (s : sta) i o c el p : inv k g0 s -> m_up (me s) = true -> gives_up i o -> m_cbs (me s) !! i = Some c -> cb_called c = false ->
    m_els (me s) !! cb_el c = Some el -> el_map el = MPend p ->
    exists s' r, step k false o s = Ok (s', r) /\ ext [] g0 s g0 s' /\ m_log (me s') = rev (map EvDrop (waits_of (p_cbq p))) ++ m_log (me s) /\
      (forall c', m_cbs (me s') !! i = Some c' -> cb_called c' = true /\ cb_el c' = cb_el c /\ o = OCancel i) /\
      (o = OCancel i -> r = RetBool true /\ exists el', m_els (me s') !! cb_el c = Some el' /\ cbq_of (el_map el') = []).
  Proof using.
    intros Hi Hup Ho Hc Hcc Hel Em. pose proof (i_cb _ _ _ Hi i c Hc Hcc) as (Hp & _); [apply not_elem_of_nil|].
    assert (exists s1, cb_cancel s i c = Ok (s1, true) /\ m_log (me s1) = rev (map EvDrop (waits_of (p_cbq p))) ++ m_log (me s) /\ exists el', m_els (me s1) !! cb_el c = Some el' /\ cbq_of (el_map el') = []) as (s1 & E1 & L1 & Q1).
    { unfold cb_cancel. rewrite Hcc. destruct (cancel_ends k g0 s (cb_el c) Hi) as (E & _ & _); [eauto|done|]. rewrite E. simpl.
      eexists. split; [done|]. simpl. split; [by eapply cancel_log|]. destruct (f_cancel_self k g0 s (cb_el c) el Hi Hel) as (el' & H1 & H2 & _). eauto. }
    rewrite step_eq. unfold step_with. rewrite Hup. destruct Ho as [-> | ->]; simpl.
    - rewrite Hc. destruct (cb_cancel_ends k g0 s i c Hi Hc) as (s2 & b & E & _ & X & C & Hb & _); [apply not_elem_of_nil|]. assert (s2 = s1) as -> by congruence. rewrite E. simpl.
      eexists _, _. split; [done|]. split_and!; try done.
      + intros c' Hc'. rewrite C in Hc'. by injection Hc' as <-.
      + intros _. split; [|done]. by rewrite Hb, Hcc.
    - rewrite Hc. assert (cb_own c = false) as How. { destruct (cb_own c) eqn:E; [|done]. pose proof (i_held _ _ _ Hi i c Hc E) as H. by apply elem_of_nil in H. }
      destruct (cb_holders_ends k g0 g0 s i c (cb_own c) false Hi Hc) as (s2 & E & _ & X & _); try done; [apply not_elem_of_nil|by intros ???%elem_of_nil|].
      rewrite E. simpl. eexists _, _. split; [done|]. split; [done|]. revert E. unfold cb_holders. rewrite Hc, How. simpl. rewrite E1. simpl.
      unfold drop_ref at 1. intros E. assert (m_log (me s2) = m_log (me s1) /\ m_cbs (me s2) = delete i (m_cbs (me s1))) as [L2 C2].
      { destruct (cb_cancel_ends k g0 s i c Hi Hc) as (s3 & b & E3 & I3 & _ & C3 & _); [apply not_elem_of_nil|]. assert (s3 = s1) as -> by congruence.
        pose proof (cb_del k g0 g0 s1 i _ I3 C3) as I4. destruct (drop_ok k g0 (f_cbs s1 (delete i (m_cbs (me s1)))) (cb_el c)) as (E4 & _); [apply I4; try done; by intros ??%elem_of_nil|].
        unfold f_cbs in E4. unfold drop_ref at 1 in E4. rewrite E in E4. injection E4 as ->. destruct (f_dec_me (with_me s1 (set_cbs (me s1) (delete i (m_cbs (me s1))))) (cb_el c)) as (_ & -> & -> & _). done. }
      split; [by rewrite L2|]. split; [|done]. rewrite C2, lookup_delete. done.
  Qed.
  Lemma given_up l o i sc sc' : fine (l ++ [o]) -> after k l sc -> after k (l ++ [o]) sc' -> m_up (me sc) = true -> gives_up i o -> in_flight sc i ->
    m_log (me sc') = rev (map EvDrop (waiting_on sc i)) ++ m_log (me sc) /\ ~ in_flight sc' i /\ waiting_on sc' i = [] /\
    forall w, waiting w sc = waiting w sc' + length (filter (fun x => x = w) (waiting_on sc i)).
  Proof using Hk.
    intros Hf Ha Ha' Hup Ho Hin. destruct (after_snoc k Hk l o sc sc' Hf Ha Ha') as (sa & sa' & r & S & S' & T & T' & E & Ec).
    destruct (flight_opened k sa sc i S T Hup Hin) as (key & _ & Hop). destruct Hop as (c & el & p & Hc & Hcc & Tv & Em & Hq & _).
    apply tv_elim in Tv as (_ & el0 & Hel & ->). simpl in Em. destruct T as [Hi _ _]. pose proof (look_up sa sc S) as U. rewrite Hup in U. symmetry in U.
    destruct (given_up_abs sa i o c el0 p Hi U Ho Hc Hcc Hel Em) as (s2 & r2 & E2 & X & L & C & Hca). rewrite E in E2. injection E2 as <- <-. split_and!.
    - by rewrite <-(srel_me _ _ S'), <-(srel_me _ _ S), <-Hq.
    - intros (d & Hd & Hdc). rewrite <-(srel_me _ _ S') in Hd. destruct (C d Hd) as [? _]. congruence.
    - unfold waiting_on. rewrite <-(srel_me _ _ S'). destruct (m_cbs (me sa') !! i) as [d|] eqn:Hd; [|done]. destruct (C d eq_refl) as (_ & -> & Ho'). destruct (Hca Ho') as (_ & el' & -> & Q).
      unfold stored_waiters. destruct (el_map el') as [p'| | | | |]; try done. simpl in Q. by rewrite Q.
    - intros w. rewrite (waiting_nwait sa sc w S), (waiting_nwait sa' sc' w S'). pose proof (x_wait _ _ _ _ _ X w) as Hw. unfold wtot in Hw. rewrite L, ndone_app, ndone_drops, Hq in Hw. unfold cnt in Hw. simpl in Hw. lia.
  Qed.
  (** ** the key can be asked for again *)
  Lemma look_open (s : sta) key : tame k -> J k s -> k_resolver k = RAsync -> looki k s key true = RP -> exists i, open_tv k s i key.
  Proof using.
    intros Ht HJ Hr E. unfold looki in E. apply firstv_split in E as (l1 & x & l2 & Eq & Hx & _); [|done]. unfold cand in Hx.
    destruct (tv s x) as [el|] eqn:T; [|done]. destruct (k_eq k (el_key el) key) eqn:Ek; [|done].
    assert (exists p, el_map el = MPend p /\ p_exp p = false) as (p & Em & Ep).
    { unfold vis in Hx. destruct (el_map el) as [p| |[]| | |]; try done; try (by destruct (late _ _)). exists p. split; [done|]. by destruct (p_exp p). }
    destruct (j_open _ _ HJ x el p Hr T Em Ep) as (i & c & Hc & Hcc & He). exists i, c, el, p. by rewrite He.
  Qed.
  Lemma asked_again l w key sc sc' : tame k -> eq_ok k -> k_resolver k = RAsync -> fine l -> after k l sc -> after k (l ++ [OAGet w key [] true false []]) sc' -> m_up (me sc) = true ->
    peek k sc key = None -> (forall i, ~ underway k sc i key) -> m_log (me sc') = EvResolve key :: m_log (me sc).
  Proof using Hk.
    intros Ht Hq Hr Hf Ha Ha' Hup Hp Hn. destruct (after_ready k Hk Ht Hq l sc Hf Ha) as (sa & S & R). pose proof (look_up sa sc S) as U. rewrite Hup in U. symmetry in U. pose proof (srel_me sa sc S) as M.
    destruct (ready_facts k sa R U) as (Hi & Htn & HJ & _).
    destruct (look_kinds k sa key true) as [E'|[[u Eu]|[_ E']]].
    - destruct (aget_new k Hk Ht Hq sa w key [] R U Hr E') as (sa' & e & Es & L' & _). destruct (step_c k _ _ _ _ _ _ S Es) as (sc2 & Ec2 & S').
      rewrite (after_step k l _ sc sc' sc2 RetNone Ha Ha' Ec2). by rewrite <-(srel_me _ _ S'), L', M.
    - apply (look_true k) in Eu. pose proof (peek_none k Ht sa sc key S R U Hp). congruence.
    - destruct (look_open sa key Ht HJ Hr E') as (i & Ho). destruct (Hn i). by eapply open_underway.
  Qed.
  Lemma free_again l o i w key sc sc' sc2 : tame k -> eq_ok k -> k_resolver k = RAsync -> fine (l ++ [o]) -> gives_up i o -> after k l sc -> after k (l ++ [o]) sc' ->
    after k ((l ++ [o]) ++ [OAGet w key [] true false []]) sc2 -> m_up (me sc) = true -> in_flight sc i -> peek k sc' key = None -> (forall j, j <> i -> ~ underway k sc' j key) ->
    m_log (me sc2) = EvResolve key :: m_log (me sc').
  Proof using Hk.
    intros Ht Hq Hr Hf Ho Ha Ha' Ha2 Hup Hin Hp Hn. destruct (given_up l o i sc sc' Hf Ha Ha' Hup Ho Hin) as (_ & Hni & _).
    apply (asked_again (l ++ [o]) w key sc' sc2 Ht Hq Hr Hf Ha' Ha2); [|done|].
    - destruct (after_snoc k Hk l o sc sc' Hf Ha Ha') as (sa & sa' & r & S & S' & T & T' & E & Ec). rewrite (look_up sa' sc' S'). apply fine_app in Hf as [_ Hf%fine_one].
      rewrite (step_up k Hk sa sa' _ _ T Hf ltac:(by destruct Ho as [-> | ->]) E). by rewrite <-(look_up sa sc S).
    - intros j Hu. destruct (decide (j = i)) as [->|Hne]; [|by apply (Hn j)]. apply Hni. destruct Hu as (c & _ & _ & Hc & Hcc & _). by exists c.
  Qed.
End cancel.
