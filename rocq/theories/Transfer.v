(** From the list-level cache to the pointer-level one. *)
From Verif Require Import Base BasicHashtable Mapped Cache CachePtr CacheAbs CompSim CacheSim AbsInv AbsPrim AbsPrim2 AbsSweep AbsOps AbsComp AbsResolve Histories AbsStep Effects Observe.

Section transfer.
  Context (k : cfg) (Hk : fine_cfg k).
  Notation srel := (srel comp_abs comp_ptr crel).
  Notation top := (top k).

  Lemma srel_me (sa : sta) (sc : cache) : srel sa sc -> me sa = me sc.
  Proof. by intros []. Qed.
  Lemma run_app_c l1 l2 (s : cache) : run k (l1 ++ l2) s = (s <- run k l1 s;; run k l2 s).
  Proof.
    revert s. induction l1 as [|o l1 IH]; intros s; simpl; [done|]. destruct (step k false o s) as [[s1 r]| | |]; simpl; [apply IH|done..].
  Qed.

  Lemma run_cons {C : comp} o l (s : @st C) : run k (o :: l) s = ('(s, _) <- step k false o s;; run k l s).
  Proof. done. Qed.
  Lemma step_c o nested (sa sa' : sta) r (sc : cache) : srel sa sc -> step k nested o sa = Ok (sa', r) ->
    exists sc', step k nested o sc = Ok (sc', r) /\ srel sa' sc'.
  Proof.
    intros H E. pose proof (h_step k _ _ _ comp_ptr_sim o nested sa sc H) as Hs. rewrite E in Hs.
    destruct Hs as ([sc' r'] & E' & H'). inversion H'; subst. eexists. split; [exact E'|by constructor].
  Qed.
  Lemma run_c l (sa sa' : sta) (sc : cache) : srel sa sc -> run k l sa = Ok sa' ->
    exists sc', run k l sc = Ok sc' /\ srel sa' sc'.
  Proof.
    intros H E. pose proof (h_run k _ _ _ comp_ptr_sim l sa sc H) as Hs. rewrite E in Hs. exact Hs.
  Qed.

  (** every fine history runs, on both levels *)
  Theorem fine_runs l : fine l -> exists (sa : sta) (sc : cache),
    run k l st_init = Ok sa /\ after k l sc /\ srel sa sc /\ top sa /\
    (forall w, wtot g0 sa w <= cnt w (waiters l)).
  Proof.
    intros Hf. destruct (top_run k Hk l st_init (top_init k) Hf) as (sa & E & T & W & _).
    destruct (run_c l st_init sa st_init (h_init _ _ _ comp_ptr_sim) E) as (sc & Ec & S).
    exists sa, sc. split_and!; try done. intros w. specialize (W w). unfold wtot in *. simpl in *.
    unfold ndone, nwait, msum in *. simpl in *. rewrite map_fold_empty, cnt_nil in W. rewrite cnt_nil. lia.
  Qed.
  Lemma after_abs l sc : fine l -> after k l sc -> exists sa : sta,
    run k l st_init = Ok sa /\ srel sa sc /\ top sa /\ (forall w, wtot g0 sa w <= cnt w (waiters l)).
  Proof.
    intros Hf Ha. destruct (fine_runs l Hf) as (sa & sc' & E & Ha' & S & T & W).
    assert (sc' = sc) as -> by (unfold after in *; congruence). eauto.
  Qed.
  Lemma fine_app l1 l2 : fine (l1 ++ l2) <-> fine l1 /\ fine l2.
  Proof. unfold fine. rewrite forallb_app, andb_true_iff. done. Qed.
  Lemma fine_one o : fine [o] <-> fine_op false o = true.
  Proof. unfold fine. simpl. by rewrite andb_true_r. Qed.
  Lemma after_app l1 l2 s : after k (l1 ++ l2) s <-> exists s1, after k l1 s1 /\ run k l2 s1 = Ok s.
  Proof.
    unfold after. rewrite run_app_c. destruct (run k l1 st_init) as [s1| | |]; simpl; split; try naive_solver.
  Qed.

  (** one more operation *)
  Lemma fine_step o (sa : sta) (sc : cache) : fine_op false o = true -> srel sa sc -> top sa ->
    exists sa' sc' r, step k false o sa = Ok (sa', r) /\ step k false o sc = Ok (sc', r) /\ srel sa' sc' /\ top sa' /\
      (forall w, wtot g0 sa w <= wtot g0 sa' w <= wtot g0 sa w + cnt w (op_waiters o)) /\
      (exists l, m_log (me sc') = l ++ m_log (me sc)).
  Proof.
    intros Hf S T. destruct (top_step k Hk o sa T Hf) as (sa' & r & E & T' & W & [l L] & _).
    destruct (step_c o false sa sa' r sc S E) as (sc' & Ec & S'). exists sa', sc', r. split_and!; try done.
    exists l. by rewrite <-(srel_me _ _ S), <-(srel_me _ _ S').
  Qed.

  (** ** observers *)
  Lemma deliveries_ndone (sa : sta) (sc : cache) w : srel sa sc -> length (deliveries w sc) = ndone (m_log (me sa)) w.
  Proof.
    intros S. rewrite (srel_me _ _ S). unfold deliveries, ndone. induction (m_log (me sc)) as [|v l IH]; simpl; [done|].
    destruct v as [|w' v x i|w'|]; simpl; [done|..|done]; (rewrite <-IH; destruct (decide (w' = w)); [rewrite bool_decide_true by done|rewrite bool_decide_false by done]; done).
  Qed.
  Lemma spared_un (sa sa' : sta) (sc sc' : cache) key : srel sa sc -> srel sa' sc' -> spared k sc sc' key -> unevicted k sa sa' key.
  Proof. intros S S' [H|H]; [by left|right]. rewrite (srel_me _ _ S), (srel_me _ _ S'). unfold evictions in H. unfold nevict. lia. Qed.
  Lemma unevicted_split (s s1 s' : sta) key l : top s1 -> forallb (fine_op false) l = true -> run k l s1 = Ok s' -> nevict k (m_log (me s)) key <= nevict k (m_log (me s1)) key ->
    unevicted k s s' key -> unevicted k s s1 key /\ unevicted k s1 s' key.
  Proof using Hk.
    intros T Hf R Hle [H|H]; [by split; left|]. destruct (top_run k Hk l s1 T Hf) as (s2 & R2 & _ & _ & [l' L]). assert (s2 = s') as -> by congruence.
    rewrite L, nevict_app in H. split; right; rewrite ?L, ?nevict_app; lia.
  Qed.
  Lemma stored_waiters_eq el : stored_waiters el = el_waits el.
  Proof. unfold stored_waiters, el_waits, waits_of. by destruct (el_map el). Qed.
  Lemma waiting_nwait (sa : sta) (sc : cache) w : srel sa sc -> waiting w sc = nwait (m_els (me sa)) w.
  Proof.
    intros S. rewrite (srel_me _ _ S). unfold waiting, nwait, msum, map_fold. simpl.
    induction (map_to_list (m_els (me sc))) as [|[e el] l IH]; simpl; [done|].
    rewrite filter_app, app_length, IH, stored_waiters_eq. done.
  Qed.

  (** ** C23, first part *)
  Lemma deliveries_bound l sc w : fine l -> after k l sc -> waiting w sc + length (deliveries w sc) <= cnt w (waiters l).
  Proof.
    intros Hf Ha. destruct (after_abs l sc Hf Ha) as (sa & _ & S & _ & W). specialize (W w). unfold wtot in W.
    rewrite (deliveries_ndone sa sc w S), (waiting_nwait sa sc w S). lia.
  Qed.

  (** ** C33 *)
  Lemma top_up_run l : forall sa, top sa -> m_up (me sa) = false -> forallb (fine_op false) l = true ->
    exists sa', run k l sa = Ok sa' /\ top sa' /\ m_up (me sa') = false.
  Proof.
    induction l as [|o l IH]; intros sa T U Hf; [by exists sa|]. simpl in *. apply andb_true_iff in Hf as [Hf1 Hf2].
    assert (exists sa1 r, step k false o sa = Ok (sa1, r) /\ top sa1 /\ m_up (me sa1) = false) as (sa1 & r & E & T1 & U1).
    { assert (o = ODestroy \/ o <> ODestroy) as [->|Hnd] by (destruct o; try (by right); by left).
      - rewrite step_eq. unfold step_with. rewrite U. simpl. eauto.
      - destruct (top_step k Hk o sa T Hf1) as (s' & r & E & T' & _). exists s', r. split_and!; try done.
        destruct (top_step k Hk o sa T Hf1) as (s'' & r' & E' & _ & _ & _ & _ & U'). replace s'' with s' in U' by congruence. by apply U'. }
    rewrite E. simpl. by apply IH.
  Qed.
  Lemma down_facts (sa : sta) : top sa -> m_up (me sa) = false ->
    (forall e el, m_els (me sa) !! e = Some el -> cbq_of (el_map el) = [] /\ exists i c, m_cbs (me sa) !! i = Some c /\ cb_el c = e) .
  Proof.
    intros [Hi Hd _] U e el He. specialize (Hd U).
    assert (forall x, x ∉ LT g0 (cs sa)) as Hn by (intros x; unfold LT; simpl; rewrite Hd; apply not_elem_of_nil).
    assert (forall x ex, m_els (me sa) !! x = Some ex -> cbq_of (el_map ex) = []) as Hq by (intros x ex Hx; by eapply i_out; eauto).
    split; [by eapply Hq|].
    destruct (i_rc _ _ _ Hi e el He) as [Hr Hr0]. 
    assert (nold (m_els (me sa)) e = 0) as E0.
    { unfold nold. apply msum_zero. intros x ex Hx. unfold el_olds. by rewrite (Hq x ex Hx). }
    assert (cnt e (LT g0 (cs sa)) = 0) as E1 by (apply cnt_zero; apply Hn). simpl in Hr. rewrite !cnt_nil in Hr.
    assert (0 < ncbs (m_cbs (me sa)) e) as Hpos by lia. clear -Hpos.
    destruct (decide (ncbs (m_cbs (me sa)) e = 0)) as [?|Hne]; [lia|].
    assert (exists i c, m_cbs (me sa) !! i = Some c /\ cb_el c = e) as ?; [|done].
    revert Hne. clear Hpos. unfold ncbs. induction (m_cbs (me sa)) as [|i c m Hi IH] using map_ind; [by rewrite msum_empty|].
    rewrite msum_insert by done. destruct (decide (cb_el c = e)) as [He|].
    - intros _. exists i, c. split; [apply lookup_insert|done].
    - intros H. destruct IH as (j & d & Hj & Hd); [lia|]. exists j, d. split; [|done]. rewrite lookup_insert_ne; [done|congruence].
  Qed.
  Lemma destroyed l1 l2 sc0 sc : fine (l1 ++ ODestroy :: l2) -> after k l1 sc0 -> after k (l1 ++ ODestroy :: l2) sc ->
    (forall e, entry sc e -> outstanding sc e) /\ (m_cbs (me sc) = ∅ -> m_els (me sc) = ∅) /\
    (forall w, waiting w sc = 0) /\
    (forall w, waiting w sc0 + length (deliveries w sc0) <= length (deliveries w sc)).
  Proof.
    intros Hf Ha0 Ha. pose proof Hf as Hf0. apply fine_app in Hf as [Hf1 Hf2]. change (ODestroy :: l2) with ([ODestroy] ++ l2) in Hf2. apply fine_app in Hf2 as [_ Hf2].
    destruct (after_abs _ _ Hf1 Ha0) as (sa0 & E0 & S0 & T0 & _).
    destruct (after_abs _ _ Hf0 Ha) as (sa & E & S & T & _).
    rewrite run_app, E0 in E. unfold rbind in E at 1. rewrite run_cons in E.
    destruct (step k false ODestroy sa0) as [[sa1 r]| | |] eqn:Ed; try done. unfold rbind in E at 1.
    assert (top sa1 /\ m_up (me sa1) = false /\ forall w, wtot g0 sa0 w <= wtot g0 sa1 w) as (T1 & U1 & W1).
    { destruct (top_step k Hk ODestroy sa0 T0 eq_refl) as (s' & r' & E' & T' & W' & _). replace s' with sa1 in * by congruence.
      split_and!; [done| |intros w; specialize (W' w); lia].
      rewrite step_eq in Ed. unfold step_with in Ed. destruct (m_up (me sa0)) eqn:Hup; simpl negb in Ed; simpl andb in Ed; cbv iota in Ed.
      - destruct T0 as [Hi _ _]. destruct (destroy_ends k g0 sa0 Hi eq_refl) as (s2 & E2 & I2 & Hw & T2 & U2 & L2). rewrite E2 in Ed. simpl in Ed. injection Ed as <- <-. done.
      - by injection Ed as <- <-. }
    destruct (top_up_run l2 sa1 T1 U1 Hf2) as (sa2 & E2 & T2 & U2). replace sa2 with sa in * by congruence.
    pose proof (down_facts sa T2 U2) as HD. rewrite (srel_me _ _ S) in HD.
    assert (forall w, waiting w sc = 0) as Hw.
    { intros w. rewrite (waiting_nwait sa sc w S). unfold nwait. apply msum_zero. intros e el He. rewrite (srel_me _ _ S) in He.
      unfold el_waits. by rewrite (proj1 (HD e el He)). }
    split_and!; [..|done|].
    - intros e [el He]. apply (HD e el He).
    - intros Hc. apply map_eq. intros e. rewrite lookup_empty. destruct (m_els (me sc) !! e) as [el|] eqn:He; [|done].
      destruct (HD e el He) as (_ & i & c & Hi & _). by rewrite Hc, lookup_empty in Hi.
    - intros w. specialize (W1 w). destruct (top_run k Hk l2 sa1 T1 Hf2) as (s' & E' & _ & W' & _). replace s' with sa in * by congruence.
      specialize (W' w). unfold wtot in *. simpl in *. rewrite (deliveries_ndone sa sc w S), (deliveries_ndone sa0 sc0 w S0), (waiting_nwait sa0 sc0 w S0).
      specialize (Hw w). rewrite (waiting_nwait sa sc w S) in Hw. lia.
  Qed.
End transfer.
