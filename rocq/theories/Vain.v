(** Nobody waits in vain: as long as resolvers keep their callbacks, every stored request belongs to a
    lookup whose callback is still there (lemmas for PropertiesAsioResolver.v, C53). *)
From Verif Require Import AsioResolver AsioResolverProofs Base AQueue ATable BasicHashtable QueueProofs BasicHashtableProofs ContainersProofs Mapped Cache CachePtr CacheAbs CompSim CacheSim AbsInv AbsPrim AbsPrim2 AbsSweep AbsOps AbsComp Histories Trace AbsTrace TraceInv Delay AbsTraceCb AbsResolve AbsStep AbsLook Effects Observe Transfer Lookups Waiters Origins.

Section vain.
  Context (k : cfg) (Hk : fine_cfg k).
  Notation srel := (srel comp_abs comp_ptr crel).
  Notation top := (top k).

  Definition nvain (s : sta) : Prop :=
    forall x el p, tv s x = Some el -> el_map el = MPend p -> waits_of (p_cbq p) <> [] -> has_cb s x.
  Lemma chg_nvain s e el κ el' p : chg k s e el κ (Some el') -> el_map el' = MPend p -> waits_of (p_cbq p) <> [] ->
    (exists q, el_map el = MPend q /\ waits_of (p_cbq q) <> []) \/ (exists w, κ = KWait w false) \/ has_cb s e.
  Proof using.
    intros Hd Em Hw. destruct (chg_facts k _ _ _ _ _ Hd) as (_ & _ & _ & _ & _ & _ & F7 & _). destruct (F7 p Em) as (q & Eq & _). clear F7.
    inversion Hd; subst; simpl in Em; rewrite ?Eq in Em; simpl in Em; try (injection Em as <-; left; exists q; by split).
    - unfold p_strengthen in Em. destruct (p_exp q) eqn:Ep; simpl in Em; injection Em as <-; left; exists q; by split.
    - right. destruct b; [right; auto|left; eauto].
    - injection Em as <-. left. exists q. split; [done|]. assert (p0 = q) as -> by congruence. simpl in Hw. unfold waits_of in *. rewrite map_app, concat_app in Hw. simpl in Hw. by rewrite app_nil_r in Hw.
  Qed.
  Lemma mini_nvain κ s s' : mini k κ s s' -> (forall w, κ <> KWait w false) -> nvain s -> nvain s'.
  Proof using.
    intros H Hw HN x el' p Hx Em Hne. pose proof (fun el q => HN x el q) as HO. pose proof (mini_has_cb k κ s s' x H) as HS. revert HS.
    destruct (n_body _ _ _ _ H) as [κ Hκ T _ _ _|κ e el o H1 H2 H3 H4 _ _|e key cl mp H1 _ _ H2 H3 H4 _ _ H5 H6|i c e el q o y cn δ H1 H2 H3 H4 H5 H6 H7 H8 _ _ _ _|i c e el q H1 H2 H3 H4 H5 H6 H7 _ _]; intros HS.
    - apply HS; [|by destruct Hκ as [->|[[? ->]|[[? ->]|[? ->]]]]]. rewrite T in Hx. by eapply HO.
    - assert (forall i, ~ completes κ i) as Hnc by (intros i Hi; inversion H2; subst; done).
      destruct (decide (x = e)) as [->|Hxe].
      + assert (o = Some el') as -> by congruence. apply HS; [|intros i c Hi; by destruct (Hnc i)].
        destruct (chg_nvain _ _ _ _ _ _ H2 Em Hne) as [(q & Eq & Hq)|[(w & ->)|Hcb]]; [by eapply HO|by destruct (Hw w)|done].
      + rewrite H4 in Hx by done. apply HS; [by eapply HO|]. intros i c Hi. by destruct (Hnc i).
    - apply HS; [|done]. destruct (decide (x = e)) as [->|Hxe]; [|rewrite H4 in Hx by done; by eapply HO].
      rewrite H3 in Hx. injection Hx as <-. destruct (born_facts k (me s) key mp) as (_ & E & _). rewrite E in Em. subst mp. by destruct H2 as (_ & _ & ?).
    - destruct (decide (x = e)) as [->|Hxe].
      + rewrite H7 in Hx. injection Hx as <-. match type of Em with context [assigned k ?m ?b ?e] => destruct (assigned_facts k m b e) as (_ & E & _) end. rewrite E in Em. simpl in Em.
        destruct o as [v|]; [pose proof (settled_not_pend k q v) as X|pose proof (settle_error_not_pend k q y) as X]; rewrite Em in X; done.
      + rewrite H8 in Hx by done. apply fmap_Some in Hx as (el0 & E0 & ->).
        assert (exists q0, el_map el0 = MPend q0 /\ waits_of (p_cbq q0) <> []) as (q0 & Eq0 & Hq0).
        { case_decide; [|by eauto]. simpl in Em. unfold m_mark_expired, m_dead in Em. destruct (el_map el0) as [q0| | | | |]; try (by destruct (k_pointer k)). injection Em as <-. eauto. }
        apply HS; [by eapply HO|]. intros j d Hj Hd. simpl in Hj. subst j. congruence.
    - destruct (decide (x = e)) as [->|Hxe].
      + rewrite H6 in Hx. injection Hx as <-. simpl in Em. by injection Em as <-.
      + rewrite H7 in Hx by done. apply HS; [by eapply HO|]. intros j d Hj Hd. simpl in Hj. subst j. congruence.
  Qed.
  Lemma okind_forgets o w : okind k o (KWait w false) -> forgets o = true.
  Proof using.
    assert (forall l, Forall (fun o => okind k o (KWait w false) -> forgets o = true) l -> anyof (fun o => okind k o (KWait w false)) l -> existsb forgets l = true) as Hl.
    { intros l IH (x & Hx & Ho)%anyof_exists. apply existsb_exists. exists x. split; [by apply elem_of_list_In|]. by apply (Forall_in _ _ _ IH Hx). }
    induction o as [o IH] using op_ind'. destruct o; simpl; try done; try (by intuition (try congruence; try tauto)).
    - intros [?|[?|[_ [(? & ? & _)|?]]]]; try done. by apply Hl.
    - destruct IH as [IH1 IH2]. rewrite !orb_true_iff. intros [_ [?|[?|[?|[(b & [= -> <-] & [?|E])|[Ho|Ho]]]]]]; try done.
      + left; left. by rewrite E.
      + left; right. by apply Hl.
      + right. by apply Hl.
    - intros [_ [?|[(? & [?|[? _]])|[(? & ? & ? & _)|[(x & Hx & Ho)%anyof_exists|(? & ?)]]]]]; try done. apply existsb_exists. exists x. split; [by apply elem_of_list_In|].
      apply Hl; [exact (Forall_in _ _ _ IH Hx)|done].
  Qed.
  Lemma run_nvain l : forall s s' : sta, top s -> fine l -> existsb forgets l = false -> run k l s = Ok s' -> (m_up (me s) = true -> nvain s) -> m_up (me s') = true -> nvain s'.
  Proof using Hk.
    induction l as [|o l IH]; intros s s' T Hf Hg R HN Hup; [injection R as <-; by apply HN|].
    rewrite run_cons in R. unfold fine in Hf. simpl in Hf, Hg. apply andb_true_iff in Hf as [Hf1 Hf2]. apply orb_false_iff in Hg as [Hg1 Hg2].
    destruct (top_step k Hk o s T Hf1) as (s1 & r1 & E1 & T1 & _ & _ & Hu & _). rewrite E1 in R. unfold rbind in R.
    apply (IH s1 s' T1 Hf2 Hg2 R); [|done]. intros U1. destruct (up_step k Hk o s s1 r1 T Hf1 E1 U1) as [U Hn]. destruct (Hu U Hn) as (_ & P & _).
    apply (path_inv k (upto (okind k o) (m_ncb (me s))) nvain s s1); [|done|by apply HN]. intros κ u u' HA HM. apply (mini_nvain κ); [done|]. intros w ->.
    destruct HA as [HA|(i & ? & _)]; [|done]. apply okind_forgets in HA. congruence.
  Qed.
  Lemma not_in_vain l sc w : fine l -> existsb forgets l = false -> after k l sc -> m_up (me sc) = true -> 0 < waiting w sc ->
    exists i, in_flight sc i /\ w ∈ waiting_on sc i.
  Proof using Hk.
    intros Hf Hg Ha Hup Hw. destruct (after_abs k Hk l sc Hf Ha) as (sa & R & S & T & _). pose proof (srel_me _ _ S) as M.
    assert (m_up (me sa) = true) as U by (by rewrite M).
    assert (nvain sa) as HN.
    { eapply run_nvain; [apply top_init|exact Hf|exact Hg|exact R| |done]. intros _ x el p Hx. apply tv_elim in Hx as (Hx & _). by apply not_elem_of_nil in Hx. }
    unfold waiting in Hw. destruct (filter _ _) as [|w' ws] eqn:Ef in Hw; [simpl in Hw; lia|].
    assert (w' ∈ filter (fun x => x = w) (concat (map (fun p => stored_waiters p.2) (map_to_list (m_els (me sc)))))) as Hin by (rewrite Ef; left).
    apply elem_of_list_filter in Hin as [-> Hin]. clear Ef Hw ws.
    apply elem_of_list_In, in_concat in Hin as (q & Hq & Hwq%elem_of_list_In). apply in_map_iff in Hq as ([e el] & <- & Hel%elem_of_list_In%elem_of_map_to_list). simpl in Hwq.
    rewrite <-M in Hel. destruct T as [Hi _ _]. unfold stored_waiters in Hwq. destruct (el_map el) as [p| | | | |] eqn:Em; try (by apply not_elem_of_nil in Hwq).
    assert (e ∈ tab sa) as Htab.
    { destruct (i_pin _ _ _ Hi e el Hel ltac:(unfold is_pend, el_pending; by rewrite Em) U) as [HL|?]; [|by apply not_elem_of_nil in H].
      unfold LT in HL. simpl in HL. by rewrite (a_tab_None _ (i_up _ _ _ Hi U)) in HL. }
    destruct (HN e (with_rc el 0) p) as (i & c & Hc & Hcc & He); [by apply tv_some|done|intros E; assert (w ∈ waits_of (p_cbq p)) as Hwq' by exact Hwq; rewrite E in Hwq'; by apply not_elem_of_nil in Hwq'|].
    exists i. rewrite M in Hc. split; [by exists c|]. unfold waiting_on. rewrite Hc, He, <-M, Hel. unfold stored_waiters. by rewrite Em.
  Qed.
  (** with an executor *)
  Lemma existsb_map {A B} (f : A -> B) (g : B -> bool) l : existsb g (map f l) = existsb (fun a => g (f a)) l.
  Proof using. induction l as [|a l IH]; [done|]. simpl. by rewrite IH. Qed.
  Lemma outside_forgets o : forgets (outside o) = false.
  Proof using. destruct o; try done. simpl. rewrite existsb_map. by induction items. Qed.
  Lemma xrun_plain l : forall l1 (x x' : xcache), xfine l -> existsb xforgets l = false -> fine l1 -> existsb forgets l1 = false -> after k l1 (x_cache x) -> xrun k l x = Ok x' ->
    exists l2, fine l2 /\ existsb forgets l2 = false /\ after k l2 (x_cache x').
  Proof using Hk.
    induction l as [|o l IH]; intros l1 x x' Hf Hg Hf1 Hg1 Ha R; [injection R as <-; by exists l1|].
    unfold xfine in Hf. simpl in Hf, Hg. apply andb_true_iff in Hf as [Ho Hf]. apply orb_false_iff in Hg as [Hgo Hg].
    change (xrun k (o :: l) x) with (x <- xstep k o x;; xrun k l x) in R. destruct o as [o| |n body keep]; [|done|].
    - assert (fine (l1 ++ [outside o])) as Hf2 by (apply fine_app; split; [done|apply fine_one; by apply outside_fine]).
      destruct (fine_run k Hk l1 [outside o] _ Hf2 Ha) as (s' & Rs & Ha'). rewrite (run_cons k _ []) in Rs. unfold xstep in R.
      destruct (step k false (outside o) (x_cache x)) as [[s1 r]| | |]; try done. injection Rs as ->. unfold rbind in R.
      eapply (IH (l1 ++ [outside o])); [done|done|done| | |exact R]; [|exact Ha']. rewrite existsb_app, Hg1. simpl. by rewrite outside_forgets.
    - unfold xstep in R. destruct (x_jobs x !! n) as [j|]; [|by apply (IH l1 x)].
      set (tl := match j with JResolve i => if keep then [] else [ODropCb i] | JDone _ _ _ => [] end) in R.
      assert (fine (l1 ++ (map inside body ++ tl))) as Hf2.
      { apply fine_app. split; [done|]. apply fine_app. split.
        - simpl in Ho. clear -Ho. unfold fine. induction body as [|o b IH]; [done|]. simpl in *. apply andb_true_iff in Ho as [H1 H2]. by rewrite H1, IH.
        - unfold tl. destruct j as [i|]; [|done]. by destruct keep. }
      destruct (fine_run k Hk l1 _ _ Hf2 Ha) as (s' & Rs & Ha'). rewrite Rs in R. unfold rbind in R.
      eapply (IH (l1 ++ (map inside body ++ tl))); [done|done|done| | |exact R]; [|exact Ha']. rewrite !existsb_app, Hg1, existsb_map. simpl in Hgo. rewrite Hgo.
      unfold tl. destruct j as [i|]; [|done]. by destruct keep.
  Qed.
  Lemma x_not_in_vain l (x : xcache) w : xfine l -> existsb xforgets l = false -> xrun k l x_init = Ok x -> m_up (me (x_cache x)) = true -> 0 < waiting w (x_cache x) ->
    exists i, in_flight (x_cache x) i /\ w ∈ waiting_on (x_cache x) i.
  Proof using Hk.
    intros Hf Hg R Hup Hw. destruct (xrun_plain l [] x_init x Hf Hg eq_refl eq_refl eq_refl R) as (l2 & Hf2 & Hg2 & Ha). by apply (not_in_vain l2).
  Qed.
End vain.
