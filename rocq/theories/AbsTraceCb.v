(** The resolver callbacks as sequences of elementary changes (Trace.v). *)
From Verif Require Import Base AQueue ATable BasicHashtable Mapped Cache CacheAbs AbsInv AbsPrim AbsPrim2 AbsSweep AbsOps AbsComp Trace AbsTrace TraceInv Histories.

Lemma f_drops_sub ps : forall s x el, m_els (me (f_drops s ps)) !! x = Some el -> exists el0, m_els (me s) !! x = Some el0 /\ eqrc el el0.
Proof.
  induction ps as [|p ps IH]; intros s x el; [unfold eqrc; simpl; eauto|]. simpl. intros (el1 & H1 & E1)%IH.
  destruct p as [w|n o]; simpl in H1; [eauto|]. apply f_dec_sub in H1 as (el0 & ? & ?). exists el0. split; [done|unfold eqrc in *; congruence].
Qed.
Lemma f_drops_tab ps s : tab (f_drops s ps) = tab s.
Proof.
  unfold tab. revert s. induction ps as [|p ps IH]; intros s; [done|]. simpl. unfold f_drops in IH. rewrite IH. destruct p; [done|].
  simpl. by destruct (f_dec_cs s old) as (-> & _).
Qed.

Section tcb.
  Context (k : cfg).
  Notation inv := (inv k).
  Notation mini := (mini k).
  Notation path := (path k).

  (** the kinds [B] and cancellations of lookups younger than [n] *)
  Definition upto (B : kind -> Prop) (n : N) (κ : kind) : Prop := B κ \/ exists i, κ = KCancel i /\ (n <= i)%N.
  Lemma upto_path (A B : kind -> Prop) n m s s' : (forall κ, A κ -> B κ) -> (n <= m)%N -> path (upto A m) s s' -> path (upto B n) s s'.
  Proof. intros H Hl. apply path_weaken. intros κ [?|(i & -> & ?)]; [left; by apply H|]. right. exists i. split; [done|lia]. Qed.
  Lemma upto_free (B : kind -> Prop) n : B KFree -> upto B n KFree.
  Proof. by left. Qed.
  Lemma upto_trans B s1 s2 s3 : path (upto B (m_ncb (me s1))) s1 s2 -> path (upto B (m_ncb (me s2))) s2 s3 -> path (upto B (m_ncb (me s1))) s1 s3.
  Proof.
    intros P1 P2. eapply path_trans; [exact P1|]. eapply upto_path; [..|exact P2]; [done|]. by eapply path_ncb.
  Qed.

  (** changes of the callbacks only *)
  Lemma tv_cbs s m x : tv (f_cbs s m) x = tv s x.
  Proof. done. Qed.
  Lemma mini_cbs κ s m : κ = KFree \/ (exists i, κ = KLet i) -> cbs_ok k κ s (f_cbs s m) -> keep_ok κ s (f_cbs s m) -> mini κ s (f_cbs s m).
  Proof.
    intros [->|[i ->]] Hc Hk; (split; try done; [by exists []|]); (apply b_same; try done; eauto).
  Qed.
  Lemma cbs_flags s i c c' : m_cbs (me s) !! i = Some c -> cb_el c' = cb_el c -> cb_called c' = cb_called c ->
    mini (if cb_kept c' then KFree else KLet i) s (f_cbs s (<[i := c']> (m_cbs (me s)))).
  Proof.
    intros Hc E1 E2. apply mini_cbs; [destruct (cb_kept c'); eauto| |].
    2: { split; simpl.
      - intros j d d' H1 [[<- <-]|[? ?]]%lookup_insert_Some H2; [|left; congruence]. destruct (cb_kept c'); [by left|by right].
      - intros j d j' d' [[<- <-]|[? ?]]%lookup_insert_Some H1; congruence. }
    split_and!; simpl; [lia|..].
    - intros j d [[<- <-]|[? ?]]%lookup_insert_Some; right; [exists c; split_and!; try done; by left|]. exists d. split_and!; try done. by left.
    - intros j d Hj Hn. apply lookup_insert_None in Hn as [? _]. congruence.
  Qed.
  Lemma cbs_delete s i c : m_cbs (me s) !! i = Some c -> cb_called c = true ->
    mini KFree s (f_cbs s (delete i (m_cbs (me s)))).
  Proof.
    intros Hc E1. apply mini_cbs; [by left| |].
    2: { split; simpl; [intros j d d' H1 [? H2]%lookup_delete_Some H3; left; congruence|intros j d j' d' [? ?]%lookup_delete_Some; congruence]. }
    split_and!; simpl; [lia|..].
    - intros j d [? ?]%lookup_delete_Some. right. exists d. split_and!; try done. by left.
    - intros j d Hj Hn. apply lookup_delete_None in Hn as [<-|]; congruence.
  Qed.
  Lemma cbs_new s e own kept : k_resolver k = RAsync -> m_cbs (me s) !! m_ncb (me s) = None -> tv s e = None -> (forall j d, m_cbs (me s) !! j = Some d -> cb_el d <> e) ->
    mini KFree s (with_me s (set_ncb (set_cbs (me s) (<[m_ncb (me s) := Cbk e false own kept]> (m_cbs (me s)))) (N.succ (m_ncb (me s))))).
  Proof.
    intros Hr Hfr Htv Hnew. split; try done; [by exists []|..].
    - split_and!; simpl; [lia|..].
      + intros j d [[<- <-]|[? ?]]%lookup_insert_Some; [left; split_and!; [lia|lia|done..]|]. right. exists d. split_and!; try done. by left.
      + intros j d Hj Hn. apply lookup_insert_None in Hn as [? _]. congruence.
    - apply b_same; try done. by left.
    - split; simpl.
      + intros j d d' H1 [[<- <-]|[? ?]]%lookup_insert_Some H3; left; congruence.
      + intros j d j' d' [[<- <-]|[? ?]]%lookup_insert_Some H1 H2; [by eapply Hnew|congruence].
  Qed.

  (** cancelling *)
  Lemma cancel_mini s i c s' el p : m_cbs (me s) !! i = Some c -> cb_called c = false ->
    tv s (cb_el c) = Some el -> el_map el = MPend p ->
    tv s' (cb_el c) = Some (with_map el (MPend (p_cancel p))) -> (forall x, x <> cb_el c -> tv s' x = tv s x) ->
    (forall h, hseq s' h = hseq s h) -> a_dq (cs s') = a_dq (cs s) ->
    m_up (me s') = m_up (me s) -> m_log (me s') = m_log (me s) ->
    m_wall (me s') = m_wall (me s) -> m_steady (me s') = m_steady (me s) -> m_dropped (me s') ⊆ m_dropped (me s) -> m_ncb (me s') = m_ncb (me s) ->
    m_cbs (me s') = <[i := Cbk (cb_el c) true (cb_own c) (cb_kept c)]> (m_cbs (me s)) ->
    (forall j d, m_cbs (me s) !! j = Some d -> cb_el d = cb_el c -> j = i) ->
    mini (KCancel i) s s'.
  Proof.
    intros Hc Hcall Htv Hm Htv' Hot Hh Hdq Eu El Ew Est Ed En Ec Hinj. split; try done; [by exists []|by apply clk_eq| | |by rewrite El|].
    - split_and!; [lia|..]; rewrite Ec.
      + intros j d [[<- <-]|[? ?]]%lookup_insert_Some; right; [exists c|exists d]; split_and!; try done; [by right|by left].
      + intros j d Hj Hn. apply lookup_insert_None in Hn as [? _]. congruence.
    - eapply b_cancel; try done. intros c'. rewrite Ec, lookup_insert. by intros [= <-].
    - split; rewrite Ec.
      + intros j d d' H1 [[<- <-]|[? ?]]%lookup_insert_Some H2; left; simpl; congruence.
      + intros j d j' d' [[<- <-]|[? ?]]%lookup_insert_Some H1; congruence.
  Qed.
  Lemma f_drops_cbs ps m : forall s, f_drops (f_cbs s m) ps = f_cbs (f_drops s ps) m.
  Proof.
    induction ps as [|[w|n o] ps IH]; intros s; [done|..]; unfold f_drops in *; simpl; rewrite <-IH; [done|]. f_equal. unfold f_dec. simpl. destruct (m_els (me s) !! o) as [el|]; [|done]. by destruct (el_rc el) as [|[|?]].
  Qed.
  Lemma cancel_path g s i c : inv g s -> a_torn (cs s) = None -> m_cbs (me s) !! i = Some c -> cb_called c = false ->
    cb_el c ∈ tab s -> cb_el c ∉ g_priv g -> (exists el, m_els (me s) !! cb_el c = Some el /\ is_pend el) -> inv g (f_cancel s (cb_el c)) ->
    m_cbs (me (f_cancel s (cb_el c))) = m_cbs (me s) ->
    path (fun κ => κ = KFree \/ κ = KCancel i) s (f_cbs (f_cancel s (cb_el c)) (<[i := Cbk (cb_el c) true (cb_own c) (cb_kept c)]> (m_cbs (me s)))).
  Proof.
    intros Hi Ht Hc Hcall Htab Hpr (el & Hel & Hp) I1 Ecb. set (e := cb_el c) in *.
    unfold is_pend, el_pending in Hp. destruct (el_map el) as [p| | | | |] eqn:Em; try done.
    assert (f_cancel s e = f_drops (p_upd s e (fun el => with_map el (MPend (p_cancel p)))) (p_cbq p)) as E.
    { unfold f_cancel. rewrite Hel, Em. done. }
    set (s1 := p_upd s e (fun el => with_map el (MPend (p_cancel p)))) in *.
    assert (inv (hold (p_cbq p) g) s1) as I0.
    { unfold s1, p_upd. rewrite Hel. apply (inv_upd k g _ s e el); try done; simpl.
      - intros x. unfold el_olds; rewrite Em; unfold olds_of; simpl. rewrite ?cnt_app, ?cnt_nil. lia.
      - intros _. unfold is_pend, el_pending. by rewrite Em.
      - intros q Hq. by apply elem_of_nil in Hq.
      - by left. }
    assert (tv s e = Some (with_rc el 0)) as Htv by (by apply tv_some).
    destruct (p_upd_me s e (fun el => with_map el (MPend (p_cancel p)))) as (M1 & M2 & M3 & M4 & M5 & M6 & M7 & M8). fold s1 in M1, M2, M3, M4, M5, M6, M7, M8.
    assert (tv s1 e = Some (with_map (with_rc el 0) (MPend (p_cancel p)))) as Htv1.
    { unfold s1. rewrite (tv_upd_self _ _ _ (with_rc el 0)); [done|done|]. unfold eqrc. intros a b Hab. unfold with_rc, with_map in *. simpl in *. congruence. }
    assert (inv (hold (p_cbq p) g) (f_cbs s1 (<[i := Cbk e true (cb_own c) (cb_kept c)]> (m_cbs (me s1))))) as IX.
    { eapply cb_flags; [exact I0|by rewrite M2|..]; try done; simpl; intuition. }
    rewrite E, <-f_drops_cbs. rewrite M2 in IX.
    eapply path_trans; [apply (path_one k _ (KCancel i)); [by right|]|apply (drops_path k _ (p_cbq p)) with (g := g); [by left|exact IX|unfold s1; simpl; by rewrite p_upd_cs]].
    apply (cancel_mini s i c _ (with_rc el 0) p); fold e; try done.
    - intros x Hx. change (tv s1 x = tv s x). unfold s1. by apply tv_upd.
    - intros h. change (hseq s1 h = hseq s h). apply hseq_upd.
    - simpl. unfold s1. by rewrite p_upd_cs.
    - simpl. congruence.
    - intros j d Hj Hd. by eapply (i_inj _ _ _ Hi).
  Qed.

  (** completing *)
  Lemma assigned_clk m m' v el : m_wall m = m_wall m' -> m_steady m = m_steady m' -> assigned k m v el = assigned k m' v el.
  Proof. intros E1 E2. unfold assigned, aged. by rewrite E1, E2. Qed.
  Lemma calls_evicted v x ps : evicted (calls v x ps) = [].
  Proof using. unfold calls, evicted. induction (waits_of ps) as [|y l IH]; [done|]. simpl. by rewrite omap_app, IH. Qed.
  Lemma done_mini δ g s i c el p o x s1 : inv g s -> inv g s1 -> ext [] g s g s1 -> a_torn (cs s) = None ->
    m_cbs (me s) !! i = Some c -> cb_called c = false -> cb_el c ∈ tab s -> m_els (me s) !! cb_el c = Some el -> el_map el = MPend p ->
    stored k δ (cb_el c) p (match o with Some v => settled k p v | None => m_settle_error (k_pointer k) x p end) (calls (default 0%Z o) x (p_cbq p)) s s1 ->
    mini (KDone i o δ) s (f_cbs (f_assign k s1 (cb_el c) (bool_decide (is_Some o))) (<[i := Cbk (cb_el c) true (cb_own c) (cb_kept c)]> (m_cbs (me s)))).
  Proof.
    intros Hi I1 X1 Ht Hc Hcall Htab Hel Hm S. set (e := cb_el c) in *. set (b := bool_decide (is_Some o)).
    destruct S as [S1 S2 S3 S4 S5 S6 S7 S8 S9 S10 S12 S13 S14].
    destruct (assign_facts k s1 e b) as (R & Eb & Eh & Edq & Els). set (s2 := f_assign k s1 e b) in *.
    destruct S12 as (el0 & cn & Hel0 & Hcn & Hel1). assert (el0 = el) as -> by congruence.
    destruct R as [R1 [lr R2] R3 R4 R5 R6 R7 R8].
    assert (tab s1 = tab s) as Et1 by (unfold tab; by rewrite S1).
    assert (forall y, y ∈ tab s -> m_els (me s) !! y = None -> False) as Hdom.
    { intros y Hy Hn. destruct (i_tab _ _ _ Hi y); [by apply tab_LT|]. congruence. }
    assert (forall y, y ∈ tab s -> a_hash (cs s1) !! y = a_hash (cs s) !! y) as Hhash.
    { intros y Hy. destruct (i_tab _ _ _ Hi y) as [ey Hey]; [by apply tab_LT|].
      assert (y ∈ LT g (cs s1)) as HL1. { unfold LT, a_tab. rewrite S1, S2. rewrite Ht. apply elem_of_app. right. exact Hy. }
      destruct (i_tab _ _ _ I1 y HL1) as [ey1 Hey1].
      rewrite (i_hash _ _ _ Hi y ey) by (done || by apply tab_LT). rewrite (i_hash _ _ _ I1 y ey1) by done.
      by destruct (x_el _ _ _ _ _ X1 y ey ey1) as [-> _]. }
    assert (forall y, y <> e -> tv s1 y = (if decide (y ∈ olds_of (p_cbq p)) then marked k else id) <$> tv s y) as Htv1.
    { intros y Hy. unfold tv. rewrite Et1. destruct (decide (y ∈ tab s)) as [Hyt|]; [|done].
      destruct (decide (y ∈ olds_of (p_cbq p))) as [Ho|Ho].
      - assert (is_Some (m_els (me s1) !! y)) as [e1 He1].
        { apply (i_tab _ _ _ I1 y). unfold LT, a_tab. rewrite S1, S2, Ht. apply elem_of_app. by right. }
        destruct (S14 y e1 Ho He1) as (e0 & He0 & Eq). rewrite He1, He0. simpl. by rewrite Eq.
      - rewrite S13 by done. rewrite option_fmap_id. done. }
    split; try done.
    - simpl. by rewrite R1, S8.
    - exists (lr ++ calls (default 0%Z o) x (p_cbq p)). simpl. rewrite R2, S9. by rewrite app_assoc.
    - simpl. eapply clk_trans; [exact S10|]. by apply clk_eq.
    - split_and!; simpl.
      + rewrite R7, S7. done.
      + intros j d [[<- <-]|[? ?]]%lookup_insert_Some; right; [exists c|exists d]; split_and!; try done; [by right|by left].
      + intros j d Hj Hn. apply lookup_insert_None in Hn as [? _]. congruence.
    - assert (is_Some (m_els (me s1) !! e)) as Hsome by eauto. specialize (Edq Hsome).
      apply (b_done k s _ i c e (with_rc el 0) p o x cn δ); try done.
      + by apply tv_some.
      + rewrite tv_cbs. unfold tv. unfold tab. rewrite Eb, S1. fold (tab s). rewrite decide_True by done. rewrite Els, decide_True by done. rewrite Hel1. simpl.
        f_equal. rewrite assigned_rc. apply assigned_clk; simpl; [by rewrite R3|by rewrite R4].
      + intros y Hy. rewrite tv_cbs. rewrite <-Htv1 by done. unfold tv. unfold tab. rewrite Eb. destruct (decide _); [|done].
        rewrite Els, decide_False by done. by rewrite option_fmap_id.
      + intros h. apply (hseq_ext s); simpl; [unfold tab; simpl; by rewrite Eb, S1|]. intros y Hy. rewrite Eh. by apply Hhash.
      + simpl. rewrite Edq, S4. done.
      + intros Hd. apply (i_dnp _ _ _ Hi e el Hd Hel). unfold is_pend, el_pending. by rewrite Hm.
      + simpl. rewrite <-S9. 
        assert (m_log (me s2) = m_log (me s1)) as ->; [|done].
        unfold s2. rewrite f_assign_eq. unfold f_assign1, f_age, f_arefresh.
        destruct (k_max_age k), (k_err_age k), (k_refresh k) as [[? idle]|], b; try case_bool_decide;
          rewrite ?(proj1 (proj2 (proj2 (p_upd_me _ _ _)))); simpl; rewrite ?(proj1 (proj2 (proj2 (p_upd_me _ _ _)))); done.
      + intros j d Hj Hd. by eapply (i_inj _ _ _ Hi).
      + intros c' Hc'. unfold f_cbs in Hc'. simpl in Hc'. rewrite lookup_insert in Hc'.
        by injection Hc' as <-.
    - simpl. rewrite R8, S9. unfold evicted. rewrite omap_app. fold (evicted (calls (default 0%Z o) x (p_cbq p))). by rewrite calls_evicted.
    - split; simpl.
      + intros j d d' H1 [[<- <-]|[? ?]]%lookup_insert_Some H2; left; simpl; congruence.
      + intros j d j' d' [[<- <-]|[? ?]]%lookup_insert_Some H1; congruence.
  Qed.
End tcb.
