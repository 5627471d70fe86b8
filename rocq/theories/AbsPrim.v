(** Preservation of the invariant by the primitive state changes. *)
From Verif Require Import Base AQueue ATable BasicHashtable QueueProofs BasicHashtableProofs Mapped Cache CacheAbs AbsInv.

Lemma nold_upd els x el el' e : els !! x = Some el ->
  nold (<[x := el']> els) e + cnt e (el_olds el) = nold els e + cnt e (el_olds el').
Proof. intros H. exact (msum_update (fun y => cnt e (el_olds y)) els x el el' H). Qed.
Lemma nwait_upd els x el el' e : els !! x = Some el ->
  nwait (<[x := el']> els) e + cnt e (el_waits el) = nwait els e + cnt e (el_waits el').
Proof. intros H. exact (msum_update (fun y => cnt e (el_waits y)) els x el el' H). Qed.
Lemma nold_same els x el el' e : els !! x = Some el -> el_olds el' = el_olds el ->
  nold (<[x := el']> els) e = nold els e.
Proof. intros H1 H2. pose proof (nold_upd els x el el' e H1). rewrite H2 in H. lia. Qed.
Lemma ncbs_zero cbs e : ncbs cbs e = 0 <-> forall i c, cbs !! i = Some c -> cb_el c <> e.
Proof.
  unfold ncbs. rewrite msum_zero. split; intros H i c Hi; specialize (H i c Hi); destruct (decide (cb_el c = e)); naive_solver.
Qed.
Lemma nold_zero els e : nold els e = 0 <-> forall i el, els !! i = Some el -> e ∉ el_olds el.
Proof.
  unfold nold. rewrite msum_zero. split; intros H i c Hi; specialize (H i c Hi); by apply cnt_zero.
Qed.
Lemma el_olds_elem el o : o ∈ el_olds el <-> exists n, PRefresh n o ∈ cbq_of (el_map el).
Proof.
  unfold el_olds, olds_of. rewrite elem_of_list_In, in_concat. split.
  - intros (l & Hl & Ho). apply in_map_iff in Hl as (p & <- & Hp). apply elem_of_list_In in Hp.
    destruct p as [w|n o']; simpl in Ho; [done|]. destruct Ho as [->|[]]. eauto.
  - intros [n Hn]. exists [o]. split; [|by left]. apply in_map_iff. exists (PRefresh n o). split; [done|]. by apply elem_of_list_In.
Qed.
Lemma ndone_app l1 l2 w : ndone (l1 ++ l2) w = ndone l1 w + ndone l2 w.
Proof. unfold ndone. induction l1; simpl; lia. Qed.
Lemma ndone_cons v l w : ndone (v :: l) w = ev_done w v + ndone l w.
Proof. done. Qed.

Notation StA := (@St comp_abs).
Definition a_del (c : acs) (e : N) : acs := Acs (delete e (a_hash c)) (a_bs c) (a_torn c) (a_q c) (a_dq c).

Section prim.
  Context (k : cfg).
  Notation inv := (inv k).

  Ltac dinv H := destruct H as [Hdom Hup Hnd Htab Hhash Hplace Hq Hbal Hdnd Hdq Hdnp Hrc Hrc0 Href Hout Hpin Hpriv Hpnd Hcb Hown Hheld Hinj Hnxt Hncb Hmode].

  Definition mode_ok (m : mapped) : Prop :=
    m <> MNone /\ (k_pointer k = false -> forall o, m <> MWeak o).

  (** ** ext *)
  Lemma ext_refl g s : ext [] g s g s.
  Proof. split; try done; try lia. - naive_solver. - by exists []. Qed.
  Lemma ext_trans W1 W2 g1 s1 g2 s2 g3 s3 : inv g1 s1 ->
    ext W1 g1 s1 g2 s2 -> ext W2 g2 s2 g3 s3 -> ext (W1 ++ W2) g1 s1 g3 s3.
  Proof.
    intros Hi [A1 A2 A3 A4 A5 A6 A7 A8] [B1 B2 B3 B4 B5 B6 B7 B8]. split.
    - lia.
    - lia.
    - congruence.
    - lia.
    - intros e He Hn. apply B5; [lia|]. by apply A5.
    - intros e el el' H1 H3. destruct (m_els (me s2) !! e) as [el2|] eqn:H2.
      + destruct (A6 _ _ _ H1 H2) as [E1 P1]. destruct (B6 _ _ _ H2 H3) as [E2 P2]. split; [congruence|auto].
      + assert (e < m_nxt (me s1))%N by (apply Hi; eauto). rewrite (B5 e) in H3; [done|lia|done].
    - destruct A7 as [l1 E1], B7 as [l2 E2]. exists (l2 ++ l1). rewrite E2, E1. by rewrite app_assoc.
    - intros w. specialize (A8 w). specialize (B8 w). rewrite cnt_app. lia.
  Qed.
  Lemma ext_trans0 W g1 s1 g2 s2 g3 s3 : inv g1 s1 ->
    ext [] g1 s1 g2 s2 -> ext W g2 s2 g3 s3 -> ext W g1 s1 g3 s3.
  Proof. intros Hi H1 H2. by apply (ext_trans [] W) with g2 s2. Qed.
  Lemma ext_trans1 W g1 s1 g2 s2 g3 s3 : inv g1 s1 ->
    ext W g1 s1 g2 s2 -> ext [] g2 s2 g3 s3 -> ext W g1 s1 g3 s3.
  Proof. intros Hi H1 H2. rewrite <-(app_nil_r W). by apply (ext_trans W []) with g2 s2. Qed.
  Lemma ext_weaken W W' g s g' s' : (forall w, cnt w W <= cnt w W') -> ext W g s g' s' -> ext W' g s g' s'.
  Proof.
    intros HW [A1 A2 A3 A4 A5 A6 A7 A8]. split; try done. intros w. specialize (A8 w). specialize (HW w). lia.
  Qed.
  (** ghost changes that do not concern waiters *)
  Lemma ext_ghost W g1 s g1' s' g2 g2' : g_wait g1 = g_wait g2 -> g_wait g1' = g_wait g2' ->
    ext W g1 s g1' s' -> ext W g2 s g2' s'.
  Proof.
    intros E1 E2 [A1 A2 A3 A4 A5 A6 A7 A8]. split; try done. intros w. unfold wtot. rewrite <-E1, <-E2. apply A8.
  Qed.

  (** ** changes of one element *)
  Lemma inv_upd g g' s x el el' :
    inv g s -> m_els (me s) !! x = Some el ->
    el_key el' = el_key el -> el_rc el' = el_rc el ->
    g_xs g' = g_xs g -> g_act g' = g_act g -> g_priv g' = g_priv g -> g_own g' = g_own g ->
    (forall e, cnt e (el_olds el) + cnt e (g_pins g) = cnt e (el_olds el') + cnt e (g_pins g')) ->
    (is_pend el' -> is_pend el) ->
    (is_pend el -> ~ is_pend el' -> forall i c, m_cbs (me s) !! i = Some c -> cb_el c = x -> cb_called c = false -> i ∈ g_act g) ->
    (forall p, p ∈ cbq_of (el_map el') -> p ∈ cbq_of (el_map el) \/
       match p with
       | PWait _ => True
       | PRefresh n o => n = x /\ o <> x /\ exists eo, m_els (me s) !! o = Some eo /\ ~ is_pend eo
       end) ->
    (x ∉ LT g (cs s) -> cbq_of (el_map el') = []) ->
    (x ∉ g_priv g \/ el_map el' = el_map el /\ (blank el -> blank el')) ->
    mode_ok (el_map el') ->
    inv g' (with_me s (wr_el (me s) x el')).
  Proof.
    intros Hi Hx Hk Hr Ex Ea Ep Eo Hold Hp1 Hp2 Hcbq Hout' Hpr Hm. dinv Hi.
    destruct g as [gp gx ga gw gv go], g' as [gp' gx' ga' gw' gv' go']. unfold LT in *. simpl in *. subst gx' ga' gv' go'.
    assert (forall e, is_Some (<[x:=el']> (m_els (me s)) !! e) <-> is_Some (m_els (me s) !! e)) as Hdm.
    { intros e. destruct (decide (e = x)) as [->|]; [rewrite lookup_insert, Hx; naive_solver|by rewrite lookup_insert_ne]. }
    assert (forall e, nold (<[x:=el']> (m_els (me s))) e + cnt e gp' = nold (m_els (me s)) e + cnt e gp) as Hsum.
    { intros e. pose proof (nold_upd _ x el el' e Hx). specialize (Hold e). lia. }
    split; unfold LT; simpl; try done.
    - intros e. by rewrite Hdm.
    - intros e He. rewrite Hdm. auto.
    - intros e ee He. destruct (decide (e = x)) as [->|]; [rewrite lookup_insert|rewrite lookup_insert_ne by done; eauto].
      intros [= <-]. rewrite Hk. eauto.
    - intros b B e ee Ht Hb He. destruct (decide (e = x)) as [->|]; [rewrite lookup_insert|rewrite lookup_insert_ne by done; eauto].
      intros [= <-]. rewrite Hk. eauto.
    - intros e ee He. destruct (decide (e = x)) as [->|]; [rewrite lookup_insert|rewrite lookup_insert_ne by done; eauto].
      intros [= <-] Hpe. eapply Hdnp; eauto.
    - intros e ee. specialize (Hsum e).
      destruct (decide (e = x)) as [->|]; [rewrite lookup_insert|rewrite lookup_insert_ne by done].
      + intros [= <-]. rewrite Hr. destruct (Hrc _ _ Hx). split; [lia|done].
      + intros He. destruct (Hrc _ _ He). split; [lia|done].
    - intros e. destruct (decide (e = x)) as [->|]; [by rewrite lookup_insert|rewrite lookup_insert_ne by done].
      intros He. specialize (Hsum e). specialize (Hrc0 e He). lia.
    - assert (forall o, (exists eo, m_els (me s) !! o = Some eo /\ ~ is_pend eo) ->
        exists eo, <[x:=el']> (m_els (me s)) !! o = Some eo /\ ~ is_pend eo) as Hnp.
      { intros o (eo & Heo & Hne). destruct (decide (o = x)) as [->|]; [rewrite lookup_insert|rewrite lookup_insert_ne by done; eauto].
        exists el'. split; [done|]. intros Hpe. apply Hne. replace eo with el by congruence. auto. }
      intros l ll n o. destruct (decide (l = x)) as [->|]; [rewrite lookup_insert|rewrite lookup_insert_ne by done].
      + intros [= <-] Hin. destruct (Hcbq _ Hin) as [Hin'|(-> & Hne & He)].
        * destruct (Href _ _ _ _ Hx Hin') as (-> & Hne & He). eauto.
        * eauto.
      + intros Hl Hin. destruct (Href _ _ _ _ Hl Hin) as (-> & Hne & He). eauto.
    - intros e ee. destruct (decide (e = x)) as [->|]; [rewrite lookup_insert|rewrite lookup_insert_ne by done; eauto].
      intros [= <-]. done.
    - intros e ee. destruct (decide (e = x)) as [->|]; [rewrite lookup_insert|rewrite lookup_insert_ne by done; eauto].
      intros [= <-] ? ?. eauto.
    - intros e. intros He. destruct (Hpriv e He) as (Hn & ee & Hee & Eq & Hbl). split; [done|].
      destruct (decide (e = x)) as [->|]; [rewrite lookup_insert|rewrite lookup_insert_ne by done; eauto].
      destruct Hpr as [?|[Hpr Hb]]; [done|]. exists el'. split; [done|]. split; [congruence|]. apply Hb. congruence.
    - intros i c Hc Hcall. intros Hact. destruct (Hcb i c Hc Hcall Hact) as (Hnp & ee & Hee & Hpe). split; [done|].
      destruct (decide (cb_el c = x)) as [E|]; [|rewrite lookup_insert_ne by done; eauto].
      rewrite E, lookup_insert in *. exists el'. split; [done|]. 
      unfold is_pend in *. destruct (el_pending el') eqn:Ee; [done|]. exfalso. apply Hact.
      apply (Hp2 ltac:(congruence) ltac:(congruence) i c); done.
    - intros e. rewrite Hdm. auto.
    - intros e ee. destruct (decide (e = x)) as [->|]; [rewrite lookup_insert|rewrite lookup_insert_ne by done; eauto].
      intros [= <-]. done.
  Qed.
  Lemma ext_upd W g g' s x el el' :
    m_els (me s) !! x = Some el -> el_key el' = el_key el ->
    (is_pend el' -> is_pend el) ->
    (forall w, cnt w (el_waits el) + cnt w (g_wait g) <= cnt w (el_waits el') + cnt w (g_wait g')
             <= cnt w (el_waits el) + cnt w (g_wait g) + cnt w W) ->
    ext W g s g' (with_me s (wr_el (me s) x el')).
  Proof.
    intros Hx Hk Hp Hw. split; simpl; try done; try lia.
    - intros e He Hn. rewrite lookup_insert_ne; [done|]. congruence.
    - intros e e1 e2 H1. destruct (decide (e = x)) as [->|]; [rewrite lookup_insert|rewrite lookup_insert_ne by done].
      + intros [= <-]. replace e1 with el by congruence. split; [done|]. unfold is_pend in *. naive_solver.
      + intros ?. replace e2 with e1 by congruence. done.
    - by exists [].
    - intros w. unfold wtot; simpl. pose proof (nwait_upd _ x el el' w Hx). specialize (Hw w). lia.
  Qed.

  (** updates that do not touch the callbacks, the pending status, the key and the count *)
  Definition soft (el el' : elem) : Prop :=
    el_key el' = el_key el /\ el_rc el' = el_rc el /\ cbq_of (el_map el') = cbq_of (el_map el) /\
    el_pending el' = el_pending el /\ mode_ok (el_map el').
  Lemma soft_ok g s x el f : inv g s -> m_els (me s) !! x = Some el -> soft el (f el) ->
    (x ∉ g_priv g \/ el_map (f el) = el_map el /\ (blank el -> blank (f el))) ->
    s_upd s x f = Ok (with_me s (wr_el (me s) x (f el))) /\
    inv g (with_me s (wr_el (me s) x (f el))) /\ ext [] g s g (with_me s (wr_el (me s) x (f el))).
  Proof.
    intros Hi Hx (Hk & Hr & Hc & Hp & Hm) Hpr. split_and!.
    - unfold s_upd, upd_el, rd_el. by rewrite Hx.
    - apply (inv_upd g g s x el); try done.
      + intros e. unfold el_olds. by rewrite Hc.
      + unfold is_pend. by rewrite Hp.
      + unfold is_pend. rewrite Hp. naive_solver.
      + intros p. rewrite Hc. by left.
      + intros Hn. rewrite Hc. by eapply i_out.
    - apply (ext_upd [] g g s x el); try done.
      + unfold is_pend. by rewrite Hp.
      + intros w. unfold el_waits. rewrite Hc. simpl. lia.
  Qed.

  (** ** reference counts *)
  Lemma inv_rc_chg g g' s x el r :
    inv g s -> m_els (me s) !! x = Some el -> r <> 0 ->
    g_xs g' = g_xs g -> g_act g' = g_act g -> g_priv g' = g_priv g -> g_own g' = g_own g ->
    (forall e, e <> x -> cnt e (g_pins g') = cnt e (g_pins g)) ->
    r + cnt x (g_pins g) = el_rc el + cnt x (g_pins g') ->
    inv g' (with_me s (wr_el (me s) x (with_rc el r))).
  Proof.
    intros Hi Hx Hr Ex Ea Ep Eo Hpo Hpx. pose proof (proj1 (i_rc _ _ _ Hi _ _ Hx)) as Hrx.
    dinv Hi.
    destruct g as [gp gx ga gw gv go], g' as [gp' gx' ga' gw' gv' go']. unfold LT in *. simpl in *. subst gx' ga' gv' go'.
    assert (forall e, is_Some (<[x:=with_rc el r]> (m_els (me s)) !! e) <-> is_Some (m_els (me s) !! e)) as Hdm.
    { intros e. destruct (decide (e = x)) as [->|]; [rewrite lookup_insert, Hx; naive_solver|by rewrite lookup_insert_ne]. }
    assert (forall e ee, <[x:=with_rc el r]> (m_els (me s)) !! e = Some ee -> exists ee', m_els (me s) !! e = Some ee' /\
      el_key ee = el_key ee' /\ el_map ee = el_map ee') as Hb.
    { intros e ee. destruct (decide (e = x)) as [->|]; [rewrite lookup_insert|rewrite lookup_insert_ne by done; eauto].
      intros [= <-]. eauto. }
    assert (forall e ee, m_els (me s) !! e = Some ee -> exists ee', <[x:=with_rc el r]> (m_els (me s)) !! e = Some ee' /\
      el_key ee = el_key ee' /\ el_map ee = el_map ee') as Hf.
    { intros e ee. destruct (decide (e = x)) as [->|]; [rewrite lookup_insert|rewrite lookup_insert_ne by done; eauto].
      rewrite Hx. intros [= <-]. eexists. split; [done|]. done. }
    assert (forall ee ee', el_map ee = el_map ee' -> is_pend ee <-> is_pend ee') as Hpe.
    { intros ee ee' E. unfold is_pend, el_pending. by rewrite E. }
    assert (forall e, nold (<[x:=with_rc el r]> (m_els (me s))) e = nold (m_els (me s)) e) as Hno.
    { intros e. by apply (nold_same _ x el). }
    split; unfold LT; simpl; try done.
    - intros e. by rewrite Hdm.
    - intros e. rewrite Hdm. auto.
    - intros e ee. intros He Hee. destruct (Hb _ _ Hee) as (ee' & H1 & -> & _). eauto.
    - intros b B e ee Ht HB He Hee. destruct (Hb _ _ Hee) as (ee' & H1 & -> & _). eauto.
    - intros e ee He Hee. destruct (Hb _ _ Hee) as (ee' & H1 & _ & E). rewrite (Hpe _ _ E). eauto.
    - intros e ee. rewrite Hno.
      destruct (decide (e = x)) as [->|]; [rewrite lookup_insert|rewrite lookup_insert_ne by done].
      + intros [= <-]. simpl. split; [lia|done].
      + intros He. rewrite Hpo by done. by apply Hrc.
    - intros e. rewrite Hno. destruct (decide (e = x)) as [->|]; [by rewrite lookup_insert|rewrite lookup_insert_ne by done].
      intros He. rewrite Hpo by done. by apply Hrc0.
    - intros l ll n o Hl Hin. destruct (Hb _ _ Hl) as (l' & H1 & _ & E). rewrite E in Hin.
      destruct (Href _ _ _ _ H1 Hin) as (-> & Hne & eo & Heo & Hnp). split_and!; try done.
      destruct (Hf _ _ Heo) as (eo' & H2 & _ & E2). exists eo'. split; [done|]. by rewrite <-(Hpe _ _ E2).
    - intros e ee Hee. destruct (Hb _ _ Hee) as (ee' & H1 & _ & ->). eauto.
    - intros e ee Hee. destruct (Hb _ _ Hee) as (ee' & H1 & _ & E). rewrite (Hpe _ _ E). eauto.
    - intros e. intros He. destruct (Hpriv e He) as (Hn & ee & Hee & Eq). split; [done|].
      destruct (decide (e = x)) as [->|]; [|exists ee; by rewrite lookup_insert_ne].
      rewrite Hx in Hee. injection Hee as <-. eexists. by rewrite lookup_insert.
    - intros i c Hc Hcall. intros Hact. destruct (Hcb i c Hc Hcall Hact) as (Hn & ee & Hee & Hp). split; [done|].
      destruct (Hf _ _ Hee) as (ee' & H1 & _ & E). exists ee'. split; [done|]. by rewrite <-(Hpe _ _ E).
    - intros e. rewrite Hdm. auto.
    - intros e ee Hee. destruct (Hb _ _ Hee) as (ee' & H1 & _ & ->). eauto.
  Qed.
  Lemma ext_rc g g' s x el r : m_els (me s) !! x = Some el -> g_wait g' = g_wait g ->
    ext [] g s g' (with_me s (wr_el (me s) x (with_rc el r))).
  Proof. intros Hx E. apply (ext_upd [] g g' s x el); try done. rewrite E. intros w. simpl. unfold el_waits; simpl. lia. Qed.

  Lemma inc_ok g s x : inv g s -> is_Some (m_els (me s) !! x) ->
    exists s', inc_ref s x = Ok s' /\ inv (pin x g) s' /\ ext [] g s (pin x g) s' /\ cs s' = cs s /\
      (exists el, m_els (me s) !! x = Some el /\ me s' = wr_el (me s) x (with_rc el (S (el_rc el)))).
  Proof.
    intros Hi [el Hx]. eexists. split_and!.
    - unfold inc_ref, s_upd, upd_el, rd_el. rewrite Hx. done.
    - apply (inv_rc_chg g); try done.
      + intros e He. simpl. rewrite cnt_cons. destruct (decide (x = e)); [congruence|]. done.
      + simpl. rewrite cnt_cons, decide_True by done. lia.
    - by apply ext_rc.
    - done.
    - eauto.
  Qed.

  (** pure description of [drop_ref] *)
  Definition f_dec (s : sta) (x : N) : sta :=
    match m_els (me s) !! x with
    | Some el =>
      match el_rc el with
      | S (S n) => with_me s (wr_el (me s) x (with_rc el (S n)))
      | _ => StA (a_del (cs s) x)
                (set_els (me s) (delete x (m_els (me s))))
      end
    | None => s
    end.

  Lemma pinned_dom g s x : inv g s -> x ∈ g_pins g -> exists el, m_els (me s) !! x = Some el.
  Proof.
    intros Hi Hx. destruct (m_els (me s) !! x) eqn:E; [eauto|]. pose proof (i_rc0 _ _ _ Hi _ E).
    apply cnt_pos in Hx. lia.
  Qed.

  Lemma inv_delete g s x el : inv (pin x g) s -> m_els (me s) !! x = Some el -> el_rc el = 1 ->
    x ∉ LT g (cs s) /\ x ∉ aq_elems (a_q (cs s)) /\ x ∉ a_dq (cs s) /\ cbq_of (el_map el) = [] /\
    inv g (StA (a_del (cs s) x)
             (set_els (me s) (delete x (m_els (me s))))).
  Proof.
    intros Hi Hx Hr1. dinv Hi. destruct (Hrc _ _ Hx) as [Hr _]. simpl in *. rewrite cnt_cons, decide_True in Hr by done.
    change (LT (pin x g) (cs s)) with (LT g (cs s)) in *.
    assert (x ∉ LT g (cs s)) as HnT by (apply cnt_zero; lia).
    assert (ncbs (m_cbs (me s)) x = 0) as Hncb0 by lia.
    assert (nold (m_els (me s)) x = 0) as Hno0 by lia.
    assert (x ∉ g_priv g) as Hnpv by (apply cnt_zero; lia).
    assert (x ∉ aq_elems (a_q (cs s))) as HnQ.
    { destruct (has_queue k); [by rewrite Hq|]. rewrite Hq. apply not_elem_of_nil. }
    assert (x ∉ a_dq (cs s)) as HnD by (intros HD; by apply Hdq in HD as [? _]).
    pose proof (Hout _ _ Hx HnT) as Hc0.
    assert (forall e, nold (delete x (m_els (me s))) e = nold (m_els (me s)) e) as Hnd'.
    { intros e. unfold nold. rewrite (msum_delete _ (m_els (me s)) x el Hx). unfold el_olds at 2. by rewrite Hc0. }
    split_and!; try done.
    split; simpl; try done.
    - intros e. destruct (decide (e = x)) as [->|]; [rewrite !lookup_delete; split; by intros [? ?]|].
      rewrite !lookup_delete_ne by done. apply Hdom.
    - intros e He. rewrite lookup_delete_ne; [by apply Htab|]. intros <-. done.
    - intros e ee He. assert (e <> x) by (intros ->; done). rewrite !lookup_delete_ne by done. by apply Hhash.
    - intros b B e ee Ht Hb He. rewrite lookup_delete_Some. intros [? ?]. eauto.
    - intros e ee He. rewrite lookup_delete_Some. intros [? ?]. eauto.
    - intros e ee. rewrite lookup_delete_Some, Hnd'. intros [Hne Hee]. destruct (Hrc _ _ Hee) as [E ?].
      rewrite cnt_cons, decide_False in E by done. done.
    - intros e. rewrite lookup_delete_None, Hnd'. destruct (decide (x = e)) as [<-|Hne].
      + intros _. rewrite Hncb0, Hno0. lia.
      + intros [?|He]; [done|]. specialize (Hrc0 _ He). rewrite cnt_cons in Hrc0. destruct (decide (x = e)); [done|]. lia.
    - intros l ll n o. rewrite lookup_delete_Some. intros [Hne Hl] Hin. destruct (Href _ _ _ _ Hl Hin) as (-> & Hno & eo & Heo & Hnp).
      split_and!; try done. exists eo. split; [|done]. rewrite lookup_delete_ne; [done|]. intros <-.
      apply nold_zero with (i := l) (el := ll) in Hno0; [|done]. apply Hno0. apply el_olds_elem. eauto.
    - intros e ee. rewrite lookup_delete_Some. intros [? ?]. eauto.
    - intros e ee. rewrite lookup_delete_Some. intros [? ?]. eauto.
    - intros e He. destruct (Hpriv e He) as (Hn & ee & Hee & Eq). split; [done|]. exists ee. split; [|done].
      rewrite lookup_delete_ne; [done|]. congruence.
    - intros i c Hc Hcall Hact. destruct (Hcb i c Hc Hcall Hact) as (Hn & ee & Hee & Hp). split; [done|].
      exists ee. split; [|done]. rewrite lookup_delete_ne; [done|]. intros E.
      pose proof (proj1 (ncbs_zero _ _) Hncb0 i c Hc). congruence.
    - intros e [ee Hee]. apply lookup_delete_Some in Hee as [_ ?]. eauto.
    - intros e ee. rewrite lookup_delete_Some. intros [? ?]. eauto.
  Qed.

  Lemma drop_ok g s x : inv (pin x g) s ->
    drop_ref s x = Ok (f_dec s x) /\ inv g (f_dec s x) /\ ext [] (pin x g) s g (f_dec s x).
  Proof.
    intros Hi. destruct (pinned_dom _ _ x Hi) as [el Hx]; [by left|].
    destruct (i_rc _ _ _ Hi _ _ Hx) as [Hr Hr0]. unfold drop_ref, s_el, rd_el, f_dec. rewrite Hx. simpl.
    destruct (el_rc el) as [|[|n]] eqn:E; [done| |].
    - destruct (inv_delete g s x el Hi Hx E) as (HnT & HnQ & HnD & Hc & Hi').
      assert (x ∉ a_tab (cs s)) as HnT' by (intros ?; apply HnT; apply elem_of_app; by right).
      split_and!; [|done|].
      + assert (destroy s x el = (c <- c_free comp_abs (cs s) x;; Ok (StA c (set_els (me s) (delete x (m_els (me s))))))) as ->.
        { unfold destroy. destruct (el_map el) as [[[|] ? ?]| | | | |] eqn:Em; try done. }
        simpl. unfold need. rewrite decide_True by done. done.
      + split; simpl; try done; try lia.
        * intros e He Hn. destruct (decide (e = x)) as [->|]; [apply lookup_delete|by rewrite lookup_delete_ne].
        * intros e e1 e2 H1. rewrite lookup_delete_Some. intros [_ H2]. replace e2 with e1 by congruence. done.
        * by exists [].
        * intros w. unfold wtot; simpl. unfold nwait. rewrite (msum_delete _ (m_els (me s)) x el Hx).
          unfold el_waits at 1. unfold el_waits at 4. rewrite Hc. unfold waits_of; simpl. unfold cnt; simpl. lia.
    - split_and!.
      + unfold s_upd, upd_el, rd_el. by rewrite Hx.
      + apply (inv_rc_chg (pin x g)); try done; simpl.
        * intros e He. rewrite cnt_cons, decide_False by done. done.
        * rewrite cnt_cons, decide_True by done. lia.
      + by apply ext_rc.
  Qed.
End prim.
