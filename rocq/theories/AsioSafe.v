(** Timer handlers that come late: the invariant across them (lemmas for PropertiesAsio.v). *)
From stdpp Require Import sorting.
From Verif Require Import Base AQueue ATable BasicHashtable QueueProofs BasicHashtableProofs ContainersProofs Mapped Cache CachePtr CacheAbs CompSim CacheSim AbsInv AbsPrim AbsPrim2 AbsSweep AbsOps AbsComp Trace AbsTrace TraceInv Delay AbsTraceCb Histories AbsResolve AbsStep AbsLook Effects Observe Transfer Lookups Origins Rounds Entries Asio AsioSpec Stable.

Section safe.
  Context (k : cfg).
  Notation inv := (inv k).
  Notation safe := (safe k).
  Notation mini := (mini k).
  Notation path := (path k).
  Notation J := (J k).

  (** what a queued handler finds *)
  Definition queued_ok (s : sta) (e : N) : Prop :=
    exists el, m_els (me s) !! e = Some el /\ ~ is_pend el /\ a_hash (cs s) !! e = Some (k_hash k (el_key el)) /\ (el_rs el = false -> noref s e).

  Lemma late_eqrc (m m' : mem) el el' : m_wall m = m_wall m' -> m_steady m = m_steady m' -> eqrc el el' -> late m el = late m' el'.
  Proof. intros E1 E2 E. destruct el, el'. injection E as ?. subst. unfold late, reached. simpl. by rewrite E1, E2. Qed.
  Lemma handler_ends W g s1 e u out keep throw B : inv (pin e g) s1 -> m_up (me s1) = true -> g_xs g = [] -> g_act g = [] ->
    queued_ok s1 e -> safe W B u -> rok out -> k_resolver k <> RNone -> J s1 -> (forall key b, ~ B (KRefresh key b)) -> k_refresh k <> None ->
    exists s', handler k s1 e u out keep throw = Ok s' /\ inv g s' /\ ext W (pin e g) s1 g s' /\
      (forall A : kind -> Prop, A KFree -> (forall key b, due_key k s1 e key -> A (KRefresh key b)) -> (forall κ, B κ -> A κ) ->
        (forall key v, due_key k s1 e key -> A (KEnter key HAny v)) -> path (upto A (m_ncb (me s1))) s1 s') /\
      (forall o, noref s1 o -> noref s' o \/ o = e /\ forall ee, m_els (me s') !! e = Some ee -> el_rs ee = true) /\
      (throw = false -> forall ee, m_els (me s') !! e = Some ee -> is_val (el_map ee) = true -> el_rs ee = true \/ late (me s') ee = true) /\
      (throw = false -> e ∈ tab s1 -> eq_ok k -> (forall κ, B κ -> clean none κ) -> (k_resolver k = RSync -> forall key c o, ~ B (KEnter key c o)) -> uq k none s1 -> uq k none s').
  Proof.
    intros I1 Hup1 Gx Ga (el & Hel1 & Hnp & Hhash & Hnrs) Hu Hok Hres HJ1 HnoR Hrf. unfold handler. rewrite Hup1. cbn [negb]. unfold s_el, rd_el. rewrite Hel1. simpl rbind.
    pose proof (i_up _ _ _ I1 Hup1) as Ht.
    assert (forall W' g' s', inv (pin e g') s' -> m_up (me s') = true -> ext W' (pin e g) s1 (pin e g') s' -> exists s'', drop_ref s' e = Ok s'' /\ inv g' s'' /\ ext W' (pin e g) s1 g' s'' /\
      forall A : kind -> Prop, A KFree -> path A s' s'') as Hdrop.
    { intros W' g' s' I' Hup' X'. destruct (drop_ok k _ _ _ I') as (E6 & I6 & X6). exists (f_dec s' e). split_and!; try done.
      - by eapply ext_trans1.
      - intros A HA. eapply dec_path; [done|exact I'|]. by apply (i_up _ _ _ I'). }
    destruct (_ || _) eqn:Eskip.
    { destruct (Hdrop W g s1 I1 Hup1) as (s' & E' & I' & X' & P'). { eapply ext_weaken; [|apply ext_refl]. intros y. rewrite cnt_nil. lia. }
      exists s'. split_and!; [done..| | | |].
      - intros A HA _ _ _. apply P'. by left.
      - intros o Ho. left. eapply (free_noref k); [by apply P'|done].
      - intros _ ee Hee Hv. destruct (drop_ok k _ _ _ I1) as (E6 & _). rewrite E' in E6. injection E6 as ->. apply f_dec_sub in Hee as (e0 & He0 & Eq). rewrite Hel1 in He0. injection He0 as <-.
        destruct (f_dec_me s1 e) as (_ & _ & _ & _ & _ & Ew & Es & _). rewrite (late_eqrc _ _ ee el Ew Es Eq). destruct ee, el. injection Eq as ?. simpl in *. subst.
        apply orb_true_iff in Eskip as [Hx|Hx]; [by left|right]. unfold el_expired in Hx. unfold late. simpl in *. by destruct el_map0.
      - intros _ _ Heq _ _ HU. eapply (path_uq k none (fun κ => κ = KFree)); [done|by intros κ ->|by apply P'|done]. }
    apply orb_false_iff in Eskip as [Hrs Hunex]. pose proof (Hnrs Hrs) as Hnr1. simpl c_hashof. rewrite Hhash. simpl rbind.
    set (l := m_nxt (me s1)). set (key := el_key el) in *.
    assert (exists s2, (match k_resolver k with
        | RNone => UB
        | RSync => '(s, l) <- resolve_sync k s1 (k_hash k key) key u out;; Ok (s, Some l)
        | RAsync => resolve_async k s1 (k_hash k key) key u keep throw
        end) = Ok (s2, if throw then match k_resolver k with RAsync => None | _ => Some l end else Some l) /\
        (if throw then match k_resolver k with RAsync => inv (pin e g) s2 /\ ext W (pin e g) s1 (pin e g) s2 | _ => True end else True) /\
        ((if throw then match k_resolver k with RAsync => False | _ => True end else True) ->
          inv (pin l (pin e g)) s2 /\ ext W (pin e g) s1 (pin l (pin e g)) s2 /\ exists ll, m_els (me s2) !! l = Some ll /\ el_key ll = key) /\
        (forall (A : kind -> Prop) cl, A KFree -> (forall κ, B κ -> A κ) -> (forall v, A (KEnter key cl v)) -> fits k s1 l key cl ->
          (cl <> HAny -> k_resolver k = RSync -> forall key' c o, ~ B (KEnter key' c o)) ->
          path (upto A (m_ncb (me s1))) s1 s2)) as (s2 & -> & Hth & Hgo & P2).
    { destruct (k_resolver k) eqn:Er; [done|..].
      - destruct (resolve_sync_ends k W (pin e g) s1 key u out B) as (s2 & s3 & E2 & E3 & _ & I3 & X3 & _ & _ & _ & (ll & Hll & _ & Ekl & _) & _ & P3); try done.
        rewrite E3. simpl rbind. exists s3. split_and!; [by destruct throw|by destruct throw|intros _; eauto|]. intros A cl HA1 HA2 HA3 Hfit Hnb. apply (P3 A cl); try done.
        intros Hcl key' c o HB. by destruct (Hnb Hcl eq_refl key' c o HB).
      - destruct (resolve_async_ends k W (pin e g) s1 key u keep throw B) as (s2 & E2 & _ & H3 & P3 & _); try done. rewrite E2.
        exists s2. split_and!; try done.
        + by destruct throw.
        + destruct throw; [done|]. intros _. destruct H3 as (I3 & X3 & ll & Hll & Ekl & _). eauto.
        + intros A cl HA1 HA2 HA3 Hfit _. by apply (P3 A cl). }
    assert (due_key k s1 e key) as Hdue by (exists el; done).
    destruct (if throw then match k_resolver k with RAsync => None | _ => Some l end else Some l) as [l0|] eqn:Eth.
    2: { destruct throw; [|done]. destruct (k_resolver k); try done. destruct Hth as [I2 X2]. simpl rbind.
      destruct (Hdrop W g s2 I2) as (s' & E' & I' & X' & P'); [by rewrite (x_up _ _ _ _ _ X2)|done|]. exists s'. split_and!; [done..| | |done|done].
      - intros A HA1 HA2 HA3 HA4. eapply path_trans; [apply (P2 A HAny); auto; done|]. apply P'. by left.
      - intros o Ho. left. eapply (free_noref k); [by apply P'|].
        eapply (path_noref k (upto (fun κ => forall key b, κ <> KRefresh key b) (m_ncb (me s1)))); [| |exact Ho].
        + intros key' [H|(? & ? & _)]; [by apply (H key' false)|done].
        + apply (P2 _ HAny); try done. intros κ HB key' b ->. by apply (HnoR key' b). }
    assert (l0 = l) as -> by (destruct throw, (k_resolver k); congruence).
    destruct Hgo as (I2 & X2 & ll & Hll & Ekl). { destruct throw, (k_resolver k); done. } clear Hth Eth.
    simpl rbind.
    assert (e < l)%N as Hlt. { apply (i_nxt _ _ _ I1 e). eauto. }
    assert (l <> e) as Hle by (intros ->; lia).
    destruct (pinned_dom k _ _ e I2) as [el2 Hel2]; [right; left|].
    assert (~ is_pend el2) as Hnp2. { eapply (x_el _ _ _ _ _ X2 e _ el2 Hel1 Hel2). done. }
    assert (el_key el2 = key) as Ek2. { destruct (x_el _ _ _ _ _ X2 e _ el2 Hel1 Hel2) as [-> _]. done. }
    assert (a_torn (cs s2) = None) as T2. { apply (i_up _ _ _ I2). by rewrite (x_up _ _ _ _ _ X2). }
    assert (forall o, noref s1 o -> noref s2 o) as Hnr12.
    { intros o Ho. eapply (path_noref k (upto (fun κ => forall key b, κ <> KRefresh key b) (m_ncb (me s1)))); [| |exact Ho].
      - intros key' [H|(? & ? & _)]; [by apply (H key' false)|done].
      - apply (P2 _ HAny); try done. intros κ HB key' b ->. by apply (HnoR key' b). }
    pose proof (Hnr12 e Hnr1) as Hnr2.
    assert (olds_at s2 l = []) as Hno2.
    { eapply (path_olds k (upto (fun κ => forall key b, κ <> KRefresh key b) (m_ncb (me s1)))); [| |].
      - intros key' [H|(? & ? & _)]; [by apply (H key' false)|done].
      - apply (P2 _ HAny); try done. intros κ HB key' b ->. by apply (HnoR key' b).
      - unfold olds_at. destruct (tv s1 l) as [en|] eqn:Tl; [|done]. exfalso. apply tv_elim in Tl as (Tl & _). apply (nxt_not_LT _ _ _ I1).
        unfold LT. simpl. rewrite Gx. simpl. by rewrite (a_tab_None _ Ht). }
    destruct (upd_soft k _ s2 e el2 (fun el => with_rs el true) I2 Hel2) as (E3 & I3 & X3).
    { apply soft_meta; try done. by eapply i_mode. } { left. by eapply nopend_not_priv. }
    rewrite E3. simpl rbind.
    assert (forall A : kind -> Prop, A KFree -> A (KRefresh key false) -> path A s2 (p_upd s2 e (fun el => with_rs el true))) as P3.
    { intros A HA1 HA2. apply (path_upd k A (KRefresh key false) s2 e _ el2); try done.
      - unfold eqrc, with_rc, with_rs. simpl. congruence.
      - intros _. rewrite <-Ek2. apply (c_rs k s2 e (with_rc el2 0)); [done|]. unfold el_pending. simpl. unfold is_pend, el_pending in Hnp2. by destruct (m_pending (el_map el2)). }
    set (s3 := p_upd s2 e (fun el => with_rs el true)) in *.
    assert (m_els (me s3) !! l = Some ll) as Hll3. { unfold s3. rewrite p_upd_lookup, decide_False by done. done. }
    assert (m_els (me s3) !! e = Some (with_rs el2 true)) as Hel3. { unfold s3. rewrite p_upd_lookup, decide_True by done. by rewrite Hel2. }
    assert (a_torn (cs s3) = None) as T3 by (unfold s3; by rewrite p_upd_cs).
    assert (tab s3 = tab s2) as Et3 by apply tab_upd.
    assert (forall o, noref s2 o -> noref s3 o) as Hnr23.
    { intros o Ho n en q Hn Hm. destruct (decide (n = e)) as [->|Hne].
      - apply tv_elim in Hn as (_ & e0 & He0 & ->). rewrite Hel3 in He0. injection He0 as <-. simpl in Hm. unfold is_pend, el_pending in Hnp2. by rewrite Hm in Hnp2.
      - unfold s3 in Hn. rewrite tv_upd in Hn by done. by eapply Ho. }
    pose proof (Hnr23 e Hnr2) as Hnr3.
    rewrite Hll3. simpl rbind.
    assert (m_up (me s3) = true) as Hup3 by (by rewrite (x_up _ _ _ _ _ X3), (x_up _ _ _ _ _ X2)).
    assert (exists s4, (match el_map ll with
        | MPend p => s <- s_upd s3 l (fun el => with_map el (MPend (p_add p (PRefresh l e))));; inc_ref s e
        | _ => refresh_event k s3 l e end) = Ok s4 /\ inv (pin l (pin e g)) s4 /\ ext [] (pin l (pin e g)) s3 (pin l (pin e g)) s4 /\
        (forall A : kind -> Prop, A KFree -> A (KRefresh key false) -> (~ is_pend ll -> A (KRefresh key true)) -> path A s3 s4) /\
        (forall o, o <> e -> noref s3 o -> noref s4 o) /\ (exists ee, m_els (me s4) !! e = Some ee /\ el_rs ee = true) /\
        (linked s4 l e \/ forall ee, tv s4 e = Some ee -> hopeful (el_map ee) = false)) as (s4 & -> & I4 & X4 & P4 & HN4 & (ee4 & He4 & Hr4) & HR).
    { assert (~ is_pend ll -> exists s4, refresh_event k s3 l e = Ok s4 /\ inv (pin l (pin e g)) s4 /\ ext [] (pin l (pin e g)) s3 (pin l (pin e g)) s4 /\
        (forall A : kind -> Prop, A KFree -> A (KRefresh key false) -> (~ is_pend ll -> A (KRefresh key true)) -> path A s3 s4) /\
        (forall o, o <> e -> noref s3 o -> noref s4 o) /\ (exists ee, m_els (me s4) !! e = Some ee /\ el_rs ee = true) /\
        (linked s4 l e \/ forall ee, tv s4 e = Some ee -> hopeful (el_map ee) = false)) as Hev.
      { intros Hn. destruct (revent_ends k (pin l (pin e g)) s3 l e (with_rs el2 true)) as (Er1 & Er2 & Er3);
          [done|eauto|by eapply nopend_not_priv|exact Hel3|done|].
        assert (forall A : kind -> Prop, A KFree -> A (KRefresh key true) -> path A s3 (f_revent k s3 l e)) as Pr.
        { intros A HA1 HA2. unfold f_revent. rewrite Hel3. unfold f_mark.
          set (s3' := if bool_decide _ then _ else s3).
          assert (path A s3 s3') as Pa.
          { unfold s3'. destruct (bool_decide _); [|apply path_refl]. apply (path_upd k A (KRefresh key true) s3 l _ ll); try done.
            - unfold eqrc, with_rc, with_cn. simpl. congruence.
            - intros _. rewrite <-Ekl. apply (c_min k s3 l (with_rc ll 0)); [done|]. unfold el_pending; simpl. unfold is_pend, el_pending in Hn. by destruct (m_pending (el_map ll)). }
          eapply path_trans; [exact Pa|]. apply (path_upd k A (KRefresh key true) s3' e _ (with_rs el2 true)); try done.
          + unfold s3'. destruct (bool_decide _); [|done]. rewrite p_upd_lookup, decide_False by done. done.
          + unfold eqrc, with_rc, with_map. simpl. congruence.
          + intros _. rewrite <-Ek2. apply (c_old k s3' e (with_rc (with_rs el2 true) 0)); [done|]. unfold el_pending; simpl. unfold is_pend, el_pending in Hnp2. by destruct (m_pending (el_map el2)). }
        exists (f_revent k s3 l e). split_and!; try done.
        - intros A HA1 _ HA2. apply Pr; auto.
        - intros o _. apply (path_noref k (fun κ => κ <> KRefresh key false /\ forall key', κ <> KRefresh key' false)); [intros key' [_ H]; by apply (H key')|by apply Pr].
        - rewrite f_revent_els. eexists. split; [by apply (re_els_old k _ l e _ Hle Hel3)|done].
        - right. intros ee (_ & e0 & He0 & ->)%tv_elim. rewrite f_revent_els in He0. rewrite (re_els_old k _ l e _ Hle Hel3) in He0. injection He0 as <-. simpl.
          unfold m_mark_expired, m_dead. by destruct (el_map el2), (k_pointer k). }
      destruct (el_map ll) as [p| | | | |] eqn:Em; try (apply Hev; unfold is_pend, el_pending; by rewrite Em). clear Hev.
      unfold s_upd, upd_el, rd_el. rewrite Hll3. simpl.
      assert (is_pend ll) as Hpl by (unfold is_pend, el_pending; by rewrite Em).
      destruct (i_pin _ _ _ I3 l ll Hll3 Hpl Hup3) as [HlL|Hpr].
      2: { simpl in Hpr. by apply (nxt_not_priv _ _ _ I1) in Hpr. }
      assert (l ∈ tab s3) as Hlt3. { unfold LT in HlL. simpl in HlL. rewrite Gx, (a_tab_None _ T3) in HlL. done. }
      set (s4 := with_me s3 (wr_el (me s3) l (with_map ll (MPend (p_add p (PRefresh l e)))))).
      assert (s4 = p_upd s3 l (fun el => with_map el (MPend (p_add p (PRefresh l e))))) as E4. { unfold s4, p_upd. by rewrite Hll3. }
      assert (inv (pin l g) s4) as I4.
      { apply (inv_upd k (pin l (pin e g)) (pin l g) s3 l ll); try done.
        - intros y. unfold el_olds; simpl. rewrite Em. simpl. unfold olds_of. rewrite map_app, concat_app. simpl.
          rewrite cnt_app, !cnt_cons, cnt_nil. lia.
        - intros q. simpl. rewrite Em. simpl. intros [?|Hq]%elem_of_app; [by left|]. apply elem_of_list_singleton in Hq as ->. right.
          split_and!; [done|done|]. eexists. by split.
        - left. simpl. exact (nxt_not_priv _ _ _ I1). }
      assert (ext [] (pin l (pin e g)) s3 (pin l g) s4) as X4.
      { apply (ext_upd _ _ _ _ _ ll); try done. intros y. unfold el_waits; simpl. rewrite Em. simpl. unfold waits_of. rewrite map_app, concat_app. simpl.
        rewrite app_nil_r. lia. }
      destruct (inc_ends k _ s4 e I4) as (E5 & I5 & X5). { simpl. rewrite lookup_insert_ne by done. eauto. }
      rewrite E5.
      eexists. split_and!; [done|..].
      - apply (inv_pins k (pin e (pin l g)) _ (l :: e :: g_pins g)) in I5; [exact I5|]. intros y. simpl. rewrite !cnt_cons. lia.
      - eapply ext_trans0; [exact I3|exact X4|]. eapply ext_ghost; [| |exact X5]; done.
      - intros A HA1 HA2 _. eapply path_trans; [|by apply path_inc]. rewrite E4. eapply (path_one k _ (KRefresh key false)); [done|].
        eapply (mini_upd k _ s3 l _ (with_rc ll 0)); [done|by apply tv_some| | |done].
        + unfold eqrc, with_rc, with_map. simpl. congruence.
        + rewrite <-Ekl. apply (c_ref k s3 l (with_rc ll 0) p e); try done.
          { unfold olds_at in Hno2. rewrite (tv_some s2 l ll) in Hno2; [|by rewrite <-Et3|done]. simpl in Hno2. by rewrite Em in Hno2. }
          intros eo (_ & e0 & He0 & ->)%tv_elim. rewrite Hel3 in He0. injection He0 as <-. simpl. split_and!; [by rewrite Ek2, Ekl|done|].
          unfold el_pending; simpl. unfold is_pend, el_pending in Hnp2. by destruct (m_pending (el_map el2)).
      - intros o Hoe Ho. eapply (free_noref k); [by apply (path_inc k)|]. rewrite E4. intros n en q Hn Hm Hin. destruct (decide (n = l)) as [->|Hnl].
        + apply tv_elim in Hn as (_ & e0 & He0 & ->). rewrite p_upd_lookup, decide_True in He0 by done. rewrite Hll3 in He0. injection He0 as <-. simpl in Hm. injection Hm as <-.
          simpl in Hin. unfold olds_of in Hin. rewrite map_app, concat_app in Hin. apply elem_of_app in Hin as [Hin|Hin].
          * eapply (Ho l (with_rc ll 0) p); [by apply tv_some|done|exact Hin].
          * simpl in Hin. apply elem_of_list_singleton in Hin. done.
        + rewrite tv_upd in Hn by done. by eapply Ho.
      - unfold p_inc. rewrite p_upd_lookup, decide_True by done. simpl. rewrite lookup_insert_ne by done. rewrite Hel3. simpl. eauto.
      - left. exists (with_rc (with_map ll (MPend (p_add p (PRefresh l e)))) 0), (p_add p (PRefresh l e)). split_and!; [|done|].
        + assert (tv (p_inc s4 e) l = tv s4 l) as ->. { unfold p_inc. by apply tv_upd. } apply tv_some; [exact Hlt3|]. simpl. by rewrite lookup_insert.
        + simpl. apply olds_iff. exists l. apply elem_of_app. right. by left. }
    simpl rbind.
    destruct (drop_ok k _ _ _ I4) as (E5 & I5 & X5). rewrite E5. simpl rbind.
    destruct (drop_ok k _ _ _ I5) as (E6 & I6 & X6). rewrite E6.
    assert (a_torn (cs s4) = None) as T4. { apply (i_up _ _ _ I4). by rewrite (x_up _ _ _ _ _ X4). }
    assert (a_torn (cs (f_dec s4 l)) = None) as T5. { apply (i_up _ _ _ I5). by rewrite (x_up _ _ _ _ _ X5), (x_up _ _ _ _ _ X4). }
    assert (forall A : kind -> Prop, A KFree -> path A s4 (f_dec (f_dec s4 l) e)) as P5.
    { intros A HA. eapply path_trans; [by eapply dec_path|]. by eapply dec_path. }
    assert (forall ee, m_els (me (f_dec (f_dec s4 l) e)) !! e = Some ee -> el_rs ee = true) as Hrs5.
    { intros ee Hee. destruct (el_rs ee) eqn:Hre; [done|]. exfalso.
      assert (e < m_nxt (me s4))%N as Hlt4 by (apply (i_nxt _ _ _ I4); eauto).
      destruct (hs_trans (N.succ e) _ _ _ (drop_ref_h (N.succ e) _ _ _ E5) (drop_ref_h (N.succ e) _ _ _ E6)) as [_ H]; [lia|].
      destruct (H e) as [_ H']; [lia|]. destruct (H' ee Hee) as (e0 & He0 & [Hl _]). rewrite He4 in He0. injection He0 as <-. rewrite (Hl Hre) in Hr4. done. }
    eexists. split_and!; [done|done|..].
    - eapply ext_trans1; [exact I1|exact X2|]. eapply ext_trans0; [exact I2|exact X3|].
      eapply ext_trans0; [exact I3|exact X4|]. eapply ext_trans0; [exact I4|exact X5|exact X6].
    - intros A HA1 HA2 HA3 HA4. assert (upto A (m_ncb (me s1)) KFree) as HF by (by left).
      assert (forall b, upto A (m_ncb (me s1)) (KRefresh key b)) as HR' by (intros b; left; by apply HA2).
      eapply path_trans; [apply (P2 A HAny); auto; done|]. eapply path_trans; [by apply P3|].
      eapply path_trans; [by apply P4|]. by apply P5.
    - intros o Ho. destruct (decide (o = e)) as [->|Hne].
      + by right.
      + left. eapply (free_noref k); [by apply P5|]. apply HN4; [done|]. by apply Hnr23, Hnr12.
    - intros _ ee Hee _. left. by apply Hrs5.
    - intros _ Htab Heq Hcl Hsync HU. pose proof (only_old k (pin e g) s1 e el I1 HJ1 Htab Hel1 Hnp Hrs Hunex HU) as Honly.
      set (R := fun x y : N => x = l /\ y = e).
      assert (uq k R s1) as HU1'. { intros x y ex ey Hx Hy Hne Hkk Hhx Hhy. destruct (HU x y ex ey Hx Hy Hne Hkk Hhx Hhy) as [?|[?|[[]|[]]]]; [by left|by right; left]. }
      assert (uq k R s2) as HU2.
      { eapply (path_uq k R (upto (fun κ => clean R κ) (m_ncb (me s1)))); [done| |apply (P2 (fun κ => clean R κ) (HRefresh e l)); try done|exact HU1'].
        - intros κ [?|(i & -> & _)]; [done|done].
        - intros κ HB%Hcl. by destruct κ as [| | | | | |? [] ?| | | | | |]. }
      assert (uq k R s4) as HU4.
      { eapply (path_uq k R (fun κ => clean R κ)); [done|done| |exact HU2]. eapply path_trans; [by apply P3|]. by apply P4. }
      eapply (path_uq k none (fun κ => κ = KFree)); [done|by intros κ ->|by apply P5|].
      intros x y ex ey Hx Hy Hne Hkk Hhx Hhy. destruct (HU4 x y ex ey Hx Hy Hne Hkk Hhx Hhy) as [?|[?|[[-> ->]|[-> ->]]]]; [by left|by right; left|..].
      + destruct HR as [HR|HR]; [by left|]. by rewrite (HR ey Hy) in Hhy.
      + destruct HR as [HR|HR]; [by right; left|]. by rewrite (HR ex Hx) in Hhx.
  Qed.
  (** ** Histories *)
  Context (Hk : fine_cfg k).
  Notation srel := (srel comp_abs comp_ptr crel).
  Definition gq (q : list N) : gh := Gh q [] [] [] [] [].
  (** what holds between operations, with the handlers of [q] queued *)
  Record atop (s : sta) (q : list N) : Prop := {
    at_inv : inv (gq q) s;
    at_down : m_up (me s) = false -> a_tab (cs s) = [];
    at_J : m_up (me s) = true -> J s;
    at_q e : e ∈ q -> k_refresh k <> None /\ (m_up (me s) = true -> queued_ok s e)
  }.
  (** the values of [q] with key [key] are gone *)
  Definition gone (s : sta) (q : list N) (key : Z) : Prop :=
    forall e el, e ∈ q -> m_els (me s) !! e = Some el -> k_hash k (el_key el) = k_hash k key /\ k_eq k (el_key el) key = true -> hopeful (el_map el) = false.

  Lemma keep_queued W g s g' s' e : inv g s -> inv g' s' -> ext W g s g' s' -> hs (m_nxt (me s)) s s' -> e ∈ g_pins g' ->
    (noref s e -> noref s' e \/ forall ee, m_els (me s') !! e = Some ee -> el_rs ee = true) -> queued_ok s e ->
    queued_ok s' e /\ forall el el', m_els (me s) !! e = Some el -> m_els (me s') !! e = Some el' -> el_key el' = el_key el /\ (hopeful (el_map el) = false -> hopeful (el_map el') = false).
  Proof using.
    intros Hi Hi' X H He Hr (el & Hel & Hnp & Hh & Hrs). destruct (H (N.le_refl _)) as [_ H']. destruct (H' e) as [Ha Hl]; [apply (i_nxt _ _ _ Hi); eauto|]. clear H H'.
    destruct (pinned_dom k _ _ e Hi' He) as [el' Hel']. destruct (Hl el' Hel') as (e0 & He0 & [L1 L2]). rewrite Hel in He0. injection He0 as <-.
    destruct (x_el _ _ _ _ _ X e el el' Hel Hel') as [Ek Hnp']. split.
    - exists el'. split_and!; [done|by apply Hnp'| |].
      + destruct (proj2 (i_dom _ _ _ Hi' e)) as [h Hh']; [eauto|]. rewrite Hh', Ek. f_equal. apply Ha in Hh'. congruence.
      + intros Hr'. destruct (Hr (Hrs (L1 Hr'))) as [?|H]; [done|]. by rewrite (H el' Hel') in Hr'.
    - intros e1 e1' H1 H1'. assert (e1 = el) as -> by congruence. assert (e1' = el') as -> by congruence. split; [done|]. intros Hf.
      destruct (L2 ltac:(unfold is_pend in Hnp; by destruct (el_pending el))) as [_ Hho]. destruct (hopeful (el_map el')); [|done]. by rewrite Hho in Hf.
  Qed.
  Lemma keep_gone W g s q g' s' q' key : inv g s -> inv g' s' -> ext W g s g' s' -> hs (m_nxt (me s)) s s' -> (forall e, e ∈ q' -> e ∈ q /\ e ∈ g_pins g' /\ queued_ok s e) ->
    gone s q key -> gone s' q' key.
  Proof using.
    intros Hi Hi' X H Hq HG e el' He Hel' Hs. destruct (Hq e He) as (He1 & He2 & (el & Hel & Hnp & _)).
    destruct (H (N.le_refl _)) as [_ H']. destruct (H' e) as [_ Hl]; [apply (i_nxt _ _ _ Hi); eauto|]. destruct (Hl el' Hel') as (e0 & He0 & [_ L2]). rewrite Hel in He0. injection He0 as <-.
    destruct (x_el _ _ _ _ _ X e el el' Hel Hel') as [Ek _]. rewrite Ek in Hs. specialize (HG e el He1 Hel Hs).
    destruct (L2 ltac:(unfold is_pend in Hnp; by destruct (el_pending el))) as [_ Hho]. destruct (hopeful (el_map el')); [|done]. by rewrite Hho in HG.
  Qed.

  Lemma okind_norefresh' o nested key b : fine_op nested o = true -> (forall items, o <> OTick items) -> ~ okind k o (KRefresh key b).
  Proof using.
    intros Hf Ho. destruct o; try (by apply okind_norefresh); [by edestruct Ho|by intros []].
  Qed.
  (** calls *)
  Lemma call_ends o s q : atop s q -> fine_op false o = true -> (forall items, o <> OTick items) ->
    exists s' r, step k false o s = Ok (s', r) /\ atop s' q /\ (forall w, wtot g0 s w <= wtot g0 s' w <= wtot g0 s w + cnt w (op_waiters o)) /\
      (m_up (me s) = false -> m_up (me s') = false) /\
      (m_up (me s') = true -> forall key, enters (same k key) o = false -> nohope k s key -> nohope k s' key) /\
      (m_up (me s') = true -> forall key, gone s q key -> gone s' q key) /\
      (m_up (me s') = true -> eq_ok k -> clean_op k o = true -> uq k none s -> uq k none s') /\
      (m_up (me s') = true -> forall d i, k_refresh k = Some (d, i) -> tame k -> k_steady k = true \/ sets_back o = false -> cover (.∈ q) s -> cover (.∈ q) s').
  Proof using Hk.
    intros [Hi Hd HJ HQ] Hf Hno. assert (o = ODestroy \/ o <> ODestroy) as [->|Hnd] by (destruct o; try (by right); by left).
    - rewrite step_eq. unfold step_with. destruct (m_up (me s)) eqn:Hup; simpl negb; simpl andb; cbv iota.
      + destruct (destroy_ends k (gq q) s Hi eq_refl) as (s' & E & I & Hw & T & U & L). rewrite E. simpl rbind.
        eexists _, _. split; [done|]. split; [split; [done|done|by rewrite U|]|].
        { intros e He. split; [exact (proj1 (HQ e He))|by rewrite U]. }
        rewrite U. split; [|by split_and!]. intros w. specialize (Hw w). unfold wtot in *. simpl in *. rewrite cnt_nil. lia.
      + eexists _, _. split; [done|]. split; [by split; rewrite ?Hup|]. rewrite Hup. split; [|by split_and!]. intros w. simpl. rewrite cnt_nil. lia.
    - destruct (good_step k Hk o false (gq q) s Hf Hnd eq_refl eq_refl Hi HJ) as (s' & r & E & I & X & P). eexists _, _. split; [done|].
      assert (m_up (me s') = m_up (me s)) as Hup' by apply X. pose proof (step_h k (m_nxt (me s)) o false s s' r E) as Hh.
      split; [split; [done|..]|split_and!].
      + rewrite Hup'. intros Hup. destruct (down_step k o false (gq q) s s' r Hi Hup Hf eq_refl eq_refl E) as [Eb Et].
        unfold a_tab. rewrite Eb, Et. by apply Hd.
      + rewrite Hup'. intros Hup. destruct (P Hup) as [P' _]. eapply path_J; [exact P'|by apply HJ].
      + intros e He. destruct (HQ e He) as [H1 H2]. split; [done|]. rewrite Hup'. intros Hup. destruct (P Hup) as [P' _].
        eapply keep_queued; [exact Hi|exact I|exact X|exact Hh|done| |by apply H2]. intros Hn. left. eapply path_noref; [|exact P'|exact Hn].
        intros key [H|(? & ? & _)]; [|done]. by eapply okind_norefresh'.
      + intros w. apply (x_wait _ _ _ _ _ X w).
      + by rewrite Hup'.
      + rewrite Hup'. intros Hup key He Hn. destruct (P Hup) as (_ & _ & P'). by apply P'.
      + rewrite Hup'. intros Hup key Hg. eapply keep_gone; [exact Hi|exact I|exact X|exact Hh| |exact Hg]. intros e He. split_and!; [done|done|by apply HQ].
      + rewrite Hup'. intros Hup Heq Hc HU. destruct (P Hup) as (_ & P' & _). by apply P'.
      + rewrite Hup'. intros Hup d i Er Hta Hb HC. destruct (P Hup) as [P' _]. eapply (path_cover k d i Er); [done|by apply HJ| | |exact P'|exact HC].
        * intros κ HA. destruct Hb as [?|Hb]; [by left|right]. by eapply top_back.
        * intros e HA. exfalso. eapply nopop; [exact Hf| |exact HA]. destruct o; try done. by edestruct Hno.
  Qed.
  (** a timer runs out *)
  Definition fired (s : sta) (q : list N) (a' : ast comp_abs) : Prop :=
    atop (a_cache a') (a_queued a') /\ (forall w, wtot g0 (a_cache a') w = wtot g0 s w) /\ m_up (me (a_cache a')) = m_up (me s) /\
      (m_up (me s) = true -> forall key, nohope k s key -> nohope k (a_cache a') key) /\
      (m_up (me s) = true -> forall key, nohope k s key -> gone s q key -> gone (a_cache a') (a_queued a') key) /\
      (m_up (me s) = true -> eq_ok k -> uq k none s -> uq k none (a_cache a')) /\
      (m_up (me s) = true -> forall d i, k_refresh k = Some (d, i) -> tame k -> cover (.∈ q) s -> cover (.∈ a_queued a') (a_cache a')).
  Lemma fired_same s q : atop s q -> fired s q (ASt s q).
  Proof using. intros T. by split_and!. Qed.
  Lemma run_out_ends s q e : atop s q -> m_up (me s) = true -> e ∈ a_dq (cs s) -> exists a', run_out (ASt s q) e = Ok a' /\ fired s q a'.
  Proof using.
    intros T Hup He. pose proof T as [Hi Hd HJ HQ]. unfold run_out. cbn [a_cache a_queued].
    destruct (i_dq _ _ _ Hi e He) as [HeL Hrf]. destruct (i_tab _ _ _ Hi e HeL) as [el Hel].
    pose proof (i_up _ _ _ Hi Hup) as Ht0.
    assert (e ∈ tab s) as Htab. { unfold LT in HeL. by rewrite (a_tab_None _ Ht0) in HeL. }
    simpl c_dunlink. unfold need. rewrite decide_True by done. cbn [rbind].
    set (s1 := with_cs s _).
    assert (inv (gq q) s1) as I1.
    { apply inv_dq; [done|..].
      - apply rm_nodup. apply Hi.
      - intros x [_ Hx]%elem_of_rm. by apply Hi.
      - intros x ex [_ Hx]%elem_of_rm. by apply (i_dnp _ _ _ Hi). }
    assert (mini (KPop e) s s1) as M1.
    { apply mini_of; [done|apply rest_cs|]. apply b_same; try done; [by right; right; left; exists e|]. by intros e' [= ->]. }
    assert (ext [] (gq q) s (gq q) s1) as X1 by (by apply ext_cs).
    destruct (inc_ends k (gq q) s1 e I1) as (E2 & I2 & X2); [eauto|]. rewrite E2. cbn [rbind].
    pose proof (path_inc k (fun κ => κ = KFree) s1 e eq_refl) as P2. set (s2 := p_inc s1 e) in *.
    exists (ASt s2 (q ++ [e])). cbn [a_cache a_queued].
    assert (inv (gq (q ++ [e])) s2) as I3. { apply (inv_pins k (pin e (gq q)) _ (q ++ [e])) in I2; [exact I2|]. intros y. simpl. rewrite cnt_app, !cnt_cons, cnt_nil. lia. }
    assert (ext [] (gq q) s (gq (q ++ [e])) s2) as X. { eapply ext_trans0; [exact Hi|exact X1|]. eapply ext_ghost; [| |exact X2]; done. }
    assert (path (fun κ => κ = KFree \/ κ = KPop e) s s2) as P.
    { eapply path_trans; [eapply path_one; [|exact M1]; by right|]. eapply path_weaken; [|exact P2]. intros κ ->. by left. }
    assert (m_els (me s2) !! e = Some (with_rc el (S (el_rc el)))) as Hel2. { unfold s2, p_inc. rewrite p_upd_lookup, decide_True by done. simpl. by rewrite Hel. }
    assert (forall x, x <> e -> m_els (me s2) !! x = m_els (me s) !! x) as Hels. { intros x Hx. unfold s2, p_inc. by rewrite p_upd_lookup, decide_False. }
    assert (a_hash (cs s2) = a_hash (cs s)) as Eha. { unfold s2, p_inc. by rewrite p_upd_cs. }
    assert (forall o, noref s o -> noref s2 o) as Hnr. { intros o. apply (path_noref k (fun κ => κ = KFree \/ κ = KPop e)); [naive_solver|done]. }
    assert (m_up (me s2) = true) as Hup2 by (by rewrite (x_up _ _ _ _ _ X)).
    assert (queued_ok s e) as Hqe.
    { exists el. split_and!; [done|by eapply (i_dnp _ _ _ Hi)|by apply (i_hash _ _ _ Hi)|]. intros Hrs. by eapply (noref_old k (gq q)); [|apply HJ|..]. }
    assert (forall x, queued_ok s x -> queued_ok s2 x) as Hqo.
    { intros x (ex & H1 & H2 & H3 & H4). destruct (decide (x = e)) as [->|Hne].
      - rewrite Hel in H1. injection H1 as <-. eexists. split; [exact Hel2|]. rewrite Eha. split_and!; [done|done|]. intros. by apply Hnr, H4.
      - exists ex. rewrite Hels, Eha by done. split_and!; try done. intros. by apply Hnr, H4. }
    split; [done|]. unfold fired. cbn [a_cache a_queued]. split; [split|split_and!]; try done.
    - by rewrite Hup2.
    - intros _. eapply path_J; [exact P|by apply HJ].
    - intros x Hx. split; [done|]. intros _. apply Hqo. apply elem_of_app in Hx as [Hx|Hx]; [by apply HQ|]. by apply elem_of_list_singleton in Hx as ->.
    - intros w. pose proof (x_wait _ _ _ _ _ X w) as H. unfold wtot in *. simpl in *. rewrite cnt_nil in *. lia.
    - by rewrite Hup2, Hup.
    - intros _ key. apply (path_nohope k (fun κ => κ = KFree \/ κ = KPop e)); [naive_solver|done].
    - intros _ key Hn Hg x ex Hx Hex Hs. apply elem_of_app in Hx as [Hx|Hx].
      + destruct (decide (x = e)) as [->|Hne]; [|rewrite Hels in Hex by done; by eapply Hg].
        rewrite Hel2 in Hex. injection Hex as <-. simpl in *. by eapply (Hg e el).
      + apply elem_of_list_singleton in Hx as ->. rewrite Hel2 in Hex. injection Hex as <-. simpl in *. apply (Hn e (with_rc el 0)); [by apply tv_some|done].
    - intros _ Heq. apply (path_uq k none (fun κ => κ = KFree \/ κ = KPop e)); [done|by intros κ [->| ->]|done].
    - intros _ d i Er Hta HC. assert (cover (.∈ q ++ [e]) s) as HC0. { intros x ex Tx Hv Hr Hl. destruct (HC x ex Tx Hv Hr Hl) as [?|?]; [by left|right]. apply elem_of_app. by left. }
      eapply (path_cover k d i Er); [done|by apply HJ| | |exact P|exact HC0].
      + intros κ [->| ->]; by right.
      + intros x [?|[= ->]]; [done|]. apply elem_of_app. right. by left.
  Qed.
  Lemma fire_ends s q : atop s q -> exists a', fire (ASt s q) = Ok a' /\ fired s q a'.
  Proof using.
    intros T. pose proof T as [Hi Hd HJ HQ]. unfold fire. cbn [a_cache a_queued].
    destruct (m_up (me s)) eqn:Hup; cbn [negb]; [|exists (ASt s q); split; [done|by apply fired_same]].
    simpl c_dfront. cbn [rbind]. destruct (a_dq (cs s)) as [|e dq] eqn:Edq; simpl head; [exists (ASt s q); split; [done|by apply fired_same]|].
    assert (e ∈ a_dq (cs s)) as He by (rewrite Edq; by left).
    destruct (i_dq _ _ _ Hi e He) as [HeL Hrf]. destruct (i_tab _ _ _ Hi e HeL) as [el Hel].
    unfold s_el, rd_el. rewrite Hel. simpl rbind. case_bool_decide as Hdue; [by apply run_out_ends|exists (ASt s q); split; [done|by apply fired_same]].
  Qed.
  Lemma expire_timer_ends due e s q : atop s q -> exists a', expire_timer due e (ASt s q) = Ok a' /\ fired s q a'.
  Proof using.
    intros T. pose proof T as [Hi Hd HJ HQ]. unfold expire_timer. cbn [a_cache a_queued].
    destruct (m_up (me s)) eqn:Hup; cbn [negb]; [|exists (ASt s q); split; [done|by apply fired_same]].
    destruct (m_els (me s) !! e) as [el|] eqn:Hel; [|exists (ASt s q); split; [done|by apply fired_same]].
    simpl c_dlinked. unfold need. rewrite decide_True; [|apply (i_dom _ _ _ Hi); eauto]. cbn [rbind].
    destruct (_ && _) eqn:Eb; [|exists (ASt s q); split; [done|by apply fired_same]]. apply andb_true_iff in Eb as [Eb%bool_decide_eq_true _]. by apply run_out_ends.
  Qed.
  (** a handler runs *)
  Lemma handle_ends s q n e script out keep throw : atop s q -> q !! n = Some e -> forallb (fine_op true) script = true -> no_ctor_throw out = true ->
    exists s', handler k s e (run_nested k script) out keep throw = Ok s' /\ atop s' (take n q ++ drop (S n) q) /\
      (forall w, wtot g0 s w <= wtot g0 s' w <= wtot g0 s w + cnt w (concat (map op_waiters script))) /\ m_up (me s') = m_up (me s) /\
      (m_up (me s) = true -> forall key, existsb (enters (same k key)) script = false -> gone s q key -> nohope k s key -> nohope k s' key) /\
      (m_up (me s) = true -> forall key, gone s q key -> gone s' (take n q ++ drop (S n) q) key) /\
      (m_up (me s) = true -> e ∈ tab s -> eq_ok k -> aplain_op k (AHandle n (script, out, (keep, throw))) = true -> uq k none s -> uq k none s') /\
      (m_up (me s) = true -> forall d i, k_refresh k = Some (d, i) -> tame k -> k_steady k = true \/ existsb sets_back script = false -> throw = false ->
        cover (.∈ q) s -> cover (.∈ take n q ++ drop (S n) q) s').
  Proof using Hk.
    intros [Hi Hd HJ HQ] Hn Hfs Hno. set (q' := take n q ++ drop (S n) q).
    assert (forall y, cnt y q = cnt y (e :: q')) as Hcnt. { intros y. rewrite <-(take_drop_middle q n e Hn) at 1. unfold q'. rewrite cnt_app, !cnt_cons, cnt_app. lia. }
    assert (forall y, y ∈ q' -> y ∈ q) as Hsub. { intros y Hy. apply cnt_pos. apply cnt_pos in Hy. rewrite Hcnt, cnt_cons. lia. }
    assert (inv (pin e (gq q')) s) as I1. { apply (inv_pins k _ _ (e :: q')) in Hi; [exact Hi|]. intros y. simpl. by rewrite Hcnt. }
    assert (e ∈ q) as He by (by eapply elem_of_list_lookup_2).
    destruct (HQ e He) as [Hrf Hqe].
    assert (forall s' W, inv (gq q') s' -> ext W (pin e (gq q')) s (gq q') s' -> handler k s e (run_nested k script) out keep throw = Ok s' ->
       hs (m_nxt (me s)) s s') as Hhs.
    { intros s' W I' X' E'. eapply (handler_h k _ s e (run_nested k script)); [|exact E']. apply nested_h. apply Forall_forall. intros o _. apply step_h. }
    destruct (m_up (me s)) eqn:Hup.
    - destruct (handler_ends (concat (map op_waiters script)) (gq q') s e (run_nested k script) out keep throw (kinds k script)) as (s' & E' & I' & X' & P' & N' & Rs' & Uq'); try done.
      { by apply Hqe. }
      { apply safe_run; [apply Forall_forall; intros o _; by apply good_step|done]. }
      { by apply rok_of. }
      { by apply Hk. }
      { by apply HJ. }
      { intros key b (x & Hx & Hx')%anyof_exists. eapply (okind_norefresh k x); [by eapply forallb_in|exact Hx']. }
      exists s'. split; [done|]. pose proof (x_up _ _ _ _ _ X') as Hup'. rewrite Hup in Hup'. specialize (Hhs s' _ I' X' E').
      split; [split; [done|by rewrite Hup'|..]|split_and!; [|done|..]].
      + intros _. eapply path_J; [apply (P' (fun _ => True)); done|by apply HJ].
      + intros y Hy. split; [done|]. intros _. destruct (HQ y (Hsub y Hy)) as [_ Hqy]. eapply keep_queued; [exact I1|exact I'|exact X'|exact Hhs|done| |by apply Hqy].
        intros Hny. destruct (N' y Hny) as [?|[-> ?]]; auto.
      + intros w. pose proof (x_wait _ _ _ _ _ X' w) as H. unfold wtot in *. simpl in *. done.
      + intros _ key Hen Hg Hnh. destruct (Hqe eq_refl) as (el & Hel & Hnp & _).
        eapply (path_nohope k (upto (fun κ => match κ with KEnter key' _ _ => ~ (k_hash k key' = k_hash k key /\ k_eq k key' key = true) | _ => True end) (m_ncb (me s)))); [|apply P'|exact Hnh]; try done.
        * intros key' c o [Hc|(i & Hc & _)]; [exact Hc|discriminate Hc].
        * intros κ HBκ. destruct κ as [| | | | | |key' cl o| | | | | |]; try done. intros [Ha Hb]. apply anyof_exists in HBκ as (x & Hx & Hx').
          assert (same k key key' = false) as Hsm. { eapply (okind_enters k (same k key) x); [by eapply forallb_in|exact Hx'|]. by eapply existsb_false. }
          unfold same in Hsm. by rewrite bool_decide_true, Hb in Hsm.
        * intros key' v (e1 & He1 & _ & <- & Hx) Hs. rewrite Hel in He1. injection He1 as <-. pose proof (unexpired_hopeful k _ s e el I1 Hel Hx Hnp) as Hh.
          rewrite (Hg e el He Hel Hs) in Hh. done.
      + intros _ key Hg. eapply keep_gone; [exact I1|exact I'|exact X'|exact Hhs| |exact Hg]. intros y Hy. split_and!; [by apply Hsub|done|by apply HQ; [apply Hsub|]].
      + intros _ Htab Heq Hpl HU. cbn [aplain_op] in Hpl. apply andb_true_iff in Hpl as [Hpl Hth]. apply plain_clean in Hpl. simpl in Hth, Hpl. rewrite andb_true_r in Hpl.
        apply Uq'; try done.
        * by destruct throw.
        * intros κ (x & Hx & Hx')%anyof_exists. assert (fine_op true x = true) as Hfo by exact (forallb_in _ _ _ Hfs Hx).
          destruct (k_resolver k) eqn:Er'.
          2: (apply negb_true_iff in Hpl; pose proof (existsb_false _ _ _ Hpl Hx) as He'; destruct κ as [| | | | | |key cl v| | | | | |]; try done; by pose proof (okind_enters k _ x key cl v Hfo Hx' He')).
          all: eapply okind_clean; [exact Hfo|by destruct x| |exact Hx']; by eapply forallb_in.
        * intros Er key c o (x & Hx & Hx')%anyof_exists. rewrite Er in Hpl. apply negb_true_iff in Hpl.
          pose proof (okind_enters k (fun _ => true) x key c o (forallb_in _ _ _ Hfs Hx) Hx' (existsb_false _ _ _ Hpl Hx)) as H. done.
      + intros _ d i Er Hta Hb Hth HC.
        assert (cover (.∈ q) s') as HC'.
        { eapply (path_cover k d i Er (.∈ q) (upto (fun κ => forward k κ /\ forall x, κ <> KPop x) (m_ncb (me s)))); [done|by apply HJ|..|exact HC].
          - intros κ [[? _]|(j & -> & _)]; [done|by right].
          - intros x [[_ H]|(j & ? & _)]; [by destruct (H x)|done].
          - apply P'; try (intros; split; [by right|done]). intros κ (x & Hx & Hx')%anyof_exists. pose proof (forallb_in _ _ _ Hfs Hx) as Hfo. split.
            + destruct Hb as [?|Hb]; [by left|right]. eapply (okind_back k x κ); [exact Hfo|exact Hx'|by eapply existsb_false].
            + intros y ->. by eapply okind_nopop. }
        intros x ex Tx Hv Hr Hl. destruct (HC' x ex Tx Hv Hr Hl) as [?|Hx]; [by left|]. destruct (decide (x ∈ q')) as [?|Hnx]; [by right|exfalso].
        assert (x = e) as ->. { apply cnt_pos in Hx. rewrite Hcnt, cnt_cons in Hx. case_decide; [done|]. destruct Hnx. apply cnt_pos. lia. }
        apply tv_elim in Tx as (_ & ee & Hee & ->). simpl in *. destruct (Rs' Hth ee Hee Hv) as [?|HL]; [congruence|].
        rewrite (late_eqrc (me s') (me s') ee (with_rc ee 0)) in HL by done. congruence.
    - unfold handler. rewrite Hup. cbn [negb]. destruct (drop_ok k _ _ _ I1) as (E6 & I6 & X6). exists (f_dec s e). split; [done|].
      pose proof (x_up _ _ _ _ _ X6) as Hup'. rewrite Hup in Hup'. split; [split; [done|..|]|split_and!; [|done..]].
      + intros _. unfold f_dec. rewrite <-(Hd eq_refl). repeat case_match; done.
      + by rewrite Hup'.
      + intros y Hy. split; [done|]. by rewrite Hup'.
      + intros w. pose proof (x_wait _ _ _ _ _ X6 w) as H. unfold wtot in *. simpl in *. rewrite cnt_nil in H. lia.
  Qed.

  Definition atop' (a : ast comp_abs) : Prop := atop (a_cache a) (a_queued a).
  Definition lost (key : Z) (a : ast comp_abs) : Prop := m_up (me (a_cache a)) = true -> nohope k (a_cache a) key /\ gone (a_cache a) (a_queued a) key.
  Lemma astep_ends o a : atop' a -> afine_op o = true ->
    exists a' r, astep k o a = Ok (a', r) /\ atop' a' /\ (forall w, wtot g0 (a_cache a) w <= wtot g0 (a_cache a') w <= wtot g0 (a_cache a) w + cnt w (awaiters [o])) /\
      (m_up (me (a_cache a)) = false -> m_up (me (a_cache a')) = false) /\
      (forall key, aenters (same k key) o = false -> lost key a -> lost key a').
  Proof using Hk.
    destruct a as [s q]. unfold atop', lost. cbn [a_cache a_queued]. intros T Hf. destruct o as [o| |due0 e0|n [[script out] [keep throw]]].
    - assert ((exists items, o = OTick items) \/ forall items, o <> OTick items) as [[items ->]|Ho] by (destruct o; try (by right); left; eauto).
      { eexists _, _. split; [done|]. split_and!; try done. intros w. unfold awaiters. simpl. rewrite cnt_nil. lia. }
      destruct (call_ends o s q T Hf Ho) as (s' & r & E & T' & Hw & Hup & Hn & Hg & _). exists (ASt s' q), r.
      assert (astep k (ACall o) (ASt s q) = ('(s, r) <- step k false o s;; Ok (ASt s q, r))) as -> by (destruct o; try done; by edestruct Ho).
      rewrite E. split; [done|]. cbn [a_cache a_queued]. split_and!; [done| |done|].
      + intros w. assert (awaiters [ACall o] = op_waiters o ++ []) as ->; [|rewrite app_nil_r; apply Hw]. unfold awaiters. simpl. destruct o; try done. by edestruct Ho.
      + intros key He HL Hup'. destruct (m_up (me s)) eqn:Hu; [|by rewrite Hup in Hup']. destruct (HL eq_refl). split; [by apply Hn|by apply Hg].
    - destruct (fire_ends s q T) as (a' & E & T' & Hw & Hup & Hn & Hg & _). exists a', RetNone. cbn [astep]. rewrite E. split; [done|]. split_and!; [done| | |].
      + intros w. rewrite Hw. lia.
      + by rewrite Hup.
      + rewrite Hup. intros key _ HL Hu. destruct (HL Hu). split; [by apply Hn|by apply Hg].
    - destruct (expire_timer_ends due0 e0 s q T) as (a' & E & T' & Hw & Hup & Hn & Hg & _). exists a', RetNone. cbn [astep]. rewrite E. split; [done|]. split_and!; [done| | |].
      + intros w. rewrite Hw. lia.
      + by rewrite Hup.
      + rewrite Hup. intros key _ HL Hu. destruct (HL Hu). split; [by apply Hn|by apply Hg].
    - cbn [astep a_queued a_cache]. destruct (q !! n) as [e|] eqn:Hn.
      2: { eexists _, _. split; [done|]. split_and!; try done. intros w. cbn [a_cache]. lia. }
      simpl in Hf. apply andb_true_iff in Hf as [Hf1 Hf2].
      destruct (handle_ends s q n e script out keep throw T Hn Hf1 Hf2) as (s' & E & T' & Hw & Hup & Hnh & Hg & _). rewrite E. cbn [rbind].
      eexists _, _. split; [done|]. cbn [a_cache a_queued]. split_and!; [done| | |].
      + intros w. unfold awaiters. simpl. rewrite app_nil_r. apply Hw.
      + by rewrite Hup.
      + rewrite Hup. intros key He HL Hu. destruct (HL Hu). split; [by apply Hnh|by apply Hg].
  Qed.
  Lemma arun_ends l : forall a, atop' a -> afine l ->
    exists a', arun k l a = Ok a' /\ atop' a' /\ (forall w, wtot g0 (a_cache a) w <= wtot g0 (a_cache a') w <= wtot g0 (a_cache a) w + cnt w (awaiters l)) /\
      (m_up (me (a_cache a)) = false -> m_up (me (a_cache a')) = false) /\
      (forall key, forallb (fun o => negb (aenters (same k key) o)) l = true -> lost key a -> lost key a').
  Proof using Hk.
    induction l as [|o l IH]; intros a T Hf.
    - exists a. split; [done|]. split_and!; try done. intros w. lia.
    - unfold afine in Hf. simpl in Hf. apply andb_true_iff in Hf as [Hf1 Hf2]. destruct (astep_ends o a T Hf1) as (a1 & r & E1 & T1 & W1 & U1 & L1).
      destruct (IH a1 T1 Hf2) as (a2 & E2 & T2 & W2 & U2 & L2). exists a2. cbn [arun]. rewrite E1. cbn [rbind]. split_and!; [done|done| |auto|].
      + intros w. specialize (W1 w). specialize (W2 w). assert (awaiters (o :: l) = awaiters [o] ++ awaiters l) as ->; [|rewrite cnt_app; lia].
        unfold awaiters. simpl. by rewrite app_nil_r.
      + intros key He HL. simpl in He. apply andb_true_iff in He as [He1%negb_true_iff He2]. auto.
  Qed.
  Lemma arun_app l1 l2 : forall {C : comp} (a : ast C), arun k (l1 ++ l2) a = (a <- arun k l1 a;; arun k l2 a).
  Proof using.
    induction l1 as [|o l1 IH]; intros C a; [done|]. cbn [app arun]. destruct (astep k o a) as [[a1 r]| | |]; [|done..]. cbn [rbind]. apply IH.
  Qed.
  Lemma atop_init : atop' a_init.
  Proof using Hk. split; [apply inv_init|done|intros _; apply J_init|intros e He; by apply elem_of_nil in He]. Qed.

  (** ** Every value has a timer or a handler, or its refresh has been started *)
  Lemma astep_cover o a a' r d i : k_refresh k = Some (d, i) -> tame k -> atop' a -> afine_op o = true -> k_steady k = true \/ aback o = false -> athrows o = false ->
    astep k o a = Ok (a', r) -> (m_up (me (a_cache a)) = true -> cover (.∈ a_queued a) (a_cache a)) -> m_up (me (a_cache a')) = true -> cover (.∈ a_queued a') (a_cache a').
  Proof using Hk.
    intros Er Hta. destruct a as [s q]. unfold atop'. cbn [a_cache a_queued]. intros T Hf Hb Hth E HC Hup. destruct o as [o| |due0 e0|n [[script out] [keep throw]]].
    - assert ((exists items, o = OTick items) \/ forall items, o <> OTick items) as [[items ->]|Ho] by (destruct o; try (by right); left; eauto).
      { injection E as <- _. by apply HC. }
      destruct (call_ends o s q T Hf Ho) as (s' & r' & E' & T' & _ & Hd & _ & _ & _ & HQ).
      assert (astep k (ACall o) (ASt s q) = ('(s, r) <- step k false o s;; Ok (ASt s q, r))) as H by (destruct o; try done; by edestruct Ho).
      rewrite H, E' in E. cbn [rbind] in E. injection E as <- _. cbn [a_cache a_queued] in *.
      apply (HQ Hup d i Er Hta); [done|]. apply HC. by destruct (m_up (me s)) eqn:Hu; [|rewrite Hd in Hup].
    - destruct (fire_ends s q T) as (a1 & E1 & _ & _ & Hu & _ & _ & _ & HQ). cbn [astep] in E. rewrite E1 in E. cbn [rbind] in E. injection E as <- _.
      rewrite Hu in Hup. apply (HQ Hup d i Er Hta). by apply HC.
    - destruct (expire_timer_ends due0 e0 s q T) as (a1 & E1 & _ & _ & Hu & _ & _ & _ & HQ). cbn [astep] in E. rewrite E1 in E. cbn [rbind] in E. injection E as <- _.
      rewrite Hu in Hup. apply (HQ Hup d i Er Hta). by apply HC.
    - cbn [astep a_queued a_cache] in E. destruct (q !! n) as [e|] eqn:Hn; [|injection E as <- _; by apply HC].
      simpl in Hf. apply andb_true_iff in Hf as [Hf1 Hf2].
      destruct (handle_ends s q n e script out keep throw T Hn Hf1 Hf2) as (s' & E' & _ & _ & Hu & _ & _ & _ & HQ). rewrite E' in E. cbn [rbind] in E. injection E as <- _. cbn [a_cache a_queued] in *.
      rewrite Hu in Hup. apply (HQ Hup d i Er Hta); [done|done|]. by apply HC.
  Qed.
  Lemma arun_cover l d i : k_refresh k = Some (d, i) -> tame k -> forall a a', atop' a -> afine l -> k_steady k = true \/ existsb aback l = false -> existsb athrows l = false ->
    arun k l a = Ok a' -> (m_up (me (a_cache a)) = true -> cover (.∈ a_queued a) (a_cache a)) -> m_up (me (a_cache a')) = true -> cover (.∈ a_queued a') (a_cache a').
  Proof using Hk.
    intros Er Hta. induction l as [|o l IH]; intros a a' T Hf Hb Hth E HC; [by injection E as <-|].
    unfold afine in Hf. simpl in Hf, Hb, Hth. apply andb_true_iff in Hf as [Hf1 Hf2]. apply orb_false_iff in Hth as [Hth1 Hth2]. rewrite orb_false_iff in Hb.
    destruct (astep_ends o a T Hf1) as (a1 & r & E1 & T1 & _). cbn [arun] in E. rewrite E1 in E. cbn [rbind] in E.
    apply (IH a1 a'); try done; [tauto|]. apply (astep_cover o a a1 r d i); try done. tauto.
  Qed.

  (** ** Both levels *)
  Notation arel := (arel comp_abs comp_ptr crel).
  Theorem asio_runs l : afine l -> exists (aa : ast comp_abs) (ac : ast comp_ptr),
    arun k l a_init = Ok aa /\ arun k l a_init = Ok ac /\ arel aa ac /\ atop' aa /\ (forall w, wtot g0 (a_cache aa) w <= cnt w (awaiters l)).
  Proof using Hk.
    intros Hf. destruct (arun_ends l a_init atop_init Hf) as (aa & E & T & W & _).
    assert (arel a_init a_init) as H0 by (constructor; apply (h_init _ _ _ comp_ptr_sim)).
    pose proof (h_arun k _ _ _ comp_ptr_sim l a_init a_init H0) as Hs. rewrite E in Hs. destruct Hs as (ac & Ec & Ha).
    exists aa, ac. split_and!; try done. intros w. specialize (W w). unfold wtot in *. simpl in *.
    unfold ndone, nwait, msum in *. simpl in *. rewrite map_fold_empty, cnt_nil in W. rewrite cnt_nil. lia.
  Qed.
  Lemma asio_abs l ac : afine l -> arun k l a_init = Ok ac -> exists aa : ast comp_abs,
    arun k l a_init = Ok aa /\ a_queued aa = a_queued ac /\ srel (a_cache aa) (a_cache ac) /\ atop' aa /\ (forall w, wtot g0 (a_cache aa) w <= cnt w (awaiters l)).
  Proof using Hk.
    intros Hf Ha. destruct (asio_runs l Hf) as (aa & ac' & E & Ha' & S & T & W).
    assert (ac' = ac) as -> by congruence. exists aa. split_and!; try done; by destruct S.
  Qed.
  Lemma asio_bound l ac w : afine l -> arun k l a_init = Ok ac ->
    waiting w (a_cache ac) + length (deliveries w (a_cache ac)) <= length (filter (fun x => x = w) (awaiters l)).
  Proof using Hk.
    intros Hf Ha. destruct (asio_abs l ac Hf Ha) as (aa & _ & _ & S & _ & W). specialize (W w).
    rewrite (waiting_nwait _ _ w S), (deliveries_ndone _ _ w S). unfold wtot in W. simpl in W. rewrite cnt_nil in W. unfold cnt in W. lia.
  Qed.

  (** every value has a timer or a handler, or its refresh has been started *)
  Lemma asio_cover l (ac : ast comp_ptr) d i : k_refresh k = Some (d, i) -> tame k -> afine l -> k_steady k = true \/ existsb aback l = false -> existsb athrows l = false ->
    arun k l a_init = Ok ac -> m_up (me (a_cache ac)) = true -> exists aa : ast comp_abs, srel (a_cache aa) (a_cache ac) /\ a_queued aa = a_queued ac /\ atop' aa /\ cover (.∈ a_queued aa) (a_cache aa).
  Proof using Hk.
    intros Er Hta Hf Hb Hth Ha Hup. destruct (asio_abs l ac Hf Ha) as (aa & E & Q & S & T & _). exists aa. split_and!; try done.
    eapply (arun_cover l d i Er Hta a_init aa atop_init); try done. by rewrite (srel_me _ _ S).
  Qed.
  Lemma asio_complete d i : k_refresh k = Some (d, i) -> forall l (ac : ast comp_ptr) e el v, tame k -> afine l -> k_steady k = true \/ existsb aback l = false -> existsb athrows l = false ->
    arun k l a_init = Ok ac -> m_up (me (a_cache ac)) = true ->
    e ∈ table_entries (a_cache ac) -> m_els (me (a_cache ac)) !! e = Some el -> el_map el = MVal v -> el_rs el = false -> in_time (a_cache ac) el ->
    e ∈ refresh_queue (a_cache ac) \/ e ∈ a_queued ac.
  Proof using Hk.
    intros Er l ac e el v Hta Hf Hb Hth Ha Hup He Hel Hm Hrs Hin. destruct (asio_cover l ac d i Er Hta Hf Hb Hth Ha Hup) as (aa & S & Q & T & HC).
    pose proof (at_inv _ _ T) as Hi. assert (a_torn (cs (a_cache aa)) = None) as Ht. { apply (i_up _ _ _ Hi). by rewrite (srel_me _ _ S). }
    destruct (queue_obs _ _ S) as [_ ->]. rewrite (table_obs _ _ S Ht) in He. rewrite <-(srel_me _ _ S) in Hel. rewrite <-Q.
    apply (HC e (with_rc el 0)); try done; [by apply tv_some|simpl; by rewrite Hm|]. apply in_time_late in Hin. rewrite (srel_me _ _ S). done.
  Qed.
  Lemma asio_found d i : k_refresh k = Some (d, i) -> forall l (ac : ast comp_ptr) key v, tame k -> afine l -> k_steady k = true \/ existsb aback l = false -> existsb athrows l = false ->
    arun k l a_init = Ok ac -> peek k (a_cache ac) key = Some v ->
    exists e el, e ∈ table_entries (a_cache ac) /\ m_els (me (a_cache ac)) !! e = Some el /\ k_eq k (el_key el) key = true /\ el_map el = MVal v /\
      (e ∈ refresh_queue (a_cache ac) \/ e ∈ a_queued ac \/ el_rs el = true).
  Proof using Hk.
    intros Er l ac key v Hta Hf Hb Hth Ha Hp. destruct (asio_abs l ac Hf Ha) as (aa & E & Q & S & T & _). pose proof (at_inv _ _ T) as Hi.
    destruct (peek_entry_g k _ _ _ key v S Hi Hp) as (Hupa & x & el & Tx & Ek & Hv & Hx). pose proof (i_up _ _ _ Hi Hupa) as Ht. pose proof (at_J _ _ T Hupa) as HJ.
    destruct (tv_obs _ _ x el S Ht Tx) as (H1 & el0 & H2 & ->). exists x, el0.
    assert (el_map el0 = MVal v) as Hm.
    { destruct (j_tame _ _ HJ x _ Hta Tx) as [Hw _]. simpl in Hv, Hw. destruct (el_map el0) as [p|w|[w|]|y| |]; try done; [by injection Hv as ->|by destruct (Hw w)]. }
    split_and!; try done. destruct (el_rs el0) eqn:Ers; [by right; right|].
    assert (x ∈ refresh_queue (a_cache ac) \/ x ∈ a_queued ac) as [?|?]; [|by left|by right; left].
    eapply (asio_complete d i Er l ac x el0 v); try done; [by rewrite <-(srel_me _ _ S)|]. apply in_time_late. rewrite <-(srel_me _ _ S). unfold el_expired in Hx. rewrite !orb_false_iff in Hx.
    destruct Hx as [[[_ X1] X2] X3]. simpl in *. unfold late. by rewrite X1, X2, X3.
  Qed.

  (** after the destruction *)
  Lemma asio_down (s : sta) q : atop s q -> m_up (me s) = false ->
    forall e el, m_els (me s) !! e = Some el -> cbq_of (el_map el) = [] /\ ((exists i c, m_cbs (me s) !! i = Some c /\ cb_el c = e) \/ e ∈ q).
  Proof using.
    intros [Hi Hd _ _] U e el He. specialize (Hd U).
    assert (forall x, x ∉ LT (gq q) (cs s)) as Hn by (intros x; unfold LT; simpl; rewrite Hd; apply not_elem_of_nil).
    assert (forall x ex, m_els (me s) !! x = Some ex -> cbq_of (el_map ex) = []) as Hq by (intros x ex Hx; by eapply i_out; eauto).
    split; [by eapply Hq|]. destruct (decide (e ∈ q)) as [?|Hne]; [by right|]. left.
    destruct (i_rc _ _ _ Hi e el He) as [Hr Hr0].
    assert (nold (m_els (me s)) e = 0) as E0.
    { unfold nold. apply msum_zero. intros x ex Hx. unfold el_olds. by rewrite (Hq x ex Hx). }
    assert (cnt e (LT (gq q) (cs s)) = 0) as E1 by (apply cnt_zero; apply Hn). simpl in Hr. rewrite cnt_nil in Hr.
    assert (cnt e q = 0) as E2 by (by apply cnt_zero).
    assert (0 < ncbs (m_cbs (me s)) e) as Hpos by lia. clear -Hpos.
    destruct (decide (ncbs (m_cbs (me s)) e = 0)) as [?|Hne]; [lia|].
    assert (exists i c, m_cbs (me s) !! i = Some c /\ cb_el c = e) as ?; [|done].
    revert Hne. clear Hpos. unfold ncbs. induction (m_cbs (me s)) as [|i c m Hi IH] using map_ind; [by rewrite msum_empty|].
    rewrite msum_insert by done. destruct (decide (cb_el c = e)) as [He|].
    - intros _. exists i, c. split; [apply lookup_insert|done].
    - intros H. destruct IH as (j & d & Hj & Hd); [lia|]. exists j, d. split; [|done]. rewrite lookup_insert_ne; [done|congruence].
  Qed.
  Lemma asio_destroyed l1 l2 (a0 a : ast comp_ptr) : afine (l1 ++ ACall ODestroy :: l2) -> arun k l1 a_init = Ok a0 -> arun k (l1 ++ ACall ODestroy :: l2) a_init = Ok a ->
    (forall e, entry (a_cache a) e -> outstanding (a_cache a) e \/ e ∈ a_queued a) /\
    (m_cbs (me (a_cache a)) = ∅ -> a_queued a = [] -> m_els (me (a_cache a)) = ∅) /\
    (forall w, waiting w (a_cache a) = 0) /\
    (forall w, waiting w (a_cache a0) + length (deliveries w (a_cache a0)) <= length (deliveries w (a_cache a))).
  Proof using Hk.
    intros Hf Ha0 Ha. pose proof Hf as Hf0. unfold afine in Hf. rewrite forallb_app in Hf. apply andb_true_iff in Hf as [Hf1 Hf2]. simpl in Hf2.
    destruct (asio_abs _ _ Hf1 Ha0) as (s0 & E0 & Q0 & S0 & T0 & _). destruct (asio_abs _ _ Hf0 Ha) as (s & E & Q & S & T & _).
    rewrite arun_app, E0 in E. unfold rbind in E at 1. destruct (arun_ends (ACall ODestroy :: l2) s0 T0 Hf2) as (s' & E' & _ & W & _). replace s' with s in * by congruence.
    assert (m_up (me (a_cache s)) = false) as U.
    { destruct (astep_ends (ACall ODestroy) s0 T0 eq_refl) as (s1 & r & E1 & T1 & _). cbn [arun] in E. rewrite E1 in E. cbn [rbind] in E.
      destruct (arun_ends l2 s1 T1 Hf2) as (s2 & E2 & _ & _ & U2 & _). replace s2 with s in * by congruence. apply U2.
      cbn [astep] in E1. rewrite step_eq in E1. unfold step_with in E1. destruct (m_up (me (a_cache s0))) eqn:Hup; simpl negb in E1; simpl andb in E1; cbv iota in E1.
      - destruct (destroy_ends k _ _ (at_inv _ _ T0) eq_refl) as (sd & Ed & _ & _ & _ & Ud & _). rewrite Ed in E1. cbn [rbind] in E1. by injection E1 as <- _.
      - cbn [rbind] in E1. by injection E1 as <- _. }
    pose proof (asio_down _ _ T U) as HD. rewrite (srel_me _ _ S), Q in HD.
    assert (forall w, waiting w (a_cache a) = 0) as Hw.
    { intros w. rewrite (waiting_nwait _ _ w S). unfold nwait. apply msum_zero. intros e el He. rewrite (srel_me _ _ S) in He.
      unfold el_waits. by rewrite (proj1 (HD e el He)). }
    split_and!; [..|done|].
    - intros e [el He]. by apply (HD e el He).
    - intros Hc Hq. apply map_eq. intros e. rewrite lookup_empty. destruct (m_els (me (a_cache a)) !! e) as [el|] eqn:He; [|done].
      destruct (HD e el He) as (_ & [(i & c & Hi & _)|H]); [by rewrite Hc, lookup_empty in Hi|]. rewrite Hq in H. by apply elem_of_nil in H.
    - intros w. specialize (W w). unfold wtot in W. simpl in W. rewrite !cnt_nil in W. rewrite (deliveries_ndone _ _ w S), (deliveries_ndone _ _ w S0), (waiting_nwait _ _ w S0).
      specialize (Hw w). rewrite (waiting_nwait _ _ w S) in Hw. lia.
  Qed.

  (** ** What was removed while no handler for it was queued *)
  Lemma asio_removed key l1 o l2 (a1 a : ast comp_ptr) : eq_ok k -> afine (l1 ++ ACall o :: l2) -> removes k key o = true -> arun k l1 a_init = Ok a1 -> ~ handler_queued k a1 key ->
    forallb (fun o => negb (aenters (fun key' => k_eq k key' key) o)) l2 = true -> arun k (l1 ++ ACall o :: l2) a_init = Ok a -> peek k (a_cache a) key = None.
  Proof using Hk.
    intros Heq Hf Hr Ha1 Hnq He0 Ha. assert (forallb (fun o => negb (aenters (same k key) o)) l2 = true) as He.
    { rewrite <-He0. clear -Heq. assert (forall key', same k key key' = k_eq k key' key) as Hs.
      { intros key'. unfold same. destruct (k_eq k key' key) eqn:E; [|by rewrite andb_false_r]. destruct Heq as (_ & _ & _ & Hh). by rewrite (bool_decide_true _ (Hh _ _ E)). }
      induction l2 as [|o l IH]; simpl; [done|]. rewrite IH. do 2 f_equal. destruct o as [o| |due e|n item]; simpl; [by apply enters_ext|done|done|].
      induction item.1.1 as [|x r IHr]; simpl; [done|]. rewrite IHr. f_equal. by apply enters_ext. }
    pose proof Hf as Hf0. unfold afine in Hf. rewrite forallb_app in Hf. apply andb_true_iff in Hf as [Hf1 Hf2]. simpl in Hf2. apply andb_true_iff in Hf2 as [Hf2 Hf3].
    destruct (asio_abs _ _ Hf1 Ha1) as (s1 & E1 & Q1 & S1 & T1 & _). destruct (asio_abs _ _ Hf0 Ha) as (s & E & Q & S & T & _).
    rewrite arun_app, E1 in E. unfold rbind in E at 1. cbn [arun] in E. destruct (astep_ends (ACall o) s1 T1 Hf2) as (s2 & r & E2 & T2 & _ & U2 & _).
    pose proof E2 as E2'. rewrite E2 in E. cbn [rbind] in E. destruct (arun_ends l2 s2 T2 Hf3) as (s3 & E3 & _ & _ & _ & L3). replace s3 with s in * by congruence. clear s3 E3.
    assert (lost key s2) as HL2.
    { intros Hup2. destruct (m_up (me (a_cache s1))) eqn:Hup1; [|by rewrite U2 in Hup2].
      pose proof (at_inv _ _ T1) as Hi. pose proof (i_up _ _ _ Hi Hup1) as Ht.
      destruct (call_ends o (a_cache s1) (a_queued s1)) as (s' & r' & Es & T' & _ & _ & _ & Hg & _); [done|done|by intros items ->|].
      assert (s2 = ASt s' (a_queued s1)) as ->.
      { assert (astep k (ACall o) s1 = ('(s, r) <- step k false o (a_cache s1);; Ok (ASt s (a_queued s1), r))) as H by (by destruct o). rewrite H, Es in E2. cbn [rbind] in E2. by injection E2 as <- _. }
      cbn [a_cache a_queued] in *. split.
      - rewrite step_eq in Es. unfold step_with in Es. rewrite Hup1 in Es. destruct o; try done; simpl in Hr; cbn [negb andb] in Es.
        + rewrite (proj1 (proj1 (expire_ends k _ _ key0 Hi Ht))) in Es. cbn [rbind] in Es. injection Es as <- _. eapply nohope_eq; [done|apply Heq; exact Hr|]. by eapply expire_nohope.
        + rewrite (proj1 (proj1 (expire_all_ends k _ _ Hi Ht))) in Es. cbn [rbind] in Es. injection Es as <- _. by eapply clear_nohope.
      - apply Hg; [done|]. intros e el He1 Hel [_ Hs]. destruct Hnq. exists e, el. rewrite <-Q1, <-(srel_me _ _ S1). done. }
    pose proof (L3 key He HL2) as HL. unfold peek, answer.
    assert (step k false (OGetIf key) (a_cache s) = Ok (a_cache s, RetNone)) as Eg.
    { rewrite step_eq. unfold step_with. destruct (m_up (me (a_cache s))) eqn:Hup; simpl; [|done].
      pose proof (at_inv _ _ T) as Hi. pose proof (i_up _ _ _ Hi Hup) as Ht. rewrite (lookup_eq k _ _ key Hi Ht). simpl. rewrite (nohope_lookup k _ _ _ Hi Ht); [done|]. by apply HL. }
    by destruct (step_c k _ _ _ _ _ _ S Eg) as (sc' & -> & _).
  Qed.

  (** ** One live entry per key while the handlers run in place *)
  Lemma astep_uq o a a' r : eq_ok k -> atop' a -> afine_op o = true -> aplain_op k o = true ->
    (forall n item e, o = AHandle n item -> a_queued a !! n = Some e -> m_up (me (a_cache a)) = true -> e ∈ tab (a_cache a)) ->
    astep k o a = Ok (a', r) -> (m_up (me (a_cache a)) = true -> uq k none (a_cache a)) -> m_up (me (a_cache a')) = true -> uq k none (a_cache a').
  Proof using Hk.
    intros Heq. destruct a as [s q]. unfold atop'. cbn [a_cache a_queued]. intros T Hf Hp Hin E HU Hup. destruct o as [o| |due0 e0|n [[script out] [keep throw]]].
    - assert ((exists items, o = OTick items) \/ forall items, o <> OTick items) as [[items ->]|Ho] by (destruct o; try (by right); left; eauto).
      { injection E as <- _. by apply HU. }
      destruct (call_ends o s q T Hf Ho) as (s' & r' & E' & T' & _ & Hd & _ & _ & HQ & _).
      assert (astep k (ACall o) (ASt s q) = ('(s, r) <- step k false o s;; Ok (ASt s q, r))) as H by (destruct o; try done; by edestruct Ho).
      rewrite H, E' in E. cbn [rbind] in E. injection E as <- _. cbn [a_cache] in *.
      apply HQ; try done; [|by apply HU; destruct (m_up (me s)) eqn:Hu; [|rewrite Hd in Hup]].
      apply plain_clean. destruct o; try done; by edestruct Ho.
    - destruct (fire_ends s q T) as (a1 & E1 & _ & _ & Hu & _ & _ & HQ & _). cbn [astep] in E. rewrite E1 in E. cbn [rbind] in E. injection E as <- _.
      rewrite Hu in Hup. apply HQ; auto.
    - destruct (expire_timer_ends due0 e0 s q T) as (a1 & E1 & _ & _ & Hu & _ & _ & HQ & _). cbn [astep] in E. rewrite E1 in E. cbn [rbind] in E. injection E as <- _.
      rewrite Hu in Hup. apply HQ; auto.
    - cbn [astep a_queued a_cache] in E. destruct (q !! n) as [e|] eqn:Hn; [|injection E as <- _; by apply HU].
      simpl in Hf. apply andb_true_iff in Hf as [Hf1 Hf2].
      destruct (handle_ends s q n e script out keep throw T Hn Hf1 Hf2) as (s' & E' & _ & _ & Hu & _ & _ & HQ & _). rewrite E' in E. cbn [rbind] in E. injection E as <- _. cbn [a_cache] in *.
      rewrite Hu in Hup. apply HQ; try done; [|by apply HU]. by eapply Hin.
  Qed.
  Lemma asio_unique l : eq_ok k -> afine l -> forallb (aplain_op k) l = true -> in_place k l -> forall (aa : ast comp_abs), arun k l a_init = Ok aa -> m_up (me (a_cache aa)) = true -> uq k none (a_cache aa).
  Proof using Hk.
    intros Heq. induction l as [|o l IH] using rev_ind; intros Hf Hp Hin aa Ha Hup.
    { injection Ha as <-. apply uq_init. }
    unfold afine in Hf. rewrite forallb_app in Hf, Hp. apply andb_true_iff in Hf as [Hf1 Hf2], Hp as [Hp1 Hp2]. simpl in Hf2, Hp2. rewrite andb_true_r in Hf2, Hp2.
    destruct (asio_runs l Hf1) as (ab & ac & E & Ec & S & T & _). rewrite arun_app, E in Ha. cbn [rbind arun] in Ha.
    destruct (astep k o ab) as [[a' r]| | |] eqn:Es; try done. cbn [rbind] in Ha. injection Ha as <-.
    eapply (astep_uq o ab); try done.
    - intros n item e -> He Hu. assert (srel (a_cache ab) (a_cache ac)) as S' by (by destruct S). assert (a_queued ac = a_queued ab) as Eq by (by destruct S).
      rewrite <-(table_obs _ _ S'); [|by eapply i_up; [exact (at_inv _ _ T)|]]. eapply (Hin l n item []); [done|exact Ec|by rewrite Eq|by rewrite <-(srel_me _ _ S')].
    - intros Hu. apply IH; try done. intros l1 n item l2 a e -> H1 H2 H3. by eapply (Hin l1 n item (l2 ++ [o])); [rewrite <-app_assoc|..].
  Qed.
  Lemma asio_two l (ac : ast comp_ptr) x y key key' : eq_ok k -> afine l -> forallb (aplain_op k) l = true -> in_place k l -> arun k l a_init = Ok ac -> m_up (me (a_cache ac)) = true ->
    live_entry (a_cache ac) x key -> live_entry (a_cache ac) y key' -> k_eq k key key' = true ->
    x = y \/ replaces (a_cache ac) x y \/ replaces (a_cache ac) y x.
  Proof using Hk.
    intros Heq Hf Hp Hin Ha Hup Lx Ly Ek. destruct (asio_abs l ac Hf Ha) as (aa & E & _ & S & T & _). rewrite <-(srel_me _ _ S) in Hup.
    pose proof (asio_unique l Heq Hf Hp Hin aa E Hup) as Hu. pose proof (i_up _ _ _ (at_inv _ _ T) Hup) as Ht.
    destruct (live_tv _ _ x key S Ht Lx) as (ex & Tx & <- & Hx). destruct (live_tv _ _ y key' S Ht Ly) as (ey & Ty & <- & Hy).
    destruct (decide (x = y)) as [->|Hne]; [by left|right].
    destruct (Hu x y ex ey Tx Ty Hne Ek Hx Hy) as [H|[H|[[]|[]]]]; [left|right]; by eapply linked_obs.
  Qed.
End safe.

(** [in_place] of a given history can be computed *)
Fixpoint in_place_from (k : cfg) (l : list aop) (a : ast comp_ptr) : bool :=
  match l with
  | [] => true
  | o :: r =>
    match o with
    | AHandle n _ => match a_queued a !! n with Some e => negb (m_up (me (a_cache a))) || bool_decide (e ∈ table_entries (a_cache a)) | None => true end
    | _ => true
    end && match astep k o a with Ok (a', _) => in_place_from k r a' | _ => true end
  end.
Lemma in_place_check k l : in_place_from k l a_init = true -> in_place k l.
Proof.
  unfold in_place. generalize (@a_init comp_ptr). intros a0 H l1. revert l a0 H. induction l1 as [|o l1 IH]; intros l a0 H n item l2 a e -> Ha He Hu.
  - injection Ha as ->. simpl in H. apply andb_true_iff in H as [H _]. rewrite He, Hu in H. by apply bool_decide_eq_true in H.
  - cbn [app in_place_from arun] in *. apply andb_true_iff in H as [_ H]. destruct (astep k o a0) as [[a1 r]| | |]; try done. cbn [rbind] in Ha.
    by apply (IH _ a1 H n item l2 a e).
Qed.
