(** What an insertion into a cache with a size limit keeps (lemmas for PropertiesEntries.v). *)
From stdpp Require Import sorting.
From Verif Require Import Base LinkedList AQueue ATable BasicHashtable LinkedListProofs QueueProofs BasicHashtableProofs ContainersProofs Mapped Cache CachePtr CacheAbs CompSim CacheSim AbsInv AbsPrim AbsPrim2 AbsSweep AbsOps AbsComp Trace AbsTrace TraceInv Delay AbsTraceCb Histories AbsResolve AbsStep AbsLook Effects Observe Transfer Lookups Origins Rounds Bound.

Section inserted.
  Context (k : cfg) (Hk : fine_cfg k) (n : nat) (Hms : k_max_size k = Some n) (Hta : tame k) (Hq : eq_ok k).
  Notation srel := (srel comp_abs comp_ptr crel).
  Notation top := (top k).
  Notation free := (fun κ => κ = KFree).

  Lemma path_hopk (A : kind -> Prop) s s' x el' : (forall key cl o, ~ A (KEnter key cl o)) -> path k A s s' -> tv s' x = Some el' -> hopeful (el_map el') = true ->
    exists el, tv s x = Some el /\ el_key el = el_key el' /\ hopeful (el_map el) = true.
  Proof using.
    intros HA P. induction P as [|s s1 s' (κ & Aκ & M) P IH]; [eauto|]. intros T H. destruct (IH T H) as (el & T1 & E1 & H1).
    destruct (mini_hope k κ s s1 x el M T1 H1) as [(el0 & T0 & E0 & H0)|(key & cl & o & -> & _)]; [exists el0; split_and!; congruence|by destruct (HA key cl o)].
  Qed.
  Lemma evicts_other l : forall (s : sta) x, x ∉ l -> m_els (me (f_evicts k s l)) !! x = m_els (me s) !! x.
  Proof using.
    induction l as [|e l IH]; intros s x Hx; [done|]. apply not_elem_of_cons in Hx as [Hne Hx]. simpl. fold (f_evicts k (f_evict k s e) l). rewrite IH by done.
    unfold f_evict, f_weaken, f_mark. destruct (k_weaken k); by rewrite p_upd_lookup, decide_False, f_note_els.
  Qed.
  Lemma evicts_clk l : forall s : sta, m_wall (me (f_evicts k s l)) = m_wall (me s) /\ m_steady (me (f_evicts k s l)) = m_steady (me s).
  Proof using.
    induction l as [|e l IH]; intros s; [done|]. simpl. fold (f_evicts k (f_evict k s e) l). destruct (IH (f_evict k s e)) as [-> ->].
    unfold f_evict, f_weaken, f_mark, p_upd. rewrite f_note_els. unfold f_note. destruct (m_els (me s) !! e) as [el|]; [|by destruct (k_weaken k)]. by destruct (m_live (el_map el)), (k_weaken k).
  Qed.
  Lemma create_front (s : sta) h e : exists c, (a_q (cs (f_create k s h e))).2 = e :: c.
  Proof using Hms.
    unfold f_create. assert (has_queue k = true) as Hh. { unfold has_queue. apply bool_decide_eq_true. rewrite Hms. eauto. } rewrite Hh.
    assert (exists c, (aq_create (a_q (cs s)) e).1.2 = e :: c) as [c Hc]. { unfold aq_create. destruct (aq_odd (a_q (cs s))); [destruct (a_q (cs s)).2|]; simpl; eauto. }
    assert ((a_q (cs (with_cs s (a_enter k (cs s) h e)))).2 = e :: c) as H. { simpl. unfold a_enter. simpl. by rewrite Hh. }
    exists c. destruct (aq_create (a_q (cs s)) e).2 as [x|]; [|done]. unfold f_strengthen. by rewrite p_upd_cs.
  Qed.
  Lemma link_front (s : sta) h e : exists c, (a_q (cs (f_link k s h e))).2 = e :: c.
  Proof using Hms.
    unfold f_link. destruct (create_front (f_mrehash k s) h e) as [c H]. exists c. destruct (pends _ e); [done|]. rewrite f_assign_eq.
    destruct (assign1_facts k (f_create k (f_mrehash k s) h e) e (holds_value (f_create k (f_mrehash k s) h e) e)) as (E & _).
    destruct (k_refresh k) as [[d i]|]; [|by rewrite E].
    destruct (holds_value _ e); [|by rewrite E]. unfold f_arefresh. simpl. case_bool_decide; rewrite ?p_upd_cs; simpl; by rewrite ?p_upd_cs, E.
  Qed.
  (** maintenance after the insertion of [e] keeps [e] *)
  Lemma maint_keeps g (s3 : sta) e c : inv k g s3 -> a_torn (cs s3) = None -> g_xs g = [] -> (a_q (cs s3)).2 = e :: c -> length (tab s3) < 2 * n -> e ∉ victims k s3.
  Proof using Hms.
    intros Hi Ht Gx Ec Hl. unfold victims. rewrite Hms. fold (tab s3).
    assert (aq_elems (a_q (cs s3)) ≡ₚ tab s3) as Hqt.
    { pose proof (i_q _ _ _ Hi) as Hqq. unfold has_queue in Hqq. rewrite Hms, bool_decide_true in Hqq by eauto. rewrite Hqq. unfold LT. rewrite (a_tab_None _ Ht), Gx. done. }
    assert (NoDup (aq_elems (a_q (cs s3)))) as Hnd by (rewrite Hqt; by eapply tab_nodup).
    pose proof (i_bal _ _ _ Hi) as Hb. unfold aq_balanced in Hb. pose proof (Permutation_length Hqt) as El. unfold aq_elems in El, Hnd. rewrite app_length, Ec in El. rewrite Ec in Hnd, Hb. simpl in El, Hb.
    apply NoDup_app in Hnd as (_ & _ & Hnd). apply NoDup_cons in Hnd as [Hne _].
    unfold aq_victims. rewrite Ec, reverse_cons. rewrite take_app_le; [|rewrite reverse_length; case_bool_decide; lia].
    intros H. apply Hne. apply elem_of_reverse. apply elem_of_list_lookup in H as [i H]. apply lookup_take_Some in H as [H _]. by eapply elem_of_list_lookup_2.
  Qed.
  Lemma emplace_kept (s : sta) key v key' incl : ages_ok k -> inv k g0 s -> a_torn (cs s) = None -> J k s -> length (tab s) + 2 <= 2 * n -> k_eq k key key' = true ->
    looki k (f_emplace k s key v) key' incl = RV v.
  Proof using Hms Hta Hq.
    intros Ha Hi Ht HJ Hle Ek. unfold f_emplace. destruct (expire_ends k g0 s key Hi Ht) as ((_ & I1 & _) & T1).
    destruct (insert_ends k g0 (f_expire k s key) key v I1 T1) as [I3 T3].
    assert (path k (fun κ => κ = KFree \/ κ = KErase key) s (f_expire k s key)) as P1 by (eapply expire_path; try done; tauto).
    assert (nohope k (f_expire k s key) key) as Hn1 by (by eapply expire_nohope).
    set (s1 := f_expire k s key) in *.
    destruct (insert_enter k g0 s1 key v HClean I1 T1 eq_refl) as (s2 & P2 & M); [done|].
    assert (nohope k s2 key) as Hn2 by (by eapply free_nohope).
    assert (exists c, (a_q (cs (f_insert k s1 key v))).2 = m_nxt (me s1) :: c) as [c Ec] by apply link_front.
    assert (tv s1 (m_nxt (me s1)) = None) as Tn. { destruct (tv s1 (m_nxt (me s1))) as [el|] eqn:E; [|done]. apply tv_elim in E as (H & _). exfalso. eapply (nxt_not_LT k g0 s1 I1). by apply tab_LT. }
    set (s3 := f_insert k s1 key v) in *.
    assert (m_nxt (me s1) ∈ tab s3) as Hin.
    { pose proof (i_q _ _ _ I3) as Hqq. unfold has_queue in Hqq. rewrite Hms, bool_decide_true in Hqq by eauto. unfold LT in Hqq. rewrite (a_tab_None _ T3) in Hqq.
      assert (m_nxt (me s1) ∈ g_xs g0 ++ concat (a_bs (cs s3))) as H; [rewrite <-Hqq; unfold aq_elems; apply elem_of_app; right; rewrite Ec; by left|]. by apply elem_of_app in H as [?%elem_of_nil|?]. }
    set (e := m_nxt (me s1)) in *.
    assert (is_Some (tv s3 e)) as Te3. { destruct (i_tab _ _ _ I3 e) as [el Hel]; [by apply tab_LT|]. rewrite (tv_some _ _ el Hin Hel). eauto. }
    assert (tv s2 e = None) as Te2. { destruct (tv s2 e) eqn:E; [|done]. destruct (path_old k free s1 s2 e) as [? ?]; [by intros|exact P2|by rewrite E|congruence]. }
    destruct M as [_ _ Hck _ HB]. destruct Hck as (_ & _ & Hck). destruct (Hck eq_refl) as (Ew & Es & _).
    remember (KEnter key HClean (Some v)) as κ eqn:Eκ. destruct HB as [κ Hκ|κ e0 el0 o0 T0 Hc|e0 key0 cl0 mp T Hnh _ _ T' Hv Hsq _ _ _|?|?]; subst; try done; [by destruct Hκ as [?|[[? ?]|[[? ?]|[? ?]]]]|by inversion Hc|].
    injection Eκ as -> -> Ev. assert (mp = MVal v) as -> by (apply val_of_some; congruence).
    destruct (decide (e0 = e)) as [->|Hne]; [|exfalso; rewrite (Hv e), Te2 in Te3 by done; by destruct Te3].
    assert (length (tab s3) <= S (length (tab s))) as Hlen.
    { change (S (length (tab s))) with (length (e :: tab s)). apply submseteq_length, NoDup_submseteq; [by eapply tab_nodup|]. intros x Hx. apply elem_of_cons.
      destruct (decide (x = e)) as [|Hne]; [by left|right]. destruct (i_tab _ _ _ I3 x) as [el Hel]; [by apply tab_LT|]. pose proof (tv_some _ _ el Hx Hel) as Tx.
      rewrite Hv in Tx by done. destruct (path_old k free s1 s2 x) as [? Tx1]; [by intros|exact P2|by rewrite Tx|].
      destruct (path_old k (fun κ => κ = KFree \/ κ = KErase key) s s1 x) as [? Tx0]; [by intros ? ? ? [?|?]|exact P1|by rewrite Tx1|]. by apply tv_elim in Tx0 as [? _]. }
    assert (e ∉ victims k s3) as Hvi by (eapply maint_keeps; [exact I3|done|done|exact Ec|lia]).
    assert (cs (f_maint k s3) = cs s3) as Ecs by apply f_maint_cs.
    assert (path k (fun κ => κ = KFree \/ evicting κ) s3 (f_maint k s3)) as P4 by (eapply maint_path; try done; intros; simpl; tauto).
    destruct (evicts_clk (victims k s3) s3) as [Ew4 Es4]. fold (f_maint k s3) in Ew4, Es4.
    destruct (born_facts k (me s2) key (MVal v)) as (Ekey & Em & _).
    apply (firm_look k false _ key' v e (born k (me s2) key (MVal v))).
    - split_and!; [|done|by rewrite Ekey|].
      + rewrite <-T'. unfold tv, tab. rewrite Ecs. destruct (decide _); [|done]. f_equal. by apply evicts_other.
      + exists (hseq s2 (k_hash k key')), []. split.
        * assert (hseq (f_maint k s3) (k_hash k key') = hseq s3 (k_hash k key')) as -> by (unfold hseq, tab; by rewrite Ecs). rewrite Hsq, decide_True; [done|by apply eq_hash].
        * intros y ey Hy Ty Eky. left. destruct (hopeful (el_map ey)) eqn:Hh; [exfalso|done].
          destruct (path_hopk (fun κ => κ = KFree \/ evicting κ) s3 (f_maint k s3) y ey) as (ey3 & T3y & E3 & H3); [by intros ? ? ? [?|?]|exact P4|done|done|].
          rewrite Hv in T3y by (intros ->; by eapply Hnh).
          assert (same_key k ey3 key) as Hsk.
          { assert (k_eq k (el_key ey3) key = true) as Hk3 by (rewrite E3; destruct Hq as (_ & H2 & Htr & _); eapply Htr; [exact Eky|by apply H2]). split; [by apply eq_hash|done]. }
          by rewrite (Hn2 y ey3 T3y Hsk) in H3.
    - rewrite <-(born_late k (me s2) key v Ha). unfold late. by rewrite Ew4, Es4, Ew, Es.
  Qed.
  Lemma emplace_stays l key v sc sc' key' : ages_ok k -> fine l -> after k l sc -> after k (l ++ [OEmplace key v]) sc' -> m_up (me sc) = true ->
    (k_pointer k = true -> v ∉ m_dropped (me sc)) -> length (table_entries sc) + 2 <= 2 * n -> k_eq k key key' = true -> peek k sc' key' = Some v.
  Proof using Hk Hms Hta Hq.
    intros Hag Hf Ha Ha' Hup Hd Hle Ek.
    assert (fine (l ++ [OEmplace key v])) as Hf' by (apply fine_app; split; [done|by apply fine_one]).
    destruct (after_snoc k Hk l _ sc sc' Hf' Ha Ha') as (sa & sa' & r & S & S' & T & T' & E & Ec).
    assert (m_up (me sa) = true) as Hupa by (by rewrite (srel_me _ _ S)). destruct (top_facts k sa T Hupa) as (Hi & Ht & HJ).
    rewrite (table_obs sa sc S Ht) in Hle.
    assert (holds k sa v = true) as Hh. { unfold holds. destruct (k_pointer k) eqn:Ep; [|done]. simpl. apply bool_decide_eq_true. rewrite (srel_me _ _ S). auto. }
    rewrite (peek_look k Hta _ _ key' S' T').
    assert (m_up (me sc') = true) as ->. { rewrite <-(srel_me _ _ S'). rewrite (step_up k Hk sa sa' (OEmplace key v) r T eq_refl ltac:(done) E). done. }
    rewrite (step_emplace k sa key v T Hupa Hh) in E. injection E as <- <-. by rewrite (emplace_kept sa key v key' false Hag Hi Ht HJ Hle Ek).
  Qed.

  (** ** a limit of one *)
  Lemma evicts_dead l : forall (s : sta) e el, m_els (me s) !! e = Some el -> el_pending el = false -> (forall v, el_map el <> MWeak (Some v)) -> e ∈ l \/ hopeful (el_map el) = false ->
    exists el', m_els (me (f_evicts k s l)) !! e = Some el' /\ hopeful (el_map el') = false.
  Proof using Hms Hta.
    induction l as [|x l IH]; intros s e el He Hp Hw Hin; [destruct Hin as [?%elem_of_nil|?]; [done|eauto]|]. simpl. fold (f_evicts k (f_evict k s x) l).
    destruct (decide (e = x)) as [<-|Hne].
    - set (m := if k_weaken k then m_weaken (k_pointer k) (el_map el) else m_mark_expired (k_pointer k) (el_map el)).
      assert (hopeful m = false) as Hm by (destruct (evict_map k n Hms Hta el Hp) as [|[v E]]; [done|by destruct (Hw v)]).
      apply (IH _ e (with_map el m)).
      + unfold f_evict, f_weaken, f_mark, m. destruct (k_weaken k); by rewrite p_upd_lookup, decide_True, f_note_els, He.
      + unfold el_pending in *. simpl. unfold m, m_weaken, m_mark_expired, m_dead. by destruct (k_weaken k), (el_map el), (k_pointer k).
      + intros v E. simpl in E. by rewrite E in Hm.
      + by right.
    - apply (IH _ e el); [|done|done|].
      + unfold f_evict, f_weaken, f_mark. destruct (k_weaken k); by rewrite p_upd_lookup, decide_False, f_note_els.
      + destruct Hin as [[?|?]%elem_of_cons|?]; [done|by left|by right].
  Qed.
  Lemma emplace_lost (s : sta) key v other : n = 1 -> inv k g0 s -> a_torn (cs s) = None -> J k s -> looki k s other false <> R0 -> k_eq k key other = false ->
    looki k (f_emplace k s key v) key false = R0.
  Proof using Hk Hms Hta Hq.
    intros En Hi Ht HJ Ho Ek. unfold f_emplace. destruct (expire_ends k g0 s key Hi Ht) as ((_ & I1 & _) & T1).
    destruct (insert_ends k g0 (f_expire k s key) key v I1 T1) as [I3 T3].
    assert (path k (fun κ => κ = KFree \/ κ = KErase key) s (f_expire k s key)) as P1 by (eapply expire_path; try done; tauto).
    assert (nohope k (f_expire k s key) key) as Hn1 by (by eapply expire_nohope).
    set (s1 := f_expire k s key) in *.
    destruct (insert_enter k g0 s1 key v HClean I1 T1 eq_refl) as (s2 & P2 & M); [done|].
    assert (nohope k s2 key) as Hn2 by (by eapply free_nohope).
    assert (exists c, (a_q (cs (f_insert k s1 key v))).2 = m_nxt (me s1) :: c) as [c Ec] by apply link_front.
    assert (tv s1 (m_nxt (me s1)) = None) as Tn. { destruct (tv s1 (m_nxt (me s1))) as [el|] eqn:E; [|done]. apply tv_elim in E as (H & _). exfalso. eapply (nxt_not_LT k g0 s1 I1). by apply tab_LT. }
    set (s3 := f_insert k s1 key v) in *.
    assert (aq_elems (a_q (cs s3)) ≡ₚ tab s3) as Hqt.
    { pose proof (i_q _ _ _ I3) as Hqq. unfold has_queue in Hqq. rewrite Hms, bool_decide_true in Hqq by eauto. rewrite Hqq. unfold LT. by rewrite (a_tab_None _ T3). }
    assert (m_nxt (me s1) ∈ tab s3) as Hin by (rewrite <-Hqt; unfold aq_elems; apply elem_of_app; right; rewrite Ec; by left).
    set (e := m_nxt (me s1)) in *.
    destruct (i_tab _ _ _ I3 e) as [ele Hel]; [by apply tab_LT|]. pose proof (tv_some _ _ ele Hin Hel) as Te3.
    assert (tv s2 e = None) as Te2. { destruct (tv s2 e) eqn:E; [|done]. destruct (path_old k free s1 s2 e) as [? ?]; [by intros|exact P2|by rewrite E|congruence]. }
    assert (looki k s3 other false = looki k s other false) as Eo.
    { apply (path_look k (fun κ => κ = KFree \/ κ = KErase key \/ κ = KEnter key HClean (Some v))); [done|done| |].
      - eapply path_trans; [eapply path_weaken; [|exact P1]; intros ? [-> | ->]; tauto|]. eapply path_trans; [eapply path_weaken; [|exact P2]; simpl; intros ? ->; tauto|]. eapply path_one; [|exact M]. tauto.
      - intros s0 κ [-> |[-> | ->]] _ _; simpl; try done; [by apply other_of|by left]. }
    pose proof (n_body _ _ _ _ M) as HB.
    remember (KEnter key HClean (Some v)) as κ eqn:Eκ. destruct HB as [κ Hκ|κ e0 el0 o0 T0 Hc|e0 key0 cl0 mp T Hnh _ _ T' Hv Hsq _ _ _|?|?]; try subst κ; try done; [by destruct Hκ as [?|[[? ?]|[[? ?]|[? ?]]]]|by inversion Hc|].
    injection Eκ as -> -> Ev. assert (mp = MVal v) as -> by (apply val_of_some; congruence).
    destruct (decide (e0 = e)) as [->|Hne]; [|exfalso; rewrite (Hv e), Te2 in Te3 by done; done].
    destruct (born_facts k (me s2) key (MVal v)) as (Ekey & Em & _).
    assert (exists x, x ∈ tab s3 /\ x <> e) as (x & Hx & Hxe).
    { assert (looki k s3 other false <> R0) as E by (by rewrite Eo). unfold looki in E. destruct (firstv_split _ _ _ eq_refl E) as (l1 & x & l2 & El & Hcx & _).
      assert (x ∈ hseq s3 (k_hash k other)) as Hx by (rewrite El; apply elem_of_app; right; by left).
      exists x. unfold hseq in Hx. apply elem_of_list_filter in Hx as [_ Hx]. split; [done|]. intros ->. apply E. rewrite <-Hcx. unfold cand. by rewrite T', Ekey, Ek. }
    assert (e ∈ victims k s3) as Hvi.
    { unfold victims. rewrite Hms. fold (tab s3). pose proof (i_bal _ _ _ I3) as Hb. unfold aq_balanced in Hb.
      pose proof (Permutation_length Hqt) as El. unfold aq_elems in El. rewrite app_length in El.
      assert (2 <= length (tab s3)) as Hl. { change 2 with (length [x; e]). apply submseteq_length, NoDup_submseteq; [|by intros y [-> | ->%elem_of_list_singleton]%elem_of_cons]. apply NoDup_cons. split; [|apply NoDup_singleton]. by intros ?%elem_of_list_singleton. }
      rewrite bool_decide_true by lia. unfold aq_victims. rewrite take_ge; [|rewrite reverse_length; lia]. apply elem_of_reverse. rewrite Ec. by left. }
    assert (cs (f_maint k s3) = cs s3) as Ecs by apply f_maint_cs.
    assert (path k (fun κ => κ = KFree \/ evicting κ) s3 (f_maint k s3)) as P4 by (eapply maint_path; try done; intros; simpl; tauto).
    unfold looki. apply firstv_none. intros y Hy. unfold cand. destruct (tv (f_maint k s3) y) as [ey|] eqn:Ty; [|done]. destruct (k_eq k (el_key ey) key) eqn:Eky; [|done].
    apply vis_hope. destruct (decide (y = e)) as [->|Hye].
    - assert (el_map ele = MVal v) as Emv. { rewrite Te3 in T'. injection T' as T'. by rewrite <-T' in Em. }
      destruct (evicts_dead (victims k s3) s3 e ele Hel) as (el' & H1 & H2); [unfold el_pending; by rewrite Emv|by rewrite Emv|by left|].
      apply tv_elim in Ty as (_ & el0 & H0 & ->). unfold f_maint in H0. rewrite H1 in H0. injection H0 as <-. done.
    - destruct (hopeful (el_map ey)) eqn:Hh; [exfalso|done].
      destruct (path_hopk (fun κ => κ = KFree \/ evicting κ) s3 (f_maint k s3) y ey) as (ey3 & T3y & E3 & H3); [by intros ? ? ? [?|?]|exact P4|done|done|].
      rewrite Hv in T3y by done.
      assert (same_key k ey3 key) as Hsk by (split; [apply eq_hash; [done|by rewrite E3]|by rewrite E3]).
      by rewrite (Hn2 y ey3 T3y Hsk) in H3.
  Qed.
  Lemma emplace_vanishes l key v other sc sc' : n = 1 -> fine l -> after k l sc -> after k (l ++ [OEmplace key v]) sc' -> m_up (me sc) = true ->
    (k_pointer k = true -> v ∉ m_dropped (me sc)) -> is_Some (peek k sc other) -> k_eq k key other = false -> peek k sc' key = None.
  Proof using Hk Hms Hta Hq.
    intros En Hf Ha Ha' Hup Hd Ho Ek.
    assert (fine (l ++ [OEmplace key v])) as Hf' by (apply fine_app; split; [done|by apply fine_one]).
    destruct (after_snoc k Hk l _ sc sc' Hf' Ha Ha') as (sa & sa' & r & S & S' & T & T' & E & Ec).
    assert (m_up (me sa) = true) as Hupa by (by rewrite (srel_me _ _ S)). destruct (top_facts k sa T Hupa) as (Hi & Ht & HJ).
    assert (holds k sa v = true) as Hh. { unfold holds. destruct (k_pointer k) eqn:Ep; [|done]. simpl. apply bool_decide_eq_true. rewrite (srel_me _ _ S). auto. }
    rewrite (peek_look k Hta _ _ other S T), Hup in Ho.
    rewrite (peek_look k Hta _ _ key S' T'). destruct (m_up (me sc')); [|done].
    rewrite (step_emplace k sa key v T Hupa Hh) in E. injection E as <- <-. rewrite (emplace_lost sa key v other En Hi Ht HJ); [done| |done].
    intros E0. rewrite E0 in Ho. by destruct Ho.
  Qed.
End inserted.
