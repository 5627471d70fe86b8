(** The size limit (lemmas for PropertiesEntries.v). *)
From stdpp Require Import sorting.
From Verif Require Import Base LinkedList AQueue ATable BasicHashtable LinkedListProofs QueueProofs BasicHashtableProofs ContainersProofs Mapped Cache CachePtr CacheAbs CompSim CacheSim AbsInv AbsPrim AbsPrim2 AbsSweep AbsOps AbsComp Trace AbsTrace TraceInv Delay AbsTraceCb Histories AbsResolve AbsStep AbsLook Effects Observe Transfer Lookups Origins.

(** entries that may still produce a value *)
Definition hop (s : sta) (x : N) : bool := match tv s x with Some el => hopeful (el_map el) | None => false end.
Definition nhope (s : sta) : nat := length (filter (fun x => hop s x) (tab s)).

Lemma hop_tab s x : hop s x = true -> x ∈ tab s.
Proof. unfold hop. destruct (tv s x) as [el|] eqn:E; [|done]. by apply tv_elim in E as [? _]. Qed.
Lemma hop_el s x : hop s x = true <-> exists el, tv s x = Some el /\ hopeful (el_map el) = true.
Proof. unfold hop. destruct (tv s x) as [el|]; split; try done; [eauto|by intros (? & [= <-] & ?)|by intros (? & ? & ?)]. Qed.
Lemma nhope_le s s' : NoDup (tab s') -> (forall x, hop s' x = true -> hop s x = true) -> nhope s' <= nhope s.
Proof.
  intros Hnd H. apply submseteq_length, NoDup_submseteq; [by apply NoDup_filter|]. intros x (Hx & _)%elem_of_list_filter. apply Is_true_true in Hx.
  apply elem_of_list_filter. specialize (H x Hx). split; [by apply Is_true_true|by apply hop_tab].
Qed.

Section bound.
  Context (k : cfg) (Hk : fine_cfg k).
  Notation srel := (srel comp_abs comp_ptr crel).
  Notation top := (top k).
  Notation free := (fun κ => κ = KFree).

  Lemma path_hop (A : kind -> Prop) s s' x : (forall key cl o, ~ A (KEnter key cl o)) -> path k A s s' -> hop s' x = true -> hop s x = true.
  Proof using.
    intros HA P. induction P as [|s s1 s' (κ & Aκ & M) P IH]; [done|]. intros H. specialize (IH H). apply hop_el in IH as (el & T & Hh).
    destruct (mini_hope k κ s s1 x el M T Hh) as [(el0 & T0 & _ & H0)|(key & cl & o & -> & _)]; [apply hop_el; eauto|by destruct (HA key cl o)].
  Qed.
  Lemma path_old (A : kind -> Prop) s s' x : (forall key cl o, ~ A (KEnter key cl o)) -> path k A s s' -> is_Some (tv s' x) -> is_Some (tv s x).
  Proof using.
    intros HA P. induction P as [|s s1 s' (κ & Aκ & M) P IH]; [done|]. intros H. destruct (IH H) as [el T].
    destruct (mini_tv k κ s s1 x el M T) as [(el0 & T0 & _)|(key & cl & mp & -> & _)]; [eauto|by destruct (HA _ _ _ Aκ)].
  Qed.
  Lemma enter_hop (s s2 s3 : sta) e key cl o x : path k free s s2 -> mini k (KEnter key cl o) s2 s3 -> tv s e = None -> is_Some (tv s3 e) -> hop s3 x = true -> x = e \/ hop s x = true.
  Proof using.
    intros P M Te Te3 H. apply hop_el in H as (el & T & Hh).
    destruct (mini_hope k _ s2 s3 x el M T Hh) as [(el0 & T0 & _ & H0)|(key' & cl' & o' & _ & Tx & _ & _ & Hoth)].
    - right. eapply path_hop; [|exact P|apply hop_el; eauto]. by intros.
    - left. destruct (decide (x = e)) as [|Hne]; [done|]. exfalso. rewrite (Hoth e) in Te3 by done. destruct (path_old free s s2 e) as [? ?]; [by intros|exact P|exact Te3|congruence].
  Qed.

  (** ** maintenance *)
  Context (n : nat) (Hms : k_max_size k = Some n) (Hta : tame k).
  Lemma evict_map el : el_pending el = false -> hopeful (if k_weaken k then m_weaken (k_pointer k) (el_map el) else m_mark_expired (k_pointer k) (el_map el)) = false \/ exists v, el_map el = MWeak (Some v).
  Proof using Hms Hta.
    unfold el_pending. destruct Hta as [Hp|[Hw|Hm]]; [|rewrite Hw|congruence]; unfold m_weaken, m_mark_expired, m_dead; destruct (el_map el) as [p|v|[v|]|x| |]; try done; intros _; rewrite ?Hp; eauto; try (left; by destruct (k_weaken k)); try (left; by destruct (k_pointer k)).
  Qed.
  Lemma evicts_hop (s : sta) l x : J k s -> (forall y ey, tv s y = Some ey -> el_pending ey = false) -> hop (f_evicts k s l) x = true -> hop s x = true /\ x ∉ l.
  Proof using Hms Hta.
    intros HJ Hnp. assert (forall y ey, tv s y = Some ey -> tame_map k (el_map ey)) as Htm by (intros; by eapply (j_tame _ _ HJ)). clear HJ.
    revert s Hnp Htm. induction l as [|e l IH]; intros s Hnp Htm H; [split; [done|by intros ?%elem_of_nil]|]. simpl in H.
    set (s1 := f_evict k s e) in *.
    assert (forall y, tv s1 y = if decide (y = e) then (fun el => with_map el (if k_weaken k then m_weaken (k_pointer k) (el_map el) else m_mark_expired (k_pointer k) (el_map el))) <$> tv s y else tv s y) as T1.
    { intros y. unfold s1, f_evict, f_weaken, f_mark, tv, tab. destruct (k_weaken k); rewrite p_upd_cs, p_upd_lookup, f_note_cs, f_note_els; destruct (decide (y ∈ _)), (decide (y = e)) as [->|]; try done; by destruct (m_els (me s) !! e). }
    destruct (IH s1) as [H1 H2]; [..|exact H|].
    - intros y ey. rewrite T1. destruct (decide (y = e)); [|apply Hnp]. destruct (tv s y) as [el|] eqn:Ty; [|done]. intros [= <-]. specialize (Hnp y el Ty). unfold el_pending in *. simpl.
      unfold m_weaken, m_mark_expired, m_dead. by destruct (el_map el), (k_weaken k), (k_pointer k).
    - intros y ey. rewrite T1. destruct (decide (y = e)); [|apply Htm]. destruct (tv s y) as [el|] eqn:Ty; [|done]. intros [= <-]. specialize (Hnp y el Ty). specialize (Htm y el Ty) as [Ht1 _]. simpl.
      destruct (evict_map el Hnp) as [Hh|(v & E)]; [|by destruct (Ht1 v)]. unfold el_pending in Hnp. split.
      + intros v E. by rewrite E in Hh.
      + intros _ p E. exfalso. unfold m_weaken, m_mark_expired, m_dead in E. destruct (el_map el), (k_weaken k), (k_pointer k); try done.
    - unfold hop in H1 |- *. rewrite T1 in H1. destruct (decide (x = e)) as [->|Hne].
      + exfalso. destruct (tv s e) as [el|] eqn:Te; [|done]. simpl in H1. specialize (Hnp e el Te). specialize (Htm e el Te) as [Ht1 _].
        destruct (evict_map el Hnp) as [Hh|(v & E)]; [congruence|by destruct (Ht1 v)].
      + split; [done|]. intros [->|?]%elem_of_cons; done.
  Qed.
  (** a new entry [e] at the front of the cold half *)
  Lemma maint_bound g (s s1 : sta) e : inv k g s1 -> a_torn (cs s1) = None -> g_xs g = [] -> J k s1 -> (forall y ey, tv s1 y = Some ey -> el_pending ey = false) ->
    (forall x, hop s1 x = true -> x = e \/ hop s x = true) -> e ∈ (a_q (cs s1)).2 -> nhope s <= n -> nhope (f_maint k s1) <= n.
  Proof using Hms Hta.
    intros Hi Ht Gx HJ Hnp Hsub He Hle. unfold f_maint, victims. rewrite Hms. set (q := a_q (cs s1)) in *. fold (tab s1).
    assert (forall l, tab (f_evicts k s1 l) = tab s1) as Etab by (intros; unfold tab; by rewrite f_evicts_cs).
    assert (NoDup (tab s1)) as Hnd by (by eapply tab_nodup).
    assert (aq_elems q ≡ₚ tab s1) as Hq.
    { pose proof (i_q _ _ _ Hi) as Hq. unfold has_queue in Hq. rewrite Hms, bool_decide_true in Hq by eauto. fold q in Hq. rewrite Hq. unfold LT. rewrite (a_tab_None _ Ht), Gx. done. }
    set (m := if bool_decide (n < length (tab s1)) then length (tab s1) - n else 0).
    destruct (decide (m <= length q.2)) as [Hm|Hm].
    - assert (length (aq_victims q m) = m) as Hl by (unfold aq_victims; rewrite take_length, reverse_length; lia).
      assert (nhope (f_evicts k s1 (aq_victims q m)) + m <= length (tab s1)); [|unfold m in *; case_bool_decide; lia].
      rewrite <-Hl at 2. unfold nhope. rewrite <-app_length. apply submseteq_length, NoDup_submseteq.
      + apply NoDup_app. split_and!; [apply NoDup_filter; by rewrite Etab|..].
        * intros x (Hx%Is_true_true & _)%elem_of_list_filter. by destruct (evicts_hop s1 _ x HJ Hnp Hx).
        * assert (NoDup (reverse q.2)) as Hrv; [|unfold aq_victims; rewrite <-(take_drop m (reverse q.2)) in Hrv; by apply NoDup_app in Hrv as (? & _)]. rewrite reverse_Permutation. assert (NoDup (aq_elems q)) as Hnq by (by rewrite Hq). by apply NoDup_app in Hnq as (_ & _ & ?).
      + intros x [(_ & Hx)%elem_of_list_filter|Hx]%elem_of_app; [by rewrite Etab in Hx|]. rewrite <-Hq. by eapply aq_victims_elems.
    - assert (aq_victims q m = reverse q.2) as ->. { unfold aq_victims. apply take_ge. rewrite reverse_length. lia. }
      etransitivity; [|exact Hle]. apply nhope_le; [by rewrite Etab|]. intros x Hx. apply evicts_hop in Hx as [Hx Hne]; [|done|done].
      destruct (Hsub x Hx) as [->|?]; [|done]. exfalso. apply Hne. by apply elem_of_reverse.
  Qed.
  Lemma create_q (s : sta) h e : e ∈ (a_q (cs (f_create k s h e))).2.
  Proof using Hms.
    unfold f_create. assert (has_queue k = true) as Hh. { unfold has_queue. apply bool_decide_eq_true. rewrite Hms. eauto. } rewrite Hh.
    assert (e ∈ (aq_create (a_q (cs s)) e).1.2) as Hin. { unfold aq_create. destruct (aq_odd (a_q (cs s))); [destruct (a_q (cs s)).2|]; simpl; by left. }
    assert (e ∈ (a_q (cs (with_cs s (a_enter k (cs s) h e)))).2) as H. { simpl. unfold a_enter. simpl. by rewrite Hh. }
    destruct (aq_create (a_q (cs s)) e).2 as [x|]; [|done]. unfold f_strengthen. by rewrite p_upd_cs.
  Qed.
  Lemma link_q (s : sta) h e : k_refresh k = None -> e ∈ (a_q (cs (f_link k s h e))).2.
  Proof using Hms.
    intros Hr. unfold f_link. pose proof (create_q (f_mrehash k s) h e) as H. destruct (pends _ e); [done|]. rewrite f_assign_eq, Hr. by destruct (assign1_facts k (f_create k (f_mrehash k s) h e) e (holds_value (f_create k (f_mrehash k s) h e) e)) as (-> & _).
  Qed.

  (** ** the steps *)
  Context (Hr : k_resolver k = RNone).
  Lemma norefresh : k_refresh k = None.
  Proof using Hk Hr. destruct (k_refresh k) eqn:E; [|done]. exfalso. apply Hk; [by rewrite E|done]. Qed.
  Lemma nopend (s : sta) : J k s -> forall y ey, tv s y = Some ey -> el_pending ey = false.
  Proof using Hr. intros HJ. destruct (j_sync _ _ HJ) as [?|[_ H]]; [congruence|exact H]. Qed.
  Lemma emplace_bound (s : sta) key v : inv k g0 s -> a_torn (cs s) = None -> J k s -> nhope s <= n -> nhope (f_emplace k s key v) <= n.
  Proof using Hk Hms Hta Hr.
    intros Hi Ht HJ Hle. unfold f_emplace. destruct (expire_ends k g0 s key Hi Ht) as ((_ & I1 & _) & T1).
    destruct (insert_ends k g0 (f_expire k s key) key v I1 T1) as [I2 T2].
    assert (path k (fun κ => κ = KFree \/ κ = KErase key) s (f_expire k s key)) as P1 by (eapply expire_path; try done; tauto).
    set (s1 := f_expire k s key) in *. assert (J k s1) as J1 by (by eapply path_J).
    destruct (insert_enter k g0 s1 key v HClean I1 T1 eq_refl) as (s2 & P2 & M); [by eapply expire_nohope|].
    assert (J k (f_insert k s1 key v)) as J3. { eapply mini_J; [exact M|]. by eapply path_J. }
    assert (tv s1 (m_nxt (me s1)) = None) as Tn. { destruct (tv s1 (m_nxt (me s1))) as [el|] eqn:E; [|done]. apply tv_elim in E as (H & _). exfalso. eapply (nxt_not_LT k g0 s1 I1). by apply tab_LT. }
    assert (m_nxt (me s1) ∈ (a_q (cs (f_insert k s1 key v))).2) as Hq by (apply link_q, norefresh).
    assert (m_nxt (me s1) ∈ tab (f_insert k s1 key v)) as Hin.
    { pose proof (i_q _ _ _ I2) as Hqq. unfold has_queue in Hqq. rewrite Hms, bool_decide_true in Hqq by eauto. unfold LT in Hqq. rewrite (a_tab_None _ T2) in Hqq.
      assert (m_nxt (me s1) ∈ g_xs g0 ++ concat (a_bs (cs (f_insert k s1 key v)))) as H; [rewrite <-Hqq; unfold aq_elems; apply elem_of_app; by right|]. by apply elem_of_app in H as [?%elem_of_nil|?]. }
    eapply (maint_bound g0 s1 _ (m_nxt (me s1))); [exact I2|done|done|exact J3|by apply nopend| |exact Hq|].
    - intros x Hx. eapply enter_hop; [exact P2|exact M|exact Tn| |exact Hx]. destruct (i_tab _ _ _ I2 (m_nxt (me s1))) as [el Hel]; [by apply tab_LT|]. rewrite (tv_some _ _ el Hin Hel). eauto.
    - etransitivity; [|exact Hle]. apply nhope_le; [by eapply tab_nodup|]. intros x. eapply path_hop; [|exact P1]. by intros ? ? ? [?|?].
  Qed.
  Lemma goe_bound (s : sta) key v : inv k g0 s -> a_torn (cs s) = None -> J k s -> nhope s <= n -> nhope (f_goe k s key v).1 <= n.
  Proof using Hk Hms Hta Hr.
    intros Hi Ht HJ Hle. destruct (goe_ends k g0 s key v Hi Ht) as (_ & Ie & _ & Te). destruct (f_find k s key true).2 as [[e r]|] eqn:Ef.
    - etransitivity; [|exact Hle]. apply nhope_le; [by eapply tab_nodup|]. intros x.
      destruct (get_ends k g0 s key true Hi Ht) as (_ & I1 & _ & T1 & _). pose proof (get_path k (fun κ => κ = KFree \/ evicting κ \/ κ = KHit key) g0 s key true (or_introl eq_refl) (or_intror (or_intror eq_refl)) Hi Ht) as P1.
      eapply (path_hop (fun κ => κ = KFree \/ evicting κ \/ κ = KHit key)); [by intros ? ? ? [?|[?|?]]|].
      unfold f_goe. unfold f_get in *. destruct (f_find k s key true) as [s0 [[e' r']|]]; [|done]. simpl in *. eapply path_trans; [exact P1|]. eapply maint_path; try done; intros; simpl; tauto.
    - unfold f_goe in *. destruct (get_ends k g0 s key true Hi Ht) as (_ & I1 & X1 & T1 & _).
      pose proof (find_path k free g0 s key true eq_refl Hi Ht) as P1. pose proof (find_nohope k g0 s key true Hi Ht HJ) as Hn.
      unfold f_get in *. destruct (f_find k s key true) as [s0 [[e r]|]] eqn:Eff; simpl in *; [done|].
      set (e := m_nxt (me s0)) in *. set (g := g0) in *.
      destruct (alloc_pin k g s0 key (MVal v)) as (_ & I2 & X2); [done|done|apply mode_val|]. fold e in I2, X2.
      pose proof (alloc_path k free g s0 key (MVal v) eq_refl I1 T1) as P2. set (s2 := f_alloc s0 key (MVal v)) in *.
      assert (m_els (me s2) !! e = Some (fresh_el key (MVal v))) as Hel2 by apply f_alloc_self.
      destruct (inc_ends k (pin e g) s2 e I2) as (_ & I3 & X3); [eauto|].
      pose proof (path_inc k free s2 e eq_refl) as P3.
      assert (a_torn (cs (p_inc s2 e)) = None) as T3 by (unfold p_inc; by rewrite p_upd_cs).
      assert (e ∉ LT (pin e (pin e g)) (cs (p_inc s2 e))) as He3.
      { unfold p_inc. rewrite p_upd_cs. unfold s2. rewrite f_alloc_LT. simpl. by apply (nxt_not_LT k g s0). }
      assert (m_els (me (p_inc s2 e)) !! e = Some (with_rc (newborn key (MVal v)) 2)) as Hel3.
      { unfold p_inc. rewrite p_upd_lookup, decide_True, Hel2 by done. done. }
      pose proof (path_trans _ _ _ _ _ P2 P3) as P23.
      destruct (link_ends k (pin e (pin e g)) (pin e g) (p_inc s2 e) e _ I3 Hel3 T3 He3) as ((_ & I4 & X4) & T4 & Hin).
      { eapply handed_pin; [exact I3|]. simpl. apply not_elem_of_nil. }
      simpl in I4, T4, Hin.
      destruct (link_enter k (pin e (pin e g)) (p_inc s2 e) e key (MVal v) 2 HClean) as (s4 & P4 & M4); try done.
      { intros _. eapply free_newest; [exact P23|by eapply fresh_newest]. }
      { intros Htm. eapply free_nohope; [exact P23|by apply Hn; eauto]. }
      set (s5 := f_link k (p_inc s2 e) (k_hash k key) e) in *.
      assert (path k free s0 s4) as P04 by (by eapply path_trans).
      assert (J k s5) as J5. { eapply mini_J; [exact M4|]. eapply path_J; [exact P04|]. by eapply path_J. }
      assert (tv s0 e = None) as Tn. { destruct (tv s0 e) as [el|] eqn:E; [|done]. apply tv_elim in E as (H & _). exfalso. eapply (nxt_not_LT k g0 s0 I1). by apply tab_LT. }
      assert (nhope (f_maint k s5) <= n) as Hb.
      { eapply (maint_bound (pin e g) s0 _ e); [exact I4|done|done|exact J5|by apply nopend| |apply link_q, norefresh|].
        - intros x Hx. eapply enter_hop; [exact P04|exact M4|exact Tn| |exact Hx]. destruct (i_tab _ _ _ I4 e) as [el Hel]; [by apply tab_LT|]. rewrite (tv_some _ _ el Hin Hel). eauto.
        - etransitivity; [|exact Hle]. apply nhope_le; [by eapply tab_nodup|]. intros x. eapply path_hop; [|exact P1]. by intros. }
      etransitivity; [|exact Hb]. apply nhope_le; [by eapply tab_nodup|]. intros x. eapply (path_hop free); [by intros|].
      destruct (maint_ends k (pin e g) _ I4) as (_ & I5 & _). eapply dec_path; [done|exact I5|]. by rewrite f_maint_cs.
  Qed.
  Lemma step_bound o (s s' : sta) r : top s -> m_up (me s) = true -> fine_op false o = true -> o <> ODestroy -> step k false o s = Ok (s', r) -> nhope s <= n -> nhope s' <= n.
  Proof using Hk Hms Hta Hr.
    intros T Hup Hf Hn E Hle. destruct (top_facts k s T Hup) as (Hi & Ht & HJ).
    destruct (top_step k Hk o s T Hf) as (s1 & r1 & E1 & T1 & _ & _ & Hs & _). rewrite E in E1. injection E1 as <- <-.
    destruct (Hs Hup Hn) as (U & P & _). destruct (top_facts k s' T1) as (Hi1 & Ht1 & HJ1); [by rewrite U|].
    assert ((forall key cl o', ~ okind k o (KEnter key cl o')) -> nhope s' <= n) as Hno.
    { intros H. etransitivity; [|exact Hle]. apply nhope_le; [by eapply tab_nodup|]. intros x. eapply path_hop; [|exact P]. intros key cl o' [H'|(i & ? & _)]; [by eapply H|done]. }
    destruct o; try (apply Hno; simpl; by intros ? ? ? ?); try (apply Hno; simpl; by intros ? ? ? [?|?]).
    - apply Hno. simpl. rewrite Hr. by intros ? ? ? [?|[?|[? _]]].
    - apply Hno. simpl. rewrite Hr. by intros ? ? ? [? _].
    - destruct (holds k s v) eqn:Hh.
      + rewrite (step_emplace k s key v T Hup Hh) in E. injection E as <- <-. by apply emplace_bound.
      + rewrite step_eq in E. unfold step_with in E. rewrite Hup in E. simpl in E. rewrite Hh in E. by injection E as <- <-.
    - destruct (holds k s v) eqn:Hh.
      + rewrite (step_goe k s key v T Hup Hh) in E. assert (exists u, s' = give k (f_goe k s key v).1 u \/ s' = (f_goe k s key v).1) as (u & Hu).
        { destruct (f_goe k s key v).2 as [|u|u|]; [exists 0%Z; right|exists u; left|exists 0%Z; right|exists 0%Z; right]; by injection E as <- <-. }
        pose proof (goe_bound s key v Hi Ht HJ Hle) as Hb. destruct Hu as [->| ->]; [|done].
        assert (nhope (give k (f_goe k s key v).1 u) = nhope (f_goe k s key v).1) as ->; [|done]. unfold give. by destruct (k_pointer k).
      + rewrite step_eq in E. unfold step_with in E. rewrite Hup in E. simpl in E. rewrite Hh in E. by injection E as <- <-.
    - apply Hno. simpl. by intros ? ? ? [?|[?|?]].
    - apply Hno. simpl. rewrite norefresh. intros ? ? ? [[? ?] _]. done.
  Qed.
  Lemma run_bound l : forall s s' : sta, top s -> fine l -> run k l s = Ok s' -> (m_up (me s) = true -> nhope s <= n) -> m_up (me s') = true -> nhope s' <= n.
  Proof using Hk Hms Hta Hr.
    induction l as [|o l IH]; intros s s' T Hf R Hd Hup'; [injection R as <-; by apply Hd|].
    rewrite run_cons in R. unfold fine in Hf. simpl in Hf. apply andb_true_iff in Hf as [Hf1 Hf2].
    destruct (top_step k Hk o s T Hf1) as (s1 & r1 & E1 & T1 & _ & _ & Hs & _). rewrite E1 in R. unfold rbind in R.
    apply (IH s1 s' T1 Hf2 R); [|done]. intros Hup1. destruct (up_step k Hk o s s1 r1 T Hf1 E1 Hup1) as [Hup Hn].
    eapply step_bound; [exact T|done|done|done|exact E1|by apply Hd].
  Qed.
  Lemma bounded l sc c : fine l -> after k l sc -> live_count k sc = Some c -> c <= n.
  Proof using Hk Hms Hta Hr.
    intros Hf Ha Hc. destruct (after_abs k Hk l sc Hf Ha) as (sa & R & S & T & _). destruct (m_up (me sc)) eqn:Hup.
    - assert (m_up (me sa) = true) as Hupa by (by rewrite (srel_me _ _ S)). destruct (top_facts k sa T Hupa) as (Hi & Ht & HJ).
      pose proof (step_count k sa T Hupa) as Ec. destruct (step_c k _ _ _ _ _ _ S Ec) as (sc2 & Ec' & _). unfold live_count, answer in Hc. rewrite Ec' in Hc. injection Hc as <-.
      etransitivity; [|eapply run_bound; [apply top_init|exact Hf|exact R| |done]; intros _; unfold nhope; simpl; lia].
      unfold p_count, nhope. fold (tab sa). apply submseteq_length, NoDup_submseteq; [apply NoDup_filter; by eapply tab_nodup|].
      intros x (Hx & Hin)%elem_of_list_filter. apply elem_of_list_filter. split; [|done]. apply Is_true_true in Hx. apply Is_true_true. unfold live in Hx.
      destruct (m_els (me sa) !! x) as [el|] eqn:Hel; [|done]. apply hop_el. exists (with_rc el 0). pose proof (tv_some sa x el Hin Hel) as Tx. split; [done|]. simpl.
      destruct (i_mode _ _ _ Hi x el Hel) as [Hm _]. pose proof (nopend sa HJ x _ Tx) as Hp. unfold el_pending in Hp. simpl in Hp.
      unfold el_expired in Hx. apply negb_true_iff in Hx. rewrite !orb_false_iff in Hx. destruct Hx as ((((X1 & X2) & _) & _) & _). simpl in X2.
      destruct (el_map el) as [p|w|[w|]|y| |]; done.
    - unfold live_count, answer in Hc. rewrite step_eq in Hc. unfold step_with in Hc. rewrite Hup in Hc. done.
  Qed.
End bound.
