(** Rounds of the refresh worker whose lookups complete at once (lemmas for PropertiesRefresh.v). *)
From stdpp Require Import sorting.
From Verif Require Import Base AQueue ATable BasicHashtable QueueProofs BasicHashtableProofs ContainersProofs Mapped Cache CachePtr CacheAbs CompSim CacheSim AbsInv AbsPrim AbsPrim2 AbsSweep AbsOps AbsComp Trace AbsTrace TraceInv Delay AbsTraceCb Histories AbsResolve AbsStep AbsLook Effects Observe Transfer Lookups Answers Waiters Calls Origins Rounds Idle Refresh Gap WeakPtr.

Section avail.
  Context (k : cfg) (Hk : fine_cfg k) (Hq : eq_ok k) (Hta : tame k) (Hages : ages_ok k).
  Context (n0 : N) (key : Z) (G : Z -> Prop).
  Notation top := (top k).

  (** what the scripts of the lookups do *)
  Definition mild (κ : kind) : Prop :=
    match κ with
    | KFree | KCancel _ | KHit _ | KWait _ _ | KLet _ | KEnter _ _ None => True
    | KErase key' | KEnter key' _ (Some _) => k_eq k key' key = false
    | KEvict _ _ => k_max_size k = None
    | KDone i (Some v) Still => (n0 <= i)%N /\ G v
    | _ => False
    end.
  (** and the worker itself *)
  Definition soft (κ : kind) : Prop :=
    match κ with
    | KPop _ | KRefresh _ false => True
    | KRefresh key' true => k_eq k key' key = false
    | _ => mild κ
    end.
  Lemma mild_soft κ : mild κ -> soft κ.
  Proof using. by destruct κ. Qed.
  Lemma soft_still κ : soft κ -> drift_of κ = Still.
  Proof using. destruct κ as [| | | | | | | | |i [v|] []|?|?|?]; simpl; try done. Qed.

  Record avail (s : sta) : Prop := {
    r_av : exists x el v, tv s x = Some el /\ el_map el = MVal v /\ k_eq k (el_key el) key = true /\ late (me s) el = false;
    r_cb i c el p : (n0 <= i)%N -> m_cbs (me s) !! i = Some c -> cb_called c = false -> tv s (cb_el c) = Some el -> k_eq k (el_key el) key = true -> el_map el = MPend p ->
      p_exp p = false /\ p_weak p = false;
    r_val x el v : tv s x = Some el -> k_eq k (el_key el) key = true -> el_map el = MVal v -> G v }.

  Lemma still_late (m m' : mem) el : m_wall m' = m_wall m -> m_steady m' = m_steady m -> late m' el = late m el.
  Proof using. unfold late. by intros -> ->. Qed.
  Lemma late_unexpired m el v : el_map el = MVal v -> el_expired k m el = true -> late m el = true.
  Proof using. unfold el_expired. intros ->. unfold late. simpl. intros H. by rewrite H. Qed.
  Lemma eq_other a b : k_eq k b key = false -> k_eq k a b = true -> k_eq k a key = true -> False.
  Proof using Hq. intros H1 H2 H3. destruct Hq as (_ & Q2 & Q3 & _). rewrite (Q3 b a key) in H1; [done|by apply Q2|done]. Qed.

  (** entries that were in time before *)
  Lemma mini_av κ s s' x el v : J k s -> mini k κ s s' -> soft κ ->
    tv s x = Some el -> el_map el = MVal v -> k_eq k (el_key el) key = true -> late (me s) el = false ->
    (exists i c en p, m_cbs (me s) !! i = Some c /\ cb_called c = false /\ tv s (cb_el c) = Some en /\ el_map en = MPend p /\ x ∈ olds_of (p_cbq p) /\ (exists w, κ = KDone i (Some w) Still)) \/
    exists el', tv s' x = Some el' /\ el_map el' = MVal v /\ el_key el' = el_key el /\ late (me s') el' = false /\ ((forall k1 b, κ <> KRefresh k1 b) -> el_rs el' = el_rs el).
  Proof using Hq Hages.
    intros HJ HM Hs T Em Ek Hl. destruct (n_clk _ _ _ _ HM) as (_ & _ & Hst). destruct (Hst (soft_still κ Hs)) as (W1 & W2 & W3).
    destruct (n_body _ _ _ _ HM) as [κ _ Hv _ _ _|κ e el0 o T0 Hc T0' Hv _ _|e key' cl mp T0 Hn _ Hmp T0' Hv _ _ _ _|i c e el0 p o z cn δ Hc Hcc Hce T0 Em0 _ T0' Hv _ _ _ _|i c e el0 p Hc Hcc Hce T0 Em0 T0' Hv _ _].
    - right. exists el. rewrite Hv. split_and!; try done. by rewrite (still_late _ _ _ W1 W2).
    - right. destruct (decide (x = e)) as [->|Hne]; [|exists el; rewrite Hv by done; split_and!; try done; by rewrite (still_late _ _ _ W1 W2)].
      assert (el0 = el) as -> by congruence. clear Hv. unfold el_pending in *.
      inversion Hc; subst; simpl in Hs; unfold el_pending in *; try rewrite Em in *; try done.
      + exfalso. match goal with H : el_expired _ _ _ = true |- _ => by rewrite (late_unexpired _ _ _ Em H) in Hl end.
      + exfalso. by eapply eq_other.
      + match goal with H : Some _ = tv s' e |- _ => rewrite <-H end. eexists. split; [reflexivity|]. simpl. split_and!; try done. rewrite (still_late _ _ _ W1 W2). done.
      + match goal with H : Some _ = tv s' e |- _ => rewrite <-H end. eexists. split; [reflexivity|]. simpl. split_and!; try done. rewrite (still_late _ _ _ W1 W2). unfold late in *. simpl. rewrite !orb_false_iff in *. destruct Hl as [Hl _]. split; [done|].
        apply bool_decide_eq_false. destruct Hages as [_ Ha]. match goal with H : k_refresh k = Some _ |- _ => specialize (Ha _ _ H) end. lia.
      + match goal with H : Some _ = tv s' e |- _ => rewrite <-H end. eexists. split; [reflexivity|]. simpl. split_and!; try done; [rewrite (still_late _ _ _ W1 W2); done|]. intros HN. by destruct (HN (el_key el) false).
      + congruence.
      + congruence.
    - right. exists el. rewrite Hv by (intros ->; congruence). split_and!; try done. by rewrite (still_late _ _ _ W1 W2).
    - destruct (decide (x ∈ olds_of (p_cbq p))) as [Ho|Ho].
      + left. exists i, c, el0, p. rewrite Hce. split_and!; try done. simpl in Hs. destruct o as [w|]; [|done]. destruct δ; try done. by exists w.
      + right. exists el. rewrite Hv by (intros ->; congruence). rewrite decide_False by done. rewrite option_fmap_id. split_and!; try done. by rewrite (still_late _ _ _ W1 W2).
    - right. exists el. rewrite Hv by (intros ->; congruence). split_and!; try done. by rewrite (still_late _ _ _ W1 W2).
  Qed.

  (** a lookup that completes *)
  Lemma done_av i v s s' c el p : J k s -> mini k (KDone i (Some v) Still) s s' -> avail s -> (n0 <= i)%N ->
    m_cbs (me s) !! i = Some c -> cb_called c = false -> tv s (cb_el c) = Some el -> el_map el = MPend p -> k_eq k (el_key el) key = true ->
    (forall o eo, o ∈ olds_of (p_cbq p) -> m_els (me s) !! o = Some eo -> reached (m_steady (me s)) (el_cn eo) = false) ->
    exists el', tv s' (cb_el c) = Some el' /\ el_map el' = MVal v /\ el_key el' = el_key el /\ late (me s') el' = false /\ el_rs el' = el_rs el.
  Proof using Hages.
    intros HJ HM HA Hi Hc Hcc T Em Ek Hol. destruct (n_clk _ _ _ _ HM) as (_ & _ & Hst). destruct (Hst eq_refl) as (W1 & W2 & _).
    pose proof (n_body _ _ _ _ HM) as HB. remember (KDone i (Some v) Still) as κ eqn:Eκ.
    destruct HB as [κ Hκ|κ e0 el0 o0 T0 Hc0|?|j c0 e el0 p0 o z cn δ Hc0 _ Hce T0 Em0 Hcn T0' _ _ _ _ _|?]; [subst κ; by destruct Hκ as [?|[[? ?]|[[? ?]|[? ?]]]]|subst κ; by inversion Hc0|done| |done].
    injection Eκ as -> -> ->. assert (c0 = c) as -> by congruence. subst e. assert (el0 = el) as -> by congruence. assert (p0 = p) as -> by congruence.
    destruct (r_cb _ HA i c el p Hi Hc Hcc T Ek Em) as [Ex Ew].
    destruct (j_pc _ _ HJ _ _ T ltac:(unfold el_pending; by rewrite Em)) as (Exw & Exs & Ecn & _).
    set (el1 := with_map (with_cn el cn) (settled k p v)) in *. simpl in T0'.
    destruct (assigned_facts k (me s') true el1) as (K1 & K2 & K3). eexists. split; [exact T0'|]. rewrite K1, K2, K3. unfold el1. simpl. split_and!; try done.
    - unfold settled. by rewrite Ex, Ew.
    - apply assigned_ontime; try done. simpl. rewrite W2. apply not_true_is_false. intros Hr. destruct Hcn as (_ & _ & H3).
      destruct (H3 _ Hr) as [Hr1|(o & eo & Ho & He & Hr1)]; [by rewrite Ecn in Hr1|]. by rewrite (Hol o eo Ho He) in Hr1.
  Qed.

  Lemma marked_map el p : el_pending el = false -> el_map (marked k el) <> MPend p.
  Proof using. unfold marked, el_pending, m_mark_expired, m_dead. simpl. destruct (el_map el); try done; by destruct (k_pointer k). Qed.
  Lemma marked_val el v : el_map (marked k el) <> MVal v.
  Proof using. unfold marked, m_mark_expired, m_dead. simpl. destruct (el_map el); try done; by destruct (k_pointer k). Qed.
  Lemma settled_shape p v q : settled k p v <> MPend q /\ (forall w, settled k p v = MVal w -> w = v).
  Proof using. unfold settled, m_dead. destruct (p_exp p), (p_weak p), (k_pointer k); (split; [done|]); intros w; congruence. Qed.
  Lemma failed_shape x p : (forall q, m_settle_error (k_pointer k) x p <> MPend q) /\ forall v, m_settle_error (k_pointer k) x p <> MVal v.
  Proof using. unfold m_settle_error, m_dead. destruct (_ || _), (k_pointer k); done. Qed.
  Lemma chg_soft κ s e el el' : chg k s e el κ (Some el') -> soft κ -> k_eq k (el_key el') key = true -> tame_map k (el_map el) ->
    k_eq k (el_key el) key = true /\ (forall p, el_map el' = MPend p -> exists q, el_map el = MPend q /\ p_exp p = p_exp q /\ (p_weak q = false -> p_weak p = false)) /\
    (forall v, el_map el' = MVal v -> el_map el = MVal v).
  Proof using Hq.
    intros Hc Hs Ek [Ht _]. inversion Hc; subst; simpl in *; try done.
    - exfalso. by eapply eq_other.
    - split; [done|]. destruct (el_map el) as [q|w|[w|]|z| |]; simpl; try done.
      + unfold p_strengthen. destruct (p_exp q) eqn:E; simpl; split; try done; intros p [= <-]; exists q; done.
      + by destruct (Ht w).
    - split_and!; try done. intros p E. exists p. done.
    - split_and!; try done. intros p0 [= <-]. exists p. done.
    - split_and!; try done. intros p E. exists p. done.
    - split_and!; try done. intros p0 [= <-]. exists p. done.
    - congruence.
    - congruence.
  Qed.
  Lemma mini_avail κ s s' : J k s -> mini k κ s s' -> soft κ -> avail s -> avail s'.
  Proof using Hq Hta Hages.
    intros HJ HM Hs HA. split.
    - destruct (r_av _ HA) as (x & el & v & T & Em & Ek & Hl).
      destruct (mini_av κ s s' x el v HJ HM Hs T Em Ek Hl) as [(i & c & en & p & Hc & Hcc & Tn & Emn & Ho & w & ->)|(el' & T' & Em' & Ek' & Hl' & _)].
      2: { exists x, el', v. split_and!; try done. by rewrite Ek'. }
      simpl in Hs. destruct Hs as [Hi _]. pose proof Ho as (m & Hm)%olds_iff. destruct (j_rs _ _ HJ _ _ _ _ _ _ Tn Emn Hm T) as (_ & Ekn & _).
      destruct (done_av i w s s' c en p HJ HM HA Hi Hc Hcc Tn Emn) as (el' & T' & Em' & Ek' & Hl' & _); [by rewrite <-Ekn| |].
      + intros o eo Ho' He. pose proof (j_one _ _ HJ _ _ _ Tn Emn) as H1. assert (o = x) as ->.
        { destruct (olds_of (p_cbq p)) as [|a [|b l]]; [by apply elem_of_nil in Ho|..|simpl in H1; lia]. apply elem_of_list_singleton in Ho, Ho'. congruence. }
        apply tv_elim in T as (_ & e0 & He0 & ->). assert (e0 = eo) as -> by congruence. unfold late in Hl. rewrite !orb_false_iff in Hl. by destruct Hl as [_ Hl].
      + exists (cb_el c), el', w. split_and!; try done. by rewrite Ek', <-Ekn.
    - intros i c' el' p' Hi Hc' Hcc' T' Ek' Em'. destruct (n_cbs _ _ _ _ HM) as (_ & Hold & _).
      assert (tv s (cb_el c') = None -> p_exp p' = false /\ p_weak p' = false) as Hnew.
      { intros Tn. destruct (mini_tv k κ s s' _ el' HM T') as [(el & Hx0 & _)|(key1 & cl & mp & _ & _ & -> & _ & Hmp & _)]; [congruence|].
        destruct (born_facts k (me s) key1 mp) as (_ & Eb & _). rewrite Eb in Em'. rewrite Em' in Hmp. destruct Hmp as [[= ->] _]. done. }
      destruct (Hold i c' Hc') as [(_ & _ & _ & _ & Tn)|(c & Hc & Ece & Hcall)]; [by apply Hnew|].
      assert (cb_called c = false) as Hcc by (destruct Hcall as [<-|[? _]]; congruence).
      destruct (n_body _ _ _ _ HM) as [κ _ Hv _ _ _|κ e el0 o T0 Hch T0' Hv _ _|e key1 cl mp T0 Hn _ Hmp T0' Hv _ _ _ _|j c0 e el0 p o z cn δ Hc0 Hcc0 Hce T0 Em0 _ T0' Hv _ _ _ _ Hin _|j c0 e el0 p Hc0 Hcc0 Hce T0 Em0 T0' Hv _ _ Hin Hcd].
      + rewrite Hv in T'. eapply (r_cb _ HA i c el'); try done. by rewrite <-Ece.
      + destruct (decide (cb_el c' = e)) as [He|Hne].
        2: { rewrite Hv in T' by done. eapply (r_cb _ HA i c el'); try done. by rewrite <-Ece. }
        rewrite He in T'. assert (forall p0, k_eq k (el_key el0) key = true -> el_map el0 = MPend p0 -> p_exp p0 = false /\ p_weak p0 = false) as Hr.
        { intros p0 H1 H2. eapply (r_cb _ HA i c el0); try done. by rewrite <-Ece, He. }
        subst o. destruct (chg_soft κ s e el0 el') as (Ek0 & Hp & _); try done; [congruence|by apply (j_tame _ _ HJ e)|].
        destruct (Hp p' Em') as (q & Eq & E1 & E2). destruct (Hr q Ek0 Eq). rewrite E1. auto.
      + destruct (decide (cb_el c' = e)) as [He|Hne]; [apply Hnew; congruence|]. rewrite Hv in T' by done. eapply (r_cb _ HA i c el'); try done. by rewrite <-Ece.
      + destruct (decide (cb_el c' = e)) as [He|Hne].
        { exfalso. rewrite He, T0' in T'. injection T' as <-. destruct (assigned_facts k (me s') (bool_decide (is_Some o)) (with_map (with_cn el0 cn) (match o with Some v => settled k p v | None => m_settle_error (k_pointer k) z p end))) as (_ & K2 & _).
          rewrite K2 in Em'. simpl in Em'. destruct o as [w|]; [by destruct (settled_shape p w p')|by destruct (failed_shape z p) as [F _]; destruct (F p')]. }
        rewrite Hv in T' by done. apply fmap_Some in T' as (el1 & T1 & ->). case_decide as Ho.
        * exfalso. pose proof Ho as (m & Hm)%olds_iff. destruct (j_rs _ _ HJ _ _ _ _ _ _ T0 Em0 Hm T1) as (_ & _ & Hnp). by eapply marked_map.
        * eapply (r_cb _ HA i c el1); try done. by rewrite <-Ece.
      + destruct (decide (cb_el c' = e)) as [He|Hne].
        { exfalso. assert (i = j) as -> by (apply (Hin i c Hc); congruence). by rewrite (Hcd c' Hc') in Hcc'. }
        rewrite Hv in T' by done. eapply (r_cb _ HA i c el'); try done. by rewrite <-Ece.
    - intros x el' v T' Ek' Em'. destruct (mini_tv k κ s s' x el' HM T') as [(el & Hx0 & Hd)|(key1 & cl & mp & -> & _ & -> & _ & Hmp & _)].
      2: { destruct (born_facts k (me s) key1 mp) as (Eb1 & Eb & _). rewrite Eb in Em'. subst mp. rewrite Eb1 in Ek'. simpl in Hs. congruence. }
      destruct Hd as [->|[[Hd _]|[(i & o & δ & -> & c & _ & -> & _)|[(i & o & c & p & y & cn & δ & -> & _ & _ & _ & Em & _ & ->)|(i & c & p & -> & _ & _ & _ & _ & ->)]]]].
      + by eapply (r_val _ HA).
      + destruct (chg_soft κ s x el el') as (Ek0 & _ & Hv); try done; [by apply (j_tame _ _ HJ x)|]. eapply (r_val _ HA); [done|done|by apply Hv].
      + exfalso. by eapply marked_val.
      + destruct (assigned_facts k (me s') (bool_decide (is_Some o)) (with_map (with_cn el cn) (match o with Some v => settled k p v | None => m_settle_error (k_pointer k) y p end))) as (_ & K2 & _).
        rewrite K2 in Em'. simpl in Em'. destruct o as [w|]; [|exfalso; destruct (failed_shape y p) as [_ F]; by destruct (F v)].
        simpl in Hs. destruct δ; try done. destruct Hs as [_ Hg]. destruct (settled_shape p w p) as [_ F]. by rewrite (F v Em').
      + done.
  Qed.
  Lemma path_avail (A : kind -> Prop) s s' : (forall κ, A κ -> soft κ) -> path k A s s' -> J k s -> avail s -> avail s'.
  Proof using Hq Hta Hages.
    intros HA P. induction P as [|s1 s2 s3 (κ & H1 & H2) _ IH]; [done|]. intros HJ HV. apply IH; [by eapply mini_J|]. eapply mini_avail; eauto.
  Qed.

  (** an entry for the key that is going to have a value in time *)
  Definition live (b : bool) (s : sta) (x : N) : Prop := exists el, tv s x = Some el /\ k_eq k (el_key el) key = true /\ el_rs el = false /\
    ((b = false /\ exists p, el_map el = MPend p /\ olds_of (p_cbq p) = []) \/ (exists v, el_map el = MVal v /\ late (me s) el = false)).
  Lemma mini_live b κ s s' x : J k s -> mini k κ s s' -> mild κ -> avail s -> live b s x -> live b s' x.
  Proof using Hq Hages.
    intros HJ HM Hs HA (el & T & Ek & Er & [(-> & p & Em & Eo)|(v & Em & Hl)]).
    - destruct (n_body _ _ _ _ HM) as [κ _ Hv _ _ _|κ e el0 o T0 Hch T0' Hv _ _|e key1 cl mp T0 Hn _ Hmp T0' Hv _ _ _ _|j c0 e el0 p0 o z cn δ Hc0 Hcc0 Hce T0 Em0 _ T0' Hv _ _ _ _ Hin _|j c0 e el0 p0 Hc0 Hcc0 Hce T0 Em0 T0' Hv _ _ Hin Hcd].
      + exists el. rewrite Hv. split_and!; try done. left. eauto.
      + destruct (decide (x = e)) as [->|Hne]; [|exists el; rewrite Hv by done; split_and!; try done; left; eauto].
        assert (el0 = el) as -> by congruence. inversion Hch; subst; simpl in Hs; try done; unfold el_pending in *; try rewrite Em in *; try done.
        * exfalso. by eapply eq_other.
        * match goal with H : Some _ = tv s' e |- _ => rename H into Hx end. symmetry in Hx. eexists. split; [exact Hx|]. simpl. split_and!; try done. left. unfold p_strengthen. destruct (p_exp p); simpl; eauto.
        * match goal with H : Some _ = tv s' e |- _ => rename H into Hx end. symmetry in Hx. match goal with H : MPend _ = MPend _ |- _ => injection H as <- end. eexists. split; [exact Hx|]. simpl. split_and!; try done. left. split; [done|]. eexists. split; [done|].
          simpl. unfold olds_of in *. rewrite map_app, concat_app, Eo. done.
      + exists el. rewrite Hv by (intros ->; congruence). split_and!; try done. left. eauto.
      + destruct o as [w|]; [|done]. destruct δ; try done. destruct Hs as [Hi _]. destruct (decide (x = e)) as [->|Hne].
        * assert (el0 = el) as -> by congruence. assert (p0 = p) as -> by congruence. subst e.
          destruct (done_av j w s s' c0 el p HJ HM HA Hi Hc0 Hcc0 T Em Ek) as (el' & T' & Em' & Ek' & Hl' & Er'); [intros o eo Ho; rewrite Eo in Ho; by apply elem_of_nil in Ho|].
          exists el'. split_and!; [done|by rewrite Ek'|by rewrite Er'|]. right. by exists w.
        * exists el. rewrite Hv by done. rewrite decide_False; [rewrite option_fmap_id; split_and!; try done; left; eauto|].
          intros (m & Hm)%olds_iff. destruct (j_rs _ _ HJ _ _ _ _ _ _ T0 Em0 Hm T) as (Er1 & _). congruence.
      + destruct (decide (x = e)) as [->|Hne]; [|exists el; rewrite Hv by done; split_and!; try done; left; eauto].
        assert (el0 = el) as -> by congruence. eexists. split; [exact T0'|]. simpl. split_and!; try done. left. split; [done|]. by exists (p_cancel p0).
    - destruct (mini_av κ s s' x el v HJ HM (mild_soft κ Hs) T Em Ek Hl) as [(i & c & en & p & Hc & Hcc & Tn & Emn & Ho & w & ->)|(el' & T' & Em' & Ek' & Hl' & Er')].
      + exfalso. pose proof Ho as (m & Hm)%olds_iff. destruct (j_rs _ _ HJ _ _ _ _ _ _ Tn Emn Hm T) as (Er1 & _). congruence.
      + exists el'. split_and!; [done|by rewrite Ek'| |right; by exists v]. rewrite Er'; [done|]. by intros k1 b1 ->.
  Qed.
  Lemma path_live b (A : kind -> Prop) s s' x : (forall κ, A κ -> mild κ) -> path k A s s' -> J k s -> avail s -> live b s x -> live b s' x.
  Proof using Hq Hta Hages.
    intros HA P. induction P as [|s1 s2 s3 (κ & H1 & H2) _ IH]; [done|]. intros HJ HV HL. specialize (HA κ H1). apply IH; [by eapply mini_J|eapply mini_avail; eauto; by apply mild_soft|by eapply mini_live].
  Qed.
  (** the entry of a lookup that was started just now *)
  Lemma fresh_live key0 s sl l pl : path k (fun κ => κ = KFree \/ κ = KEnter key0 HAny None) s sl -> J k sl -> k_eq k key0 key = true -> tv s l = None -> tv sl l = Some pl -> el_pending pl = true -> live false sl l.
  Proof using.
    intros P HJ Ek Tn T Hp. assert (forall el, tv sl l = Some el -> el_key el = key0 /\ olds_of (cbq_of (el_map el)) = []) as H.
    { apply (path_inv k (fun κ => κ = KFree \/ κ = KEnter key0 HAny None) (fun s => forall el, tv s l = Some el -> el_key el = key0 /\ olds_of (cbq_of (el_map el)) = []) s sl); [|exact P|by rewrite Tn].
      intros κ s1 s2 Hκ HM IH el' T'. destruct (mini_tv k κ s1 s2 l el' HM T') as [(el & T1 & Hd)|(key1 & cl & mp & -> & _ & -> & _ & Hmp & _)].
      - destruct (IH el T1) as [IH1 IH2]. destruct Hd as [->|[[Hd _]|[(i & o & δ & -> & _)|[(i & o & c & p & y & cn & δ & -> & _)|(i & c & p & -> & _)]]]]; try done; try by destruct Hκ.
        destruct Hκ as [-> | ->]; [|by inversion Hd]. inversion Hd; subst. simpl. split; [done|]. destruct (el_map el) as [p|w|[w|]|z| |]; simpl; try done; [unfold p_strengthen; destruct (p_exp p); done|by destruct (alive _ _)].
      - destruct Hκ as [?|[= -> -> Ev]]; [done|]. destruct (born_facts k (me s1) key0 mp) as (-> & -> & _). split; [done|]. destruct mp; try done; try by destruct Hmp as [? _]. by destruct Hmp as [[= ->] _]. }
    destruct (H pl T) as [H1 H2]. destruct (j_pc _ _ HJ l pl T Hp) as (_ & _ & _ & Er). exists pl. rewrite H1. split_and!; try done. left.
    unfold el_pending in Hp. destruct (el_map pl) as [p| | | | |]; try done. split; [done|]. by exists p.
  Qed.

  Context (d idle : Z) (Hrf : k_refresh k = Some (d, idle)) (Hasync : k_resolver k = RAsync).
  (** the new value takes the place of the old one *)
  Lemma swap_avail s2 e l ll : J k s2 -> avail s2 -> live true s2 e -> live false s2 l -> m_els (me s2) !! l = Some ll -> ~ is_pend ll -> l <> e ->
    avail (f_revent k (p_upd s2 e (fun el => with_rs el true)) l e).
  Proof using Hrf.
    intros HJ HA (e2 & Te & Eke & Ere & He2) (l2 & Tl & Ekl & Erl & Hl2) Hll Hnp Hne.
    assert (exists ee, m_els (me s2) !! e = Some ee /\ with_rc ee 0 = e2) as (ee & Hee & Ee). { apply tv_elim in Te as (_ & e0 & He0 & ->). eauto. }
    assert (with_rc ll 0 = l2) as El. { apply tv_elim in Tl as (_ & e0 & He0 & ->). congruence. }
    destruct He2 as [[? _]|(ve & Eme & Hle)]; [done|].
    destruct Hl2 as [(_ & p & Em & _)|(vl & Eml & Hll2)]; [subst l2; simpl in Em; unfold is_pend, el_pending in Hnp; by rewrite Em in Hnp|].
    set (s3 := p_upd s2 e (fun el => with_rs el true)). set (s4 := f_revent k s3 l e).
    destruct (p_upd_me s2 e (fun el => with_rs el true)) as (_ & M0 & _ & _ & _ & M1 & M2 & M3). fold s3 in M0, M1, M2, M3.
    destruct (f_revent_me k s3 l e) as (_ & _ & M7 & _ & _ & _ & M4 & M5 & M6). fold s4 in M4, M5, M6, M7.
    assert (tv s3 e = Some (with_rc (with_rs e2 true) 0)) as Te3. { apply (tv_upd_self s2 e (fun el => with_rs el true) e2); [done|]. intros [] []. unfold eqrc, with_rc, with_rs, with_cn. simpl. congruence. }
    assert (tv s3 l = Some l2) as Tl3. { unfold s3. by rewrite tv_upd. }
    assert (exists e3, m_els (me s3) !! e = Some e3 /\ el_cn e3 = el_cn e2 /\ el_map e3 = el_map e2) as (e3 & He3 & Ecn & Em3).
    { exists (with_rs ee true). unfold s3. rewrite p_upd_lookup, decide_True by done. rewrite Hee. subst e2. done. }
    assert (tv s4 l = Some (with_rc (with_cn l2 (tp_min (el_cn l2) (el_cn e2))) 0)) as Tl4.
    { unfold s4, f_revent. rewrite He3, Ecn. rewrite bool_decide_true by (by rewrite Hrf). unfold f_mark. rewrite tv_upd by done.
      apply (tv_upd_self s3 l (fun el => with_cn el (tp_min (el_cn el) (el_cn e2))) l2); [exact Tl3|]. intros [] []. unfold eqrc, with_rc, with_rs, with_cn. simpl. congruence. }
    assert (forall y, y <> e -> y <> l -> tv s4 y = tv s2 y) as Ty4.
    { intros y Hyx Hyl. unfold s4, f_revent. rewrite bool_decide_true by (by rewrite Hrf). unfold f_mark. rewrite !tv_upd by done. unfold s3. by rewrite tv_upd. }
    assert (forall e4, tv s4 e = Some e4 -> (forall p, el_map e4 <> MPend p) /\ forall v, el_map e4 <> MVal v) as Tx4.
    { intros e4 (_ & e0 & He0 & ->)%tv_elim. unfold s4 in He0. rewrite f_revent_els in He0. rewrite (re_els_old k _ l e _ Hne He3) in He0. injection He0 as <-. simpl.
      rewrite Em3, Eme. unfold m_mark_expired, m_dead. by destruct (k_pointer k). }
    assert (m_cbs (me s4) = m_cbs (me s2)) as Ecb by (by rewrite M7, M0).
    split.
    - exists l. eexists. exists vl. split; [exact Tl4|]. simpl. split_and!; try done.
      assert (late (me s4) (with_cn l2 (tp_min (el_cn l2) (el_cn e2))) = false) as H; [|exact H]. apply late_min.
      + rewrite (still_late (me s2)); [done|by rewrite M4, M1|by rewrite M5, M2].
      + unfold late in Hle. rewrite !orb_false_iff in Hle. destruct Hle as [_ Hle]. by rewrite M5, M2.
    - intros i c el p Hi Hc Hcc T Ek Em. rewrite Ecb in Hc.
      destruct (decide (cb_el c = e)) as [Hx|]; [rewrite Hx in T; by destruct (Tx4 _ T) as [F _]; destruct (F p)|].
      destruct (decide (cb_el c = l)) as [Hx|]; [rewrite Hx, Tl4 in T; injection T as <-; simpl in Em; congruence|].
      rewrite Ty4 in T by done. by eapply (r_cb _ HA i c el).
    - intros x el v T Ek Em.
      destruct (decide (x = e)) as [->|]; [by destruct (Tx4 _ T) as [_ F]; destruct (F v)|].
      destruct (decide (x = l)) as [->|]; [rewrite Tl4 in T; injection T as <-; simpl in Em, Ek; by eapply (r_val _ HA l l2)|].
      rewrite Ty4 in T by done. by eapply (r_val _ HA x el).
  Qed.

  Lemma refresh_avail W g s e u out keep : inv k g s -> m_up (me s) = true -> g_xs g = [] -> g_act g = [] ->
    e ∈ LT g (cs s) -> (exists el, m_els (me s) !! e = Some el /\ ~ is_pend el) -> safe k W mild u -> rok out -> J k s -> avail s ->
    exists s', refresh k s e u out keep false = Ok s' /\ inv k g s' /\ ext W g s g s' /\ J k s' /\ avail s' /\ m_steady (me s') = m_steady (me s).
  Proof using Hq Hta Hages Hrf Hasync.
    intros Hi Hup Gx Ga HeL (ee & Hee & Hnp) Hu Hok HJ HA.
    destruct (refresh_ends k W g s e u out keep mild) as (s' & E & I & X & P & _ & _ & Skip & _ & Q); try done.
    { by exists ee. } { by rewrite Hasync. } { intros ? ? []. } { by rewrite Hrf. }
    assert (J k s') as HJ'. { eapply (path_J k (upto (fun _ => True) (m_ncb (me s)))); [|exact HJ]. by apply P. }
    assert (m_steady (me s') = m_steady (me s)) as Hst.
    { assert (path k (fun κ => drift_of κ = Still) s s') as HP.
      { eapply path_weaken; [|apply (P (fun κ => drift_of κ = Still))]; try done.
        - intros κ [?|(i & -> & _)]; done.
        - intros κ Hκ. by apply soft_still, mild_soft. }
      clear -HP. induction HP as [|a b c (κ & Hκ & HM) _ IH]; [done|]. destruct (n_clk _ _ _ _ HM) as (_ & _ & H). destruct (H Hκ) as (_ & ? & _). congruence. }
    exists s'. split_and!; try done.
    pose proof (i_up _ _ _ Hi Hup) as Ht0.
    assert (e ∈ tab s) as Hetab by (unfold LT in HeL; by rewrite Gx, (a_tab_None _ Ht0) in HeL).
    assert (tv s e = Some (with_rc ee 0)) as Te by (by apply tv_some).
    destruct (k_eq k (el_key ee) key) eqn:Ek.
    2: { assert (forall key', due_key k s e key' -> key' = el_key ee) as Hdk. { intros key' (e1 & He1 & _ & <- & _). rewrite Hee in He1. by injection He1 as <-. }
      eapply (path_avail (upto soft (m_ncb (me s)))); [|apply P|done|done]; try done.
      - intros κ [?|(i & -> & _)]; done.
      - by intros key' ->%Hdk _.
      - apply mild_soft.
      - by intros key' v ->%Hdk _. }
    destruct (el_rs ee || el_expired k (me s) ee) eqn:Esk; [by rewrite (Skip ee Hee Esk)|]. apply orb_false_iff in Esk as [Hrs Hunex].
    destruct (Q ee Hee Hrs Hunex Hasync) as (sl & s2 & l & pl & ll & P1 & Tn & Tl & Hpl & P2 & Hll & Ekl & Hne & Hlast).
    assert (J k sl) as Jl by (by eapply path_J).
    assert (avail sl) as Al. { eapply path_avail; [|exact P1|done|done]. intros κ [-> | ->]; done. }
    assert (live false sl l) as Ll by (by eapply fresh_live).
    assert (live true s e) as Le.
    { exists (with_rc ee 0). split_and!; try done. right. pose proof (unexpired_hopeful k g s e ee Hi Hee Hunex Hnp) as Hh. destruct (j_tame _ _ HJ e _ Hta Te) as [Hw _]. simpl in Hw. simpl.
      unfold is_pend, el_pending in Hnp. destruct (el_map ee) as [p|w|[w|]|z| |] eqn:Em; [by destruct Hnp| |by destruct (Hw w)|done|done|done|done].
      exists w. split; [done|]. unfold el_expired in Hunex. rewrite Em in Hunex. exact Hunex. }
    assert (forall κ, upto (fun κ => κ = KFree \/ mild κ) (m_ncb (me s)) κ -> mild κ) as Hup2. { intros κ [[->|Hκ]|(i & -> & _)]; [done| |done]. by destruct κ. }
    assert (live true sl e) as Lel. { eapply path_live; [|exact P1|done|done|done]. intros κ [-> | ->]; done. }
    assert (live false s2 l) as L2 by (by eapply path_live).
    assert (live true s2 e) as E2 by (by eapply path_live).
    assert (avail s2) as A2. { eapply path_avail; [|exact P2|done|done]. intros κ Hκ. by apply mild_soft, Hup2. }
    assert (J k s2) as J2 by (by eapply path_J).
    destruct Hlast as [[Hp P3]|(Hp & J4 & P3)].
    - eapply path_avail; [|exact P3|done|done]. intros κ [-> | ->]; done.
    - eapply path_avail; [|exact P3|done|]. { by intros κ ->. }
      by eapply swap_avail.
  Qed.
  Lemma worker_avail now items : forall g s, inv k g s -> m_up (me s) = true -> g_xs g = [] -> g_act g = [] -> J k s -> avail s ->
    (forall it, it ∈ items -> exists W, item_ok k W mild it) ->
    exists s', worker k s now items = Ok s' /\ avail s'.
  Proof using Hq Hta Hages Hrf Hasync.
    induction items as [|[[u out] [keep throw]] items IH]; intros g s Hi Hup Gx Ga HJ HA Hits; [by exists s|].
    destruct (Hits (u, out, (keep, throw)) ltac:(by left)) as (W & Hu & Hok & Ht). simpl in Hu, Hok, Ht. subst throw.
    simpl worker. simpl c_dfront. simpl rbind. destruct (a_dq (cs s)) as [|e dq] eqn:Edq; simpl head; [by exists s|].
    assert (e ∈ a_dq (cs s)) as He by (rewrite Edq; by left).
    destruct (i_dq _ _ _ Hi e He) as [HeL _]. destruct (i_tab _ _ _ Hi e HeL) as [ee Hee].
    unfold s_el, rd_el. rewrite Hee. simpl rbind. case_bool_decide as Hdue; [|by exists s].
    simpl. unfold need. rewrite <-Edq. rewrite decide_True by done. simpl.
    set (s1 := with_cs s _).
    assert (inv k g s1) as I1.
    { apply inv_dq; [done|..].
      - apply rm_nodup. apply Hi.
      - intros y [_ Hy]%elem_of_rm. by apply Hi.
      - intros y ey [_ Hy]%elem_of_rm. by apply (i_dnp _ _ _ Hi). }
    assert (mini k (KPop e) s s1) as M1.
    { apply mini_of; [done|apply rest_cs|]. apply b_same; try done; [by right; right; left; exists e|]. by intros e' [= ->]. }
    destruct (refresh_avail W g s1 e u out keep) as (s2 & E2 & I2 & X2 & J2 & A2 & _); try done.
    { exists ee. split; [done|]. by eapply (i_dnp _ _ _ Hi). } { by eapply mini_J. } { by eapply mini_avail. }
    rewrite E2. simpl rbind. apply (IH g s2); try done; [by rewrite (x_up _ _ _ _ _ X2)|]. intros it Hit. apply Hits. by right.
  Qed.
  Lemma avail_look g s : inv k g s -> a_torn (cs s) = None -> g_xs g = [] -> avail s -> exists v, looki k s key false = RV v /\ G v.
  Proof using Hq.
    intros Hi Ht Gx HA. assert (looki k s key false <> R0) as Hn.
    { intros E. destruct (r_av _ HA) as (x & el & v & T & Em & Ek & Hl). pose proof T as (Htab & e0 & He0 & E0)%tv_elim.
      assert (x ∈ hseq s (k_hash k key)) as Hx. { unfold hseq. apply elem_of_list_filter. split; [|done]. rewrite (i_hash _ _ _ Hi x e0); [|unfold LT; by rewrite Gx, (a_tab_None _ Ht)|done]. f_equal. subst el. by apply Hq. }
      pose proof (firstv_none_inv _ _ E x Hx) as H. unfold cand in H. rewrite T, Ek in H. unfold vis in H. by rewrite Em, Hl in H. }
    destruct (firstv_split _ _ _ eq_refl Hn) as (l1 & x & l2 & _ & Ex & _). fold (looki k s key false) in Ex.
    unfold cand in Ex. destruct (tv s x) as [el|] eqn:T; [|done]. destruct (k_eq k (el_key el) key) eqn:Ek; [|done]. unfold vis in Ex.
    destruct (el_map el) as [|w| | | |] eqn:Em; try done. destruct (late (me s) el); [done|]. exists w. split; [done|]. by eapply (r_val _ HA).
  Qed.
End avail.

Lemma answering_mild k n key (G : Z -> Prop) o κ : k_resolver k = RAsync -> okind k o κ -> answering k n key o = true -> (forall v, completes_with v o = true -> G v) -> mild k n key G κ.
Proof.
  intros Hasync. assert (forall us, forallb (forallb timeless) us = true -> drift_runs us = Still) as Hus.
  { assert (forall u, forallb timeless u = true -> drift_ops u = Still) as Hu.
    { induction u as [|y u IH]; [done|]. simpl. intros [H1 H2]%andb_true_iff. apply drift_max_still; [by destruct y|by apply IH]. }
    induction us as [|u us IH]; [done|]. simpl. intros [H1 H2]%andb_true_iff. apply drift_max_still; [by apply Hu|by apply IH]. }
  induction o as [o IH] using op_ind'.
  assert (forall l, Forall (fun o => okind k o κ -> answering k n key o = true -> (forall v, completes_with v o = true -> G v) -> mild k n key G κ) l ->
      anyof (fun o => okind k o κ) l -> forallb (answering k n key) l = true -> (forall v, existsb (completes_with v) l = true -> G v) -> mild k n key G κ) as Hsub.
  { intros l IHl (x & Hx & Ho)%anyof_exists Hs HG. apply (Forall_in _ _ _ IHl Hx); [done|exact (forallb_in _ _ _ Hs Hx)|].
    intros v Hv. apply HG, existsb_exists. exists x. split; [by apply elem_of_list_In|done]. }
  destruct o; simpl; try done; try (by intros ->); try (by intros [-> | ->]); try (by intros [-> |[-> | ->]]).
  - intros [->|[->|[Hs _]]]; [done|done|congruence].
  - destruct IH as [IH1 IH2]. intros [_ Ho] [H1 H2]%andb_true_iff HG. destruct Ho as [->|[->|[->|[(? & -> & _)|[Ho|Ho]]]]]; try done.
    + apply (Hsub script); try done. intros v Hv. apply HG. by rewrite Hv.
    + apply (Hsub imm); try done. intros v Hv. apply HG. by rewrite Hv, orb_true_r.
  - intros Ho [H1%negb_true_iff H2]%andb_true_iff _. destruct Ho as [->|[Ho|[->| ->]]]; try done. destruct κ; try done. simpl. by destruct (k_max_size k).
  - intros [->| ->] H1 _; [done|]. by apply negb_true_iff.
  - intros Ho [H1%negb_true_iff H2]%andb_true_iff _. destruct Ho as [->|[Ho|[->| ->]]]; try done. destruct κ; try done. simpl. by destruct (k_max_size k).
  - intros [->| ->] H1 _; [done|]. by apply negb_true_iff.
  - intros -> [H1%N.leb_le H2]%andb_true_iff HG. rewrite (Hus _ H2). simpl. split; [done|]. apply HG. by apply Z.eqb_eq.
Qed.
Lemma async_round k : fine_cfg k -> eq_ok k -> tame k -> forall d idle, k_refresh k = Some (d, idle) -> k_resolver k = RAsync -> ages_ok k ->
  forall l items sc sc' key old, fine (l ++ [OTick items]) -> (forall it o, it ∈ items -> o ∈ it.1.1 -> answering k (m_ncb (me sc)) key o = true) ->
  after k l sc -> after k (l ++ [OTick items]) sc' -> peek k sc key = Some old ->
  exists v, peek k sc' key = Some v /\ (v = old \/ exists it, it ∈ items /\ existsb (completes_with v) it.1.1 = true).
Proof.
  intros Hk Hq Hta d idle Hrf Hasync Hages l items sc sc' key old (Hf & Hf1)%fine_app Hit Ha Ha' Hp. destruct (after_abs k Hk l sc Hf Ha) as (s & R & S & T & _).
  destruct (peek_val k Hta s sc key old S T Hp) as [Hup Hlk]. destruct (top_facts k s T Hup) as (Hi & Ht & HJ).
  assert (ready k s) as Rd. { apply (ready_run k Hk Hta Hq l st_init); [apply ready_init|done|done]. }
  destruct (ready_facts k s Rd Hup) as (_ & _ & _ & Hua). specialize (Hua Hasync).
  destruct (look_firm k s key old false Hta Hq HJ Hlk ltac:(done)) as (x & el & (Tx & Em & Ek & _) & Hnl).
  assert (fine_op false (OTick items) = true) as Hfo. { unfold fine in Hf1. simpl forallb in Hf1. by rewrite andb_true_r in Hf1. }
  set (G := fun v => v = old \/ exists it, it ∈ items /\ existsb (completes_with v) it.1.1 = true).
  set (its := map (fun i => (run_nested k i.1.1 : sta -> res sta, i.1.2, i.2)) items).
  rewrite <-(srel_me _ _ S) in Hit.
  destruct (worker_avail k Hq Hta Hages (m_ncb (me s)) key G d idle Hrf Hasync (m_steady (me s)) its g0 s) as (s' & E' & A'); try done.
  { split.
    - exists x, el, old. done.
    - intros i c el0 p Hle Hc. pose proof (i_ncb _ _ _ Hi i ltac:(by eexists)). lia.
    - intros y ey v Ty Eky Emy. left. destruct (decide (y = x)) as [->|Hne]; [congruence|]. exfalso. destruct Hq as (_ & Q2 & Q3 & _).
      destruct (Hua y x ey el Ty Tx Hne) as [(en & p & Tn & Ep & _)|[(en & p & Tn & Ep & _)|[[]|[]]]]; [|by rewrite Emy|by rewrite Em|congruence|congruence]. eapply Q3; [exact Eky|]. by apply Q2. }
  { intros it (i & -> & Hin)%elem_of_list_fmap. simpl in Hfo. pose proof (forallb_in _ _ _ Hfo Hin) as H. simpl in H. rewrite !andb_true_iff in H. destruct H as [[H1 H2] H3].
    exists (concat (map op_waiters i.1.1)). split_and!; simpl.
    - eapply safe_weaken; [|apply safe_run; [apply Forall_forall; intros o _; by apply good_step|done]].
      intros κ (o & Ho & Hκ)%anyof_exists. specialize (Hit i o Hin Ho). eapply answering_mild; try done; [].
      intros v Hv. right. exists i. split; [done|]. apply existsb_exists. exists o. split; [by apply elem_of_list_In|done].
    - by apply rok_of.
    - by destruct i.2.2. }
  assert (step k false (OTick items) s = Ok (s', RetNone)) as E1.
  { rewrite step_eq. unfold step_with. rewrite Hup. simpl negb. simpl andb. cbv iota. rewrite Hrf. fold its. by rewrite E'. }
  destruct (top_step k Hk _ s T Hfo) as (s1 & r1 & E2 & T1 & _ & _ & Hs & _). rewrite E1 in E2. injection E2 as <- <-. destruct (Hs Hup ltac:(done)) as (Hup1 & _).
  destruct (step_c k _ _ _ _ _ sc S E1) as (sc1 & Ec1 & S1).
  assert (sc1 = sc') as ->. { assert (after k (l ++ [OTick items]) sc1) as H by (by eapply run_one). unfold after in *. congruence. }
  destruct (top_facts k s' T1 Hup1) as (Hi1 & Ht1 & _).
  destruct (avail_look k Hq (m_ncb (me s)) key G g0 s' Hi1 Ht1 eq_refl A') as (v & Ev & Gv). exists v. split; [|done].
  rewrite (peek_look k Hta s' sc' key S1 T1), (look_up s' sc' S1), Hup1. by rewrite Ev.
Qed.
