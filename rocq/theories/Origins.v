(** Where values come from and when they were assigned (lemmas for PropertiesAge.v). *)
From stdpp Require Import sorting.
From Verif Require Import Base AQueue ATable BasicHashtable QueueProofs BasicHashtableProofs ContainersProofs Mapped Cache CachePtr CacheAbs CompSim CacheSim AbsInv AbsPrim AbsPrim2 AbsSweep AbsOps AbsComp Histories Trace AbsTrace TraceInv Delay AbsTraceCb AbsResolve AbsStep AbsLook Effects Observe Transfer Lookups Waiters Answers Calls.

Section origins.
  Context (k : cfg) (Hk : fine_cfg k).
  Notation srel := (srel comp_abs comp_ptr crel).
  Notation top := (top k).

  (** the value an entry has, strongly or weakly *)
  Definition valz (m : mapped) : option Z := match m with MVal v | MWeak (Some v) => Some v | _ => None end.
  Lemma valz_dead : valz (m_dead (k_pointer k)) = None.
  Proof using. unfold m_dead. by destruct (k_pointer k). Qed.
  Lemma valz_marked m : valz (m_mark_expired (k_pointer k) m) = None.
  Proof using. unfold m_mark_expired. destruct m; try apply valz_dead. done. Qed.
  Lemma chg_valz s e el κ el' v : chg k s e el κ (Some el') -> valz (el_map el') = Some v -> valz (el_map el) = Some v.
  Proof using.
    intros Hc. inversion Hc; subst; simpl; rewrite ?valz_marked; try done.
    - unfold m_weaken, m_dead. destruct (el_map el) as [p|u|o|x| |]; try done; by destruct (k_pointer k).
    - destruct (el_map el) as [p|u|[u|]|x| |]; simpl; try done; [by destruct (p_strengthen p)|]. by destruct (alive (me s) u).
  Qed.

  (** the deadlines of a value assigned at the time of [m] *)
  Definition stamped (m : mem) (el : elem) : Prop :=
    forall d, k_max_age k = Some d -> el_xw el = Some (m_wall m + d)%Z /\ el_xs el = if k_steady k then None else Some (m_steady m + d)%Z.
  Lemma assigned_stamped m el : el_xw el = None -> el_xs el = None -> stamped m (assigned k m true el).
  Proof using.
    intros E1 E2 d Hd. unfold assigned. rewrite Hd.
    assert (forall el1 el2, el_xw el1 = el_xw el2 /\ el_xs el1 = el_xs el2 -> el_xw el2 = Some (m_wall m + d)%Z /\ el_xs el2 = (if k_steady k then None else Some (m_steady m + d)%Z) ->
      el_xw el1 = Some (m_wall m + d)%Z /\ el_xs el1 = if k_steady k then None else Some (m_steady m + d)%Z) as Ht by (intros ? ? [-> ->]; done).
    apply (Ht _ (aged k m d el)).
    - by destruct (k_err_age k), (k_refresh k) as [[? ?]|]; try case_bool_decide.
    - unfold aged. simpl. rewrite E1, E2. simpl. by destruct (k_steady k).
  Qed.
  Definition supk (κ : kind) (key v : Z) (kf : N -> Z -> Prop) : Prop :=
    (exists cl, κ = KEnter key cl (Some v)) \/ (exists i δ, κ = KDone i (Some v) δ /\ kf i key).

  (** the callbacks below [n] keep their entries *)
  Definition keyed (n : N) (s1 s : sta) : Prop :=
    (n <= m_ncb (me s))%N /\ forall i c, (i < n)%N -> m_cbs (me s) !! i = Some c -> cb_called c = false ->
      exists key q q', opened s1 i key q' /\ opened s i key q.
  Lemma mini_keyed n s1 κ s s' : mini k κ s s' -> keyed n s1 s -> keyed n s1 s'.
  Proof using.
    intros HM [Hn HK]. destruct (n_cbs _ _ _ _ HM) as (Hle & N1 & N2). split; [lia|]. intros i c' Hi Hc' Hcc'.
    destruct (N1 i c' Hc') as [(? & _)|(c & Hc & Ee & Hcc)]; [lia|].
    assert (cb_called c = false) as Hcf by (destruct Hcc as [<-|[? _]]; congruence).
    destruct (HK i c Hi Hc Hcf) as (key & q & q' & O1 & O).
    assert (forall p el, tv s' (cb_el c) = Some el -> el_map el = MPend p -> el_key el = key -> exists key q q', opened s1 i key q' /\ opened s' i key q) as Hd.
    { intros p el T Em Ek. exists key, (waits_of (p_cbq p)), q'. split; [done|]. exists c', el, p. rewrite Ee. done. }
    assert (~ completes κ i \/ κ = KCancel i \/ exists o δ, κ = KDone i o δ) as [Hn'|[->|(o & δ & ->)]].
    { destruct κ as [| | | | | | | | |j o δ|j| |]; try (left; by intros []); (destruct (decide (j = i)) as [->|Hji]; [|left; exact Hji]); [right; right; by eexists _, _|right; by left]. }
    - destruct (mini_opened k κ s s' i key q HM O Hn') as (q2 & O2 & _). exists key, (q ++ q2), q'. done.
    - pose proof (n_body _ _ _ _ HM) as HB. remember (KCancel i) as κ eqn:Eκ.
      destruct HB as [κ [->|[[? ->]|[[? ->]|[? ->]]]]|κ e el0 o T0 Hch|e key' cl mp|j d e el0 q0 o z cn δ|j d e el0 q0 Hd1 Hd2 Hd3 T0 Em0 T0']; try done; [subst κ; by inversion Hch|].
      injection Eκ as ->. rewrite Hc in Hd1. injection Hd1 as <-. subst e. eapply Hd; [exact T0'|done|]. simpl.
      destruct O as (c1 & el1 & p1 & Hc1 & _ & T1 & _ & _ & <-). rewrite Hc in Hc1. injection Hc1 as <-. congruence.
    - pose proof (n_body _ _ _ _ HM) as HB. remember (KDone i o δ) as κ eqn:Eκ.
      destruct HB as [κ [->|[[? ->]|[[? ->]|[? ->]]]]|κ e el0 o0 T0 Hch|e key' cl mp|j d e el0 q0 o0 z cn δ0 Hd1 Hd2 Hd3 T0 Em0 _ T0' Hv _ _ _ _ Hinj HC|j d e el0 q0]; try done; [subst κ; by inversion Hch|].
      injection Eκ as -> -> ->. rewrite (HC c' Hc') in Hcc'. done.
  Qed.
  Lemma keyed_refl g s : inv k g s -> g_xs g = [] -> g_act g = [] -> m_up (me s) = true -> keyed (m_ncb (me s)) s s.
  Proof using.
    intros Hi Hx Ha Hup. split; [lia|]. intros i c _ Hc Hcc.
    destruct (i_cb _ _ _ Hi i c Hc Hcc) as (Hpr & el & Hel & Hpe); [rewrite Ha; apply not_elem_of_nil|].
    destruct (i_pin _ _ _ Hi (cb_el c) el Hel Hpe Hup) as [HL|?]; [|done].
    unfold LT in HL. simpl in HL. rewrite Hx, (a_tab_None _ (i_up _ _ _ Hi Hup)) in HL.
    unfold is_pend, el_pending in Hpe. destruct (el_map el) as [p| | | | |] eqn:Em; try done.
    assert (opened s i (el_key el) (waits_of (p_cbq p))).
    { exists c, (with_rc el 0), p. split_and!; try done. by apply tv_some. }
    eauto.
  Qed.

  (** where the value of an entry comes from *)
  Definition cn_le (el el' : elem) : Prop := forall c, el_cn el = Some c -> exists c', el_cn el' = Some c' /\ (c' <= c)%Z.
  Lemma cn_le_refl el : cn_le el el.
  Proof using. intros c E. exists c. split; [done|lia]. Qed.
  Lemma cn_le_trans el1 el2 el3 : cn_le el1 el2 -> cn_le el2 el3 -> cn_le el1 el3.
  Proof using. intros H1 H2 c E. destruct (H1 c E) as (c' & E' & ?). destruct (H2 c' E') as (c2 & E2 & ?). exists c2. split; [done|lia]. Qed.
  Lemma chg_cn s e el κ el' : chg k s e el κ (Some el') -> cn_le el el' \/ exists key, κ = KHit key /\ k_eq k (el_key el) key = true.
  Proof using.
    intros H. assert (el_cn el' = el_cn el -> cn_le el el') as Hs. { intros E c Ec. rewrite E, Ec. exists c. split; [done|lia]. }
    inversion H; subst; try (left; by apply Hs); [right; eauto|].
    left. intros c0 E. simpl. rewrite E. destruct c as [c|]; simpl; eexists; (split; [done|lia]).
  Qed.
  Definition inherited (A : kind -> Prop) (s1 : sta) (x : N) (el : elem) (v : Z) : Prop :=
    exists el1, tv s1 x = Some el1 /\ valz (el_map el1) = Some v /\ el_key el1 = el_key el /\ el_xw el1 = el_xw el /\ el_xs el1 = el_xs el /\
      (cn_le el1 el \/ exists key, A (KHit key) /\ k_eq k (el_key el) key = true).
  Definition made (A : kind -> Prop) (n : N) (s1 s' : sta) (el : elem) (v : Z) : Prop :=
    exists κ sx, A κ /\ supk κ (el_key el) v (fun i key => (n <= i)%N \/ exists q, opened s1 i key q) /\ path k A s1 sx /\ path k A sx s' /\ stamped (me sx) el.
  Lemma origin (A : kind -> Prop) n s1 s' : path k A s1 s' -> J k s1 -> keyed n s1 s1 ->
    forall x el v, tv s' x = Some el -> valz (el_map el) = Some v -> inherited A s1 x el v \/ made A n s1 s' el v.
  Proof using.
    intros P0 HJ HK. revert s' P0. refine (rtc_ind_r (fun s' => forall x el v, tv s' x = Some el -> valz (el_map el) = Some v -> inherited A s1 x el v \/ made A n s1 s' el v) s1 _ _).
    { intros x el' v T' Hv. left. exists el'. split_and!; try done. left. apply cn_le_refl. }
    intros s s' P (κ & HA & HM) IH x el' v T' Hv.
    assert (forall el, tv s x = Some el -> valz (el_map el) = Some v -> el_key el = el_key el' -> el_xw el = el_xw el' -> el_xs el = el_xs el' ->
      cn_le el el' \/ (exists key, κ = KHit key /\ k_eq k (el_key el) key = true) -> inherited A s1 x el' v \/ made A n s1 s' el' v) as Hold.
    { intros el T Hv0 E1 E2 E3 E4. destruct (IH x el v T Hv0) as [(el1 & T1 & V1 & K1 & W1 & S1 & C1)|(κ0 & sx & A0 & Hs & P1 & P2 & Hst)].
      - left. exists el1. split_and!; try congruence. rewrite <-E1. destruct E4 as [E4|(key & -> & Ek)]; [|right; eauto].
        destruct C1 as [C1|C1]; [left; by eapply cn_le_trans|by right].
      - right. exists κ0, sx. rewrite <-E1. split_and!; try done.
        + eapply path_trans; [exact P2|exact (path_one k A κ s s' HA HM)].
        + intros d Hd. rewrite <-E2, <-E3. by apply Hst. }
    assert (J k s) as HJs by (by eapply path_J). assert (keyed n s1 s) as HKs.
    { apply (path_inv k A (keyed n s1) s1 s); [|done|done]. intros. by eapply mini_keyed. }
    assert (path k A s1 s') as P' by (eapply path_trans; [exact P|exact (path_one k A κ s s' HA HM)]).
    destruct (mini_tv k _ _ _ _ _ HM T') as [(el & T & [->|[(Hc & _)|[(i & o & δ & -> & c & Hc & -> & _)|[(i & o & c & p & y & cn & δ & -> & Hc & Hcc & Hx & Em & _ & ->)|(i & c & p & -> & Hc & Hcc & Hx & Em & ->)]]]])|(key & cl & mp & -> & T & -> & _ & Hm & _)].
    - apply (Hold el); try done. left. apply cn_le_refl.
    - destruct (chg_facts k _ _ _ _ _ Hc) as (E1 & _ & E2 & E3 & _). apply (Hold el); try done; [by eapply chg_valz|by eapply chg_cn].
    - simpl in Hv. by rewrite valz_marked in Hv.
    - destruct (assigned_facts k (me s') (bool_decide (is_Some o)) (with_map (with_cn el cn) (match o with Some v0 => settled k p v0 | None => m_settle_error (k_pointer k) y p end))) as (Ek & Em' & _).
      rewrite Em' in Hv. simpl in Hv, Ek. destruct o as [v0|].
      + right. exists (KDone i (Some v0) δ), s'. rewrite Ek. split_and!; [done| |done|by apply path_refl|].
        * right. exists i, δ. split.
          -- do 2 f_equal. unfold settled, m_dead in Hv. by destruct (p_exp p), (p_weak p), (k_pointer k); simpl in Hv; congruence.
          -- destruct (decide (n <= i)%N) as [?|Hn]; [by left|right].
             destruct HKs as [_ HKs]. destruct (HKs i c ltac:(lia) Hc Hcc) as (key & q & q' & O1 & (c2 & el2 & p2 & Hc2 & _ & T2 & _ & _ & <-)).
             exists q'. assert (el2 = el) as -> by congruence. done.
        * destruct (j_pc _ _ HJs x el T) as (X1 & X2 & _); [unfold el_pending; by rewrite Em|].
          apply assigned_stamped; done.
      + unfold m_settle_error in Hv. destruct (p_exp p || p_weak p); [by rewrite valz_dead in Hv|done].
    - done.
    - destruct (born_facts k (me s) key mp) as (Ek & Em & _). rewrite Em in Hv.
      destruct mp as [p|v0|o|y| |]; try done; [|by destruct Hm].
      simpl in Hv. injection Hv as ->. right. exists (KEnter key cl (Some v)), s'. rewrite Ek. split_and!; [done|left; by exists cl|done|by apply path_refl|].
      intros d Hd. destruct (n_clk _ _ _ _ HM) as (Hcw & Hcs & Hst). simpl in Hst.
      destruct (Hst eq_refl) as (-> & -> & _).
      unfold born. simpl. by apply assigned_stamped.
  Qed.

  (** what operations supply *)
  Section sup.
    Context (s1 : sta) (ko : N -> option Z) (n : N).
    Context (Hko : forall i key q, opened s1 i key q -> ko i = Some key) (Hkn : forall i, (n <= i)%N -> ko i = None).
    Let kf (i : N) (key : Z) : Prop := (n <= i)%N \/ exists q, opened s1 i key q.
    Lemma okind_supplies o κ key0 key v : fine_op true o = true -> okind k o κ -> supk κ key0 v kf -> k_eq k key0 key = true -> supplies k ko n true key v o = true.
    Proof using Hko Hkn.
      intros Hf Ho Hs Hk0. revert Hf Ho.
      assert (forall l, Forall (fun o => fine_op true o = true -> okind k o κ -> supplies k ko n true key v o = true) l -> forallb (fine_op true) l = true ->
        anyof (fun o => okind k o κ) l -> existsb (supplies k ko n true key v) l = true) as Hsub.
      { intros l IH Hf (x & Hx & Ho)%anyof_exists. apply existsb_exists. exists x. split; [by apply elem_of_list_In|].
        apply (Forall_in _ _ _ IH Hx); [exact (forallb_in _ _ _ Hf Hx)|done]. }
      induction o as [o IH] using op_ind'. destruct Hs as [(cl & ->)|(i & δ & -> & Hi)].
      - destruct o; simpl; try done; try (by intros; subst; intuition (subst; done)).
        + intros [Hf _]%andb_true_iff [?|[?|[_ [(o & [= <- _ <-] & [?|(v' & -> & [= ->])])|Ho]]]]; try done; apply orb_true_iff; [left; by rewrite Hk0, bool_decide_true|].
          right. by apply Hsub.
        + destruct IH as [IH1 IH2]. intros [Hf1 Hf2]%andb_true_iff [_ [?|[?|[?|[(? & ? & _)|[Ho|Ho]]]]]]; try done; apply orb_true_iff; [left|right]; by apply Hsub.
        + intros _ [?|[?|[?|[= <- _ <-]]]]; try done. by rewrite Hk0, bool_decide_true.
        + intros _ [?|[?|[?|[= <- _ <-]]]]; try done. by rewrite Hk0, bool_decide_true.
      - destruct o; simpl; try done; try (by intros; subst; intuition (subst; done)).
        + intros [Hf _]%andb_true_iff [?|[?|[_ [(o & ? & _)|Ho]]]]; try done; apply orb_true_iff. right. by apply Hsub.
        + destruct IH as [IH1 IH2]. intros [Hf1 Hf2]%andb_true_iff [_ [?|[?|[?|[(? & ? & _)|[Ho|Ho]]]]]]; try done; apply orb_true_iff; [left|right]; by apply Hsub.
        + intros _ [= <- <- _]. rewrite bool_decide_true by done. simpl. destruct Hi as [Hi|(q & Hi)].
          * rewrite (Hkn _ Hi). by rewrite bool_decide_true.
          * by rewrite (Hko _ _ _ Hi).
    Qed.
    Lemma top_supplies o κ key0 key v : fine_op false o = true -> okind k o κ -> supk κ key0 v kf -> k_eq k key0 key = true ->
      (forall i v us, o = OAssign i v us -> (i < n)%N) -> supplies k ko n false key v o = true.
    Proof using Hko Hkn.
      intros Hf Ho Hs Hk0 Hn. destruct (match o with OTick _ | OAssign _ _ _ => true | _ => false end) eqn:Et.
      - destruct o; try done.
        + simpl in *. subst κ. destruct Hs as [(cl & ?)|(j & δ & [= -> -> <-] & [?|(q & Hi)])]; [done|pose proof (Hn _ _ _ eq_refl); lia|].
          rewrite bool_decide_true by done. simpl. by rewrite (Hko _ _ _ Hi).
        + simpl in *. destruct Ho as [_ [->|[(? & [->|[-> _]])|[(key' & o & -> & Ho)|[(x & Hx & (y & Hy & Ho)%anyof_exists)%anyof_exists|(? & ->)]]]]]; try (by destruct Hs as [(? & ?)|(? & ? & ? & _)]).
          * destruct Hs as [(? & [= -> _ ->])|(? & ? & ? & _)]; [|done]. destruct Ho as [?|(i & w & Hi & Ei & [= <-])]; [done|].
            apply existsb_exists. exists i. split; [by apply elem_of_list_In|]. rewrite Ei. by rewrite bool_decide_true.
          * apply existsb_exists. exists x. split; [by apply elem_of_list_In|]. apply orb_true_iff. right. apply existsb_exists. exists y. split; [by apply elem_of_list_In|].
            pose proof (forallb_in _ _ _ Hf Hx) as Hx'. simpl in Hx'. rewrite !andb_true_iff in Hx'. destruct Hx' as ((Hx' & _) & _).
            apply (okind_supplies y κ key0); [exact (forallb_in _ _ _ Hx' Hy)|done..].
      - destruct (match o with ODestroy => true | _ => false end) eqn:Ed; [by destruct o|].
        assert (supplies k ko n false key v o = supplies k ko n true key v o) as -> by (by destruct o).
        apply (okind_supplies o κ key0); try done. by destruct o.
    Qed.
  End sup.
  (** operations that do not set the clock back *)
  Lemma drift_max_any a b : drift_max a b = Anyhow -> a = Anyhow \/ b = Anyhow.
  Proof using. destruct a, b; auto. Qed.
  Lemma okind_back o κ : fine_op true o = true -> okind k o κ -> sets_back o = false -> drift_of κ <> Anyhow.
  Proof using.
    assert (forall us, existsb (existsb sets_back) us = false -> drift_runs us <> Anyhow) as Hus.
    { assert (forall u, existsb sets_back u = false -> drift_ops u <> Anyhow) as Hu.
      { induction u as [|y u IH]; [done|]. simpl. intros [H1 H2]%orb_false_iff [Hd|Hd]%drift_max_any; [|by apply IH].
        destruct y; simpl in *; try done. case_bool_decide; [done|]. apply bool_decide_eq_false in H1. lia. }
      induction us as [|u us IH]; [done|]. simpl. intros [H1 H2]%orb_false_iff [Hd|Hd]%drift_max_any; [by eapply Hu|by apply IH]. }
    induction o as [o IH] using op_ind'.
    assert (forall l, Forall (fun o => fine_op true o = true -> okind k o κ -> sets_back o = false -> drift_of κ <> Anyhow) l -> forallb (fine_op true) l = true ->
        anyof (fun o => okind k o κ) l -> existsb sets_back l = false -> drift_of κ <> Anyhow) as Hsub.
    { intros l IHl Hf (x & Hx & Ho)%anyof_exists Hs. apply (Forall_in _ _ _ IHl Hx); [exact (forallb_in _ _ _ Hf Hx)|done|exact (existsb_false _ _ _ Hs Hx)]. }
    destruct o; simpl; try done; try (by intros; subst; intuition (subst; done)); try (by intros _ H _; destruct κ; try done; repeat destruct H as [H|H]).
    - intros [Hf _]%andb_true_iff [->|[->|[_ [(o & -> & _)|Ho]]]]; try done. by apply Hsub.
    - destruct IH as [IH1 IH2]. intros [Hf1 Hf2]%andb_true_iff [_ [->|[->|[->|[(? & -> & _)|[Ho|Ho]]]]]] [Hs1 Hs2]%orb_false_iff; try done; [by apply (Hsub script)|by apply (Hsub imm)].
    - intros _ -> Hs. by apply Hus.
    - intros _ -> Hs. by apply Hus.
    - intros _ -> Hs. simpl. apply bool_decide_eq_false in Hs. rewrite bool_decide_true by lia. done.
  Qed.
  (** operations that look up a key *)
  Lemma okind_asks o key key' : fine_op true o = true -> okind k o (KHit key') -> k_eq k key' key = true -> asks k key o = true.
  Proof using.
    intros Hf Ho Hke. revert Hf Ho.
    assert (forall l, Forall (fun o => fine_op true o = true -> okind k o (KHit key') -> asks k key o = true) l -> forallb (fine_op true) l = true ->
      anyof (fun o => okind k o (KHit key')) l -> existsb (asks k key) l = true) as Hsub.
    { intros l IH Hf (x & Hx & Ho)%anyof_exists. apply existsb_exists. exists x. split; [by apply elem_of_list_In|].
      apply (Forall_in _ _ _ IH Hx); [exact (forallb_in _ _ _ Hf Hx)|done]. }
    induction o as [o IH] using op_ind'. destruct o; simpl; try done; try (by intros; subst; intuition (subst; done)).
    - intros [Hf _]%andb_true_iff [?|[[= ->]|[_ [(o & ? & _)|Ho]]]]; try done; [by rewrite Hke|]. apply orb_true_iff. right. by apply Hsub.
    - destruct IH as [IH1 IH2]. intros [Hf1 Hf2]%andb_true_iff [_ [?|[[= ->]|[?|[(? & ? & _)|[Ho|Ho]]]]]]; try done; [by rewrite Hke|..]; rewrite !orb_true_iff; [left; right|right]; by apply Hsub.
    - intros _ [?|[?|[[= ->]|?]]]; try done.
  Qed.
  Lemma top_asks o n key key' : fine_op false o = true -> upto (okind k o) n (KHit key') -> k_eq k key' key = true -> asks k key o = true.
  Proof using.
    intros Hf [Ho|(i & ? & _)] Hke; [|done]. destruct (match o with OTick _ => true | _ => false end) eqn:Et.
    - destruct o; try done. simpl in *. destruct Ho as [_ [?|[(? & [?|[? _]])|[(? & ? & ? & _)|[(x & Hx & (y & Hy & Ho)%anyof_exists)%anyof_exists|(? & ?)]]]]]; try done.
      pose proof (forallb_in _ _ _ Hf Hx) as Hx'. simpl in Hx'. rewrite !andb_true_iff in Hx'. destruct Hx' as ((Hx' & _) & _).
      apply existsb_exists. exists x. split; [by apply elem_of_list_In|]. apply existsb_exists. exists y. split; [by apply elem_of_list_In|].
      eapply okind_asks; [exact (forallb_in _ _ _ Hx' Hy)|exact Ho|done].
    - destruct (match o with ODestroy => true | _ => false end) eqn:Ed; [by destruct o|]. eapply okind_asks; [by destruct o|exact Ho|done].
  Qed.
  Lemma top_back o n κ : fine_op false o = true -> upto (okind k o) n κ -> sets_back o = false -> drift_of κ <> Anyhow.
  Proof using.
    intros Hf [Ho|(i & -> & _)]; [|done]. destruct (match o with OTick _ => true | _ => false end) eqn:Et.
    - destruct o; try done. simpl in *. destruct Ho as [_ [->|[(? & [->|[-> _]])|[(? & ? & -> & _)|[(x & Hx & (y & Hy & Ho)%anyof_exists)%anyof_exists|(? & ->)]]]]]; try done.
      intros Hs. pose proof (forallb_in _ _ _ Hf Hx) as Hx'. simpl in Hx'. rewrite !andb_true_iff in Hx'. destruct Hx' as ((Hx' & _) & _).
      apply (okind_back y); [exact (forallb_in _ _ _ Hx' Hy)|done|]. pose proof (existsb_false _ _ _ Hs Hx) as Hs'. simpl in Hs'. exact (existsb_false _ _ _ Hs' Hy).
    - destruct (match o with ODestroy => true | _ => false end) eqn:Ed; [by destruct o|]. apply okind_back; [by destruct o|done].
  Qed.

  (** ** Histories *)
  Definition kof (s : sta) (i : N) : option Z :=
    match m_cbs (me s) !! i with Some c => el_key <$> m_els (me s) !! cb_el c | None => None end.
  Lemma opened_kof s i key q : opened s i key q -> kof s i = Some key.
  Proof using.
    intros (c & el & p & Hc & _ & T & _ & _ & <-). unfold kof. rewrite Hc. apply tv_elim in T as (_ & el0 & -> & ->). done.
  Qed.
  Lemma run_snoc l o (s s' : sta) : run k (l ++ [o]) s = Ok s' -> exists s1 r, run k l s = Ok s1 /\ step k false o s1 = Ok (s', r).
  Proof using.
    rewrite run_app. destruct (run k l s) as [s1| | |]; unfold rbind at 1; try done. rewrite run_cons.
    destruct (step k false o s1) as [[s2 r]| | |] eqn:E; unfold rbind; try done. intros [= ->]. eauto.
  Qed.
  Lemma snoc_run l o (s s1 s' : sta) r : run k l s = Ok s1 -> step k false o s1 = Ok (s', r) -> run k (l ++ [o]) s = Ok s'.
  Proof using. intros E1 E2. rewrite run_app, E1. unfold rbind at 1. rewrite run_cons, E2. done. Qed.
  Lemma up_step o (s s' : sta) r : top s -> fine_op false o = true -> step k false o s = Ok (s', r) -> m_up (me s') = true -> m_up (me s) = true /\ o <> ODestroy.
  Proof using Hk.
    intros T Hf E Hup'. destruct (top_step k Hk o s T Hf) as (s2 & r2 & E2 & _ & _ & _ & _ & Hd). rewrite E in E2. injection E2 as <- <-.
    destruct (m_up (me s)) eqn:Hup; [|by rewrite Hd in Hup']. split; [done|]. intros ->.
    destruct T as [Hi _ _]. destruct (destroy_ends k g0 s Hi eq_refl) as (s2 & E2 & _ & _ & _ & U2 & _).
    rewrite step_eq in E. unfold step_with in E. rewrite Hup in E. change (negb true) with false in E. cbv beta iota in E. rewrite E2 in E. unfold rbind in E. injection E as <- <-. congruence.
  Qed.
  (** no value lives longer than the idle time after now *)
  Definition idling (idle : Z) (s : sta) : Prop :=
    forall x el v, tv s x = Some el -> valz (el_map el) = Some v -> exists c, el_cn el = Some c /\ (c <= m_steady (me s) + idle)%Z.
  Lemma assigned_idle m el d idle : k_refresh k = Some (d, idle) -> idle <> 0%Z -> exists c, el_cn (assigned k m true el) = Some c /\ (c <= m_steady m + idle)%Z.
  Proof using.
    intros Hr Hi. unfold assigned. rewrite Hr, bool_decide_false by done. cbv zeta. simpl el_cn. set (c0 := el_cn _). destruct c0 as [c0|]; simpl; eexists; (split; [done|lia]).
  Qed.
  Lemma mini_idling d idle κ s s' : k_refresh k = Some (d, idle) -> idle <> 0%Z -> mini k κ s s' -> idling idle s -> idling idle s'.
  Proof using.
    intros Hr Hid HM IH x el' v T' Hv. destruct (n_clk _ _ _ _ HM) as (Hcs & _).
    assert (forall el, tv s x = Some el -> valz (el_map el) = Some v -> cn_le el el' -> exists c, el_cn el' = Some c /\ (c <= m_steady (me s') + idle)%Z) as Hold.
    { intros el T Hv0 Hle. destruct (IH x el v T Hv0) as (c & Ec & Hc). destruct (Hle c Ec) as (c' & -> & ?). exists c'. split; [done|lia]. }
    destruct (mini_tv k _ _ _ _ _ HM T') as [(el & T & [->|[(Hc & _)|[(i & o & δ & -> & c & Hc & -> & _)|[(i & o & c & p & y & cn & δ & -> & Hc & Hcc & Hx & Em & _ & ->)|(i & c & p & -> & Hc & Hcc & Hx & Em & ->)]]]])|(key & cl & mp & -> & T & -> & _ & Hm & _)].
    - apply (Hold el); try done. apply cn_le_refl.
    - pose proof (chg_valz _ _ _ _ _ _ Hc Hv) as Hv0. destruct (chg_cn _ _ _ _ _ Hc) as [?|(key & -> & _)]; [by apply (Hold el)|].
      inversion Hc; subst. simpl. assert (idle0 = idle) as -> by congruence. eexists. split; [done|lia].
    - simpl in Hv. by rewrite valz_marked in Hv.
    - destruct (assigned_facts k (me s') (bool_decide (is_Some o)) (with_map (with_cn el cn) (match o with Some v0 => settled k p v0 | None => m_settle_error (k_pointer k) y p end))) as (Ek & Em' & _).
      rewrite Em' in Hv. simpl in Hv, Ek. destruct o as [v0|].
      + by eapply assigned_idle.
      + unfold m_settle_error in Hv. destruct (p_exp p || p_weak p); [by rewrite valz_dead in Hv|done].
    - done.
    - destruct (born_facts k (me s) key mp) as (Ek & Em & _). rewrite Em in Hv.
      destruct mp as [p|v0|o|y| |]; try done; [|by destruct Hm].
      unfold born. simpl. destruct (assigned_idle (me s) (newborn key (MVal v0)) d idle Hr Hid) as (c & -> & ?). exists c. split; [done|lia].
  Qed.
  Lemma run_idling d idle l : k_refresh k = Some (d, idle) -> idle <> 0%Z -> forall sa : sta, fine l -> run k l st_init = Ok sa -> m_up (me sa) = true -> idling idle sa.
  Proof using Hk.
    intros Hr Hid. induction l as [|o l IH] using rev_ind; intros sa Hf R Hup.
    { injection R as <-. intros x el v T. apply tv_elim in T as [T _]. by apply elem_of_nil in T. }
    apply run_snoc in R as (s1 & r & R & E). apply fine_app in Hf as [Hf1 Hf2%fine_one].
    destruct (top_run k Hk l st_init (top_init k) Hf1) as (s1' & R' & T1 & _). assert (s1' = s1) as -> by congruence. clear R'.
    destruct (top_step k Hk o s1 T1 Hf2) as (sa' & r' & E' & _ & _ & _ & Hu & Hd). rewrite E in E'. injection E' as <- <-.
    destruct (up_step o s1 sa r T1 Hf2 E Hup) as [Hup1 Hn]. destruct (Hu Hup1 Hn) as (_ & P & _).
    apply (path_inv k _ (idling idle) _ _ (fun κ s s' _ => mini_idling d idle κ s s' Hr Hid) P). by apply IH.
  Qed.
  Lemma run_origin l : forall sa : sta, fine l -> run k l st_init = Ok sa -> m_up (me sa) = true ->
    forall x el v key, tv sa x = Some el -> valz (el_map el) = Some v -> k_eq k (el_key el) key = true ->
    exists l1 o l2 (sa1 sa2 sx : sta), l = l1 ++ o :: l2 /\ run k l1 st_init = Ok sa1 /\ run k (l1 ++ [o]) st_init = Ok sa2 /\
      supplies k (kof sa1) (m_ncb (me sa1)) false key v o = true /\ path k (upto (okind k o) (m_ncb (me sa1))) sa1 sx /\ path k (upto (okind k o) (m_ncb (me sa1))) sx sa2 /\ stamped (me sx) el /\
      (eq_ok k -> exists la ob lb (sb : sta), o :: l2 = la ++ ob :: lb /\ (la = [] \/ asks k key ob = true) /\ run k (l1 ++ la ++ [ob]) st_init = Ok sb /\
        forall d idle, k_refresh k = Some (d, idle) -> idle <> 0%Z -> exists c, el_cn el = Some c /\ (c <= m_steady (me sb) + idle)%Z).
  Proof using Hk.
    induction l as [|o l IH] using rev_ind; intros sa Hf R Hup x el v key T Hv Hke.
    { injection R as <-. apply tv_elim in T as [T _]. by apply elem_of_nil in T. }
    apply run_snoc in R as (s1 & r & R & E). apply fine_app in Hf as [Hf1 Hf2%fine_one].
    destruct (top_run k Hk l st_init (top_init k) Hf1) as (s1' & R' & T1 & _). assert (s1' = s1) as -> by congruence. clear R'.
    destruct (top_step k Hk o s1 T1 Hf2) as (sa' & r' & E' & _ & _ & _ & Hu & Hd). rewrite E in E'. injection E' as <- <-.
    destruct (up_step o s1 sa r T1 Hf2 E Hup) as [Hup1 Hn]. destruct (Hu Hup1 Hn) as (_ & P & _).
    destruct (top_facts k s1 T1 Hup1) as (Hi & Ht & HJ).
    assert (forall d idle, k_refresh k = Some (d, idle) -> idle <> 0%Z -> exists c, el_cn el = Some c /\ (c <= m_steady (me sa) + idle)%Z) as Hidl.
    { intros d idle Hr Hid. refine (run_idling d idle (l ++ [o]) Hr Hid sa _ _ Hup x el v T Hv); [by apply fine_app; split; [done|apply fine_one]|by eapply snoc_run]. }
    assert (inherited (upto (okind k o) (m_ncb (me s1))) s1 x el v -> exists l1 o1 l2 (sa1 sa2 sx : sta), l ++ [o] = l1 ++ o1 :: l2 /\ run k l1 st_init = Ok sa1 /\ run k (l1 ++ [o1]) st_init = Ok sa2 /\
      supplies k (kof sa1) (m_ncb (me sa1)) false key v o1 = true /\ path k (upto (okind k o1) (m_ncb (me sa1))) sa1 sx /\ path k (upto (okind k o1) (m_ncb (me sa1))) sx sa2 /\ stamped (me sx) el /\
      (eq_ok k -> exists la ob lb (sb : sta), o1 :: l2 = la ++ ob :: lb /\ (la = [] \/ asks k key ob = true) /\ run k (l1 ++ la ++ [ob]) st_init = Ok sb /\
        forall d idle, k_refresh k = Some (d, idle) -> idle <> 0%Z -> exists c, el_cn el = Some c /\ (c <= m_steady (me sb) + idle)%Z)) as Hinh.
    { intros (el1 & X1 & V1 & K1 & W1 & S1 & C1). destruct (IH s1 Hf1 R Hup1 x el1 v key X1 V1 ltac:(congruence)) as (l1 & o1 & l2 & sa1 & sa2 & sx & El & R1 & R2 & Hs & P1 & P2 & Hst & Hb).
      exists l1, o1, (l2 ++ [o]), sa1, sa2, sx. split_and!; try done; [by rewrite El, <-app_assoc| |].
      - intros d Hdd. rewrite <-W1, <-S1. by apply Hst.
      - intros Hq. destruct C1 as [C1|(key' & HA & Ek')].
        + destruct (Hb Hq) as (la & ob & lb & sb & Eb & Hob & Rb & Hc). exists la, ob, (lb ++ [o]), sb. split_and!; try done.
          * change ((o1 :: l2) ++ [o] = la ++ ob :: lb ++ [o]). by rewrite Eb, <-app_assoc.
          * intros d idle Hr Hid. destruct (Hc d idle Hr Hid) as (c & Ec & ?). destruct (C1 c Ec) as (c' & -> & ?). exists c'. split; [done|lia].
        + exists (o1 :: l2), o, [], sa. split_and!; try done.
          * right. eapply top_asks; [done|exact HA|]. destruct Hq as (_ & Q2 & Q3 & _). apply (Q3 _ (el_key el)); [by apply Q2|done].
          * change (run k (l1 ++ (o1 :: l2) ++ [o]) st_init = Ok sa). rewrite app_assoc, <-El. by eapply snoc_run. }
    assert ((exists i v us, o = OAssign i v us /\ m_cbs (me s1) !! i = None) \/ forall i v us, o = OAssign i v us -> (i < m_ncb (me s1))%N) as [(i & v' & us & -> & Hni)|Hlt].
    { destruct o as [| | | | | | | | | |i v' us| | | | | | | |]; try (by right). destruct (m_cbs (me s1) !! i) as [c|] eqn:Hc; [right|left; eauto 10].
      intros ? ? ? [= <- <- <-]. apply (i_ncb _ _ _ Hi). eauto. }
    { rewrite step_eq in E. unfold step_with in E. rewrite andb_false_r in E. unfold cb_assign in E. rewrite Hni in E. injection E as <- <-.
      apply Hinh. exists el. split_and!; try done. left. apply cn_le_refl. }
    destruct (origin (upto (okind k o) (m_ncb (me s1))) (m_ncb (me s1)) s1 sa P HJ (keyed_refl g0 s1 Hi eq_refl eq_refl Hup1) x el v T Hv) as [Hin|(κ & sx & HA & Hs & P1 & P2 & Hst)]; [by apply Hinh|].
    exists l, o, [], s1, sa, sx. split_and!; try done; [by eapply snoc_run| |].
    2: { intros _. exists [], o, [], sa. split_and!; try done; [by left|by eapply snoc_run]. }
    destruct HA as [HA|(j & -> & _)]; [|by destruct Hs as [(? & ?)|(? & ? & ? & _)]].
    apply (top_supplies s1 (kof s1) (m_ncb (me s1))) with (κ := κ) (key0 := el_key el); try done.
    - intros. by eapply opened_kof.
    - intros i Hni. unfold kof. destruct (m_cbs (me s1) !! i) eqn:Hc; [|done]. pose proof (i_ncb _ _ _ Hi i ltac:(eauto)). lia.
  Qed.

  (** what a lookup finds *)
  Lemma peek_entry_g g (sa : sta) (sc : cache) key v : srel sa sc -> inv k g sa -> peek k sc key = Some v ->
    m_up (me sa) = true /\ exists x el, tv sa x = Some el /\ k_eq k (el_key el) key = true /\ valz (el_map el) = Some v /\ el_expired k (me sa) el = false.
  Proof using.
    intros S Hi Hp. unfold peek, answer in Hp. destruct (m_up (me sa)) eqn:Hup.
    2: { rewrite step_eq in Hp. unfold step_with in Hp. rewrite <-(srel_me _ _ S), Hup in Hp. done. }
    split; [done|]. pose proof (i_up _ _ _ Hi Hup) as Ht.
    assert (exists sa', step k false (OGetIf key) sa = Ok (sa', match p_lookup k sa key with RV v => RetVal v | _ => RetNone end)) as (sa' & E).
    { rewrite step_eq. unfold step_with. rewrite Hup. simpl. rewrite (lookup_eq k g sa key Hi Ht). simpl. by destruct (p_lookup k sa key); eexists. }
    destruct (step_c k _ _ _ _ _ _ S E) as (sc' & Ec & _). rewrite Ec in Hp.
    destruct (p_lookup k sa key) as [|v'| |] eqn:El; try done. injection Hp as ->. unfold p_lookup in El.
    destruct (firstv_split _ _ _ El ltac:(done)) as (l1 & x & l2 & Eb & Ea & _).
    assert (x ∈ tab sa) as Hx. { apply (bucket_in sa (k_hash k key)). rewrite Eb. apply elem_of_app. right. left. }
    unfold ans in Ea. destruct (a_hash (cs sa) !! x) as [h|]; [|done]. destruct (m_els (me sa) !! x) as [el|] eqn:Hel; [|done].
    destruct (bool_decide (h = k_hash k key) && k_eq k (el_key el) key && negb (el_expired k (me sa) el)) eqn:Ec2; [|done].
    apply andb_true_iff in Ec2 as [[_ Ek]%andb_true_iff Ex%negb_true_iff].
    exists x, (with_rc el 0). split_and!; [by apply tv_some|done| |by rewrite el_expired_rc].
    simpl. destruct (el_map el) as [p|u|[u|]|y| |]; simpl in Ea |- *; try done; [congruence|]. destruct (alive (me sa) u); congruence.
  Qed.
  Lemma peek_entry (sa : sta) (sc : cache) key v : srel sa sc -> top sa -> peek k sc key = Some v ->
    m_up (me sa) = true /\ exists x el, tv sa x = Some el /\ k_eq k (el_key el) key = true /\ valz (el_map el) = Some v /\ el_expired k (me sa) el = false.
  Proof using. intros S T. apply (peek_entry_g g0); [done|exact (t_inv _ _ T)]. Qed.
  Lemma path_steady (A : kind -> Prop) s s' : path k A s s' -> (m_steady (me s) <= m_steady (me s'))%Z.
  Proof using.
    intros P. apply (path_inv k A (fun s1 => (m_steady (me s) <= m_steady (me s1))%Z) s s'); [|done|lia].
    intros κ s1 s2 _ HM ?. destruct (n_clk _ _ _ _ HM) as (? & _). lia.
  Qed.
  (** ** C17 *)
  Lemma fresh l sc key v : fine l -> after k l sc -> peek k sc key = Some v ->
    exists l1 o l2 sc1 sc2, l = l1 ++ o :: l2 /\ after k l1 sc1 /\ after k (l1 ++ [o]) sc2 /\
      supplies k (key_of sc1) (m_ncb (me sc1)) false key v o = true /\
      (forall d, k_max_age k = Some d ->
        (k_steady k = false -> m_steady (me sc) < m_steady (me sc2) + d)%Z /\
        (k_steady k = true \/ sets_back o = false -> m_wall (me sc) < m_wall (me sc2) + d)%Z) /\
      (eq_ok k -> forall d idle, k_refresh k = Some (d, idle) -> idle <> 0%Z -> exists la ob lb sb, o :: l2 = la ++ ob :: lb /\ (la = [] \/ asks k key ob = true) /\ after k (l1 ++ la ++ [ob]) sb /\
        (m_steady (me sc) < m_steady (me sb) + idle)%Z).
  Proof using Hk.
    intros Hf Ha Hp. destruct (after_abs k Hk l sc Hf Ha) as (sa & R & S & T & _).
    destruct (peek_entry sa sc key v S T Hp) as (Hup & x & el & X & Ek & Hv & He).
    destruct (run_origin l sa Hf R Hup x el v key X Hv Ek) as (l1 & o & l2 & sa1 & sa2 & sx & El & R1 & R2 & Hs & _ & P & Hst & Hcn).
    destruct (run_c k l1 st_init sa1 st_init (h_init _ _ _ comp_ptr_sim) R1) as (sc1 & C1 & S1).
    destruct (run_c k (l1 ++ [o]) st_init sa2 st_init (h_init _ _ _ comp_ptr_sim) R2) as (sc2 & C2 & S2).
    assert (fine_op false o = true) as Hfo. { rewrite El in Hf. apply fine_app in Hf as [_ Hf]. by apply andb_true_iff in Hf as [? _]. }
    exists l1, o, l2, sc1, sc2. split_and!; try done.
    - rewrite <-Hs. unfold kof, key_of. by rewrite (srel_me _ _ S1).
    - intros d Hd. destruct (Hst d Hd) as [Hw Hss]. unfold el_expired in He. rewrite !orb_false_iff in He. destruct He as ((((_ & _) & Hew) & Hes) & _).
      rewrite Hw in Hew. simpl in Hew. apply bool_decide_eq_false in Hew. rewrite <-(srel_me _ _ S), <-(srel_me _ _ S2). split.
      + intros Hst'. rewrite Hss, Hst' in Hes. simpl in Hes. apply bool_decide_eq_false in Hes. pose proof (path_steady _ _ _ P). lia.
      + intros Hb. destruct (path_clk k (upto (okind k o) (m_ncb (me sa1))) sx sa2) as [? _]; [|done|lia].
        intros κ HA. destruct Hb as [?|Hb]; [by left|right]. by eapply top_back.
    - intros Hq d idle Hr Hid. destruct (Hcn Hq) as (la & ob & lb & sb & Eb & Hob & Rb & Hc).
      destruct (run_c k (l1 ++ la ++ [ob]) st_init sb st_init (h_init _ _ _ comp_ptr_sim) Rb) as (scb & Cb & Sb).
      exists la, ob, lb, scb. split_and!; try done. destruct (Hc d idle Hr Hid) as (c & Ec & ?).
      unfold el_expired in He. rewrite !orb_false_iff in He. destruct He as (_ & He). rewrite Ec in He. simpl in He. apply bool_decide_eq_false in He.
      rewrite <-(srel_me _ _ S), <-(srel_me _ _ Sb). lia.
  Qed.

  (** ** One entry per key *)
  Lemma enters_le (P Q : Z -> bool) o : (forall key, P key = true -> Q key = true) -> enters Q o = false -> enters P o = false.
  Proof using.
    intros HPQ. assert (forall key, Q key = false -> P key = false) as H. { intros key Hq. destruct (P key) eqn:E; [|done]. by rewrite (HPQ _ E) in Hq. }
    assert (forall l, Forall (fun o => enters Q o = false -> enters P o = false) l -> existsb (enters Q) l = false -> existsb (enters P) l = false) as Hsub.
    { induction 1 as [|x l Hx _ IH]; [done|]. simpl. intros [? ?]%orb_false_iff. apply orb_false_iff. auto. }
    induction o as [o IH] using op_ind'. destruct o; simpl; try done; try apply H.
    - intros [H1 H2]%orb_false_iff. apply orb_false_iff. split; [by apply H|by apply Hsub].
    - destruct IH as [IH1 IH2]. intros [[H1 H2]%orb_false_iff H3]%orb_false_iff. rewrite !orb_false_iff. split_and!; [by apply H|by apply Hsub|by apply Hsub].
    - induction items as [|x items IHi]; [done|]. simpl. apply Forall_cons in IH as [IH1 IH2]. intros [? ?]%orb_false_iff. apply orb_false_iff. split; [by apply Hsub|by apply IHi].
  Qed.
  Lemma plain_clean o : plain_op k o = true -> clean_op k o = true.
  Proof using.
    assert (k_resolver k = RSync \/ k_resolver k <> RSync) as [Hr|Hr] by (destruct (k_resolver k); auto); [|intros _; by apply clean_all].
    assert (forall l, Forall (fun o => plain_op k o = true -> clean_op k o = true) l -> forallb (plain_op k) l = true -> forallb (clean_op k) l = true) as Hsub.
    { induction 1 as [|x l Hx _ IH]; [done|]. simpl. intros [? ?]%andb_true_iff. apply andb_true_iff. auto. }
    induction o as [o IH] using op_ind'. destruct o; simpl; rewrite Hr; try done.
    - intros [H1%negb_true_iff H2]%andb_true_iff. apply andb_true_iff. split; [|by apply Hsub]. apply negb_true_iff.
      clear -H1. induction script as [|x l IHl]; [done|]. simpl in *. apply orb_false_iff in H1 as [H1 H2]. apply orb_false_iff. split; [|by apply IHl].
      eapply enters_le; [|exact H1]. unfold same. by intros key' [_ ?]%andb_true_iff.
    - destruct IH as [IH1 IH2]. intros [H1 H2]%andb_true_iff. apply andb_true_iff. split; by apply Hsub.
  Qed.
  Section kept.
    Context (Hq : eq_ok k) (Hta : tame k) (Hrf : k_refresh k = None).
    Lemma run_uq l : forall s s' : sta, top s -> fine l -> forallb (plain_op k) l = true -> run k l s = Ok s' -> (m_up (me s) = true -> uq k none s) -> m_up (me s') = true -> uq k none s'.
    Proof using Hk Hq Hta.
      induction l as [|o l IH]; intros s s' T Hf Hp R Hu Hup'; [injection R as <-; by apply Hu|].
      rewrite run_cons in R. unfold fine in Hf. simpl in Hf, Hp. apply andb_true_iff in Hf as [Hf1 Hf2]. apply andb_true_iff in Hp as [Hp1 Hp2].
      destruct (top_step k Hk o s T Hf1) as (s1 & r1 & E1 & T1 & _ & _ & Hs & _). rewrite E1 in R. unfold rbind in R.
      apply (IH s1 s' T1 Hf2 Hp2 R); [|done]. intros Hup1. destruct (up_step o s s1 r1 T Hf1 E1 Hup1) as [Hup Hn].
      destruct (Hs Hup Hn) as (_ & _ & Hsu & _). apply Hsu; [done|by apply plain_clean|by apply Hu].
    Qed.
    Lemma uq_init : uq k none st_init.
    Proof using. intros x y ex ey Tx. apply tv_elim in Tx as [Tx _]. by apply elem_of_nil in Tx. Qed.
    (** without refresh and with unique entries a value that is found is firm even if the clock goes back *)
    Lemma firm_unique s key v x el : J k s -> uq k none s -> firm k false s key v x el -> late (me s) el = false -> firm k true s key v x el.
    Proof using Hq Hrf.
      intros HJ Hu (T & Em & Ek & l1 & l2 & Eh & Hd) Hlt. split_and!; try done. exists l1, l2. split; [done|]. intros y ey Hy Ty Eky.
      destruct (hopeful (el_map ey)) eqn:Hh; [|by left]. exfalso.
      assert (y <> x) as Hne.
      { intros ->. destruct (Hd x ey Hy Ty Eky) as [?|(_ & _ & Hl)]; [congruence|]. congruence. }
      assert (forall n o, ~ linked s n o) as Hnl.
      { intros n o (en & p & Tn & Ep & Ho). destruct (j_cn _ _ HJ n en Hrf Tn) as [_ Hc]. rewrite Ep in Hc. simpl in Hc. rewrite Hc in Ho. by apply elem_of_nil in Ho. }
      destruct (Hu y x ey el Ty T Hne) as [?|[?|[[]|[]]]]; try (by eapply Hnl); [|done|by rewrite Em].
      destruct Hq as (_ & Hq1 & Hq2 & _). apply (Hq2 _ key); [done|by apply Hq1].
    Qed.
    Lemma okind_spares o key n κ : fine_op false o = true -> upto (okind k o) n κ -> sparing k key κ -> spoils k key o = false -> spares0 k key κ.
    Proof using Hq Hrf.
      intros Hf HA He Hs. destruct HA as [HA|(j & -> & _)]; [|done]. destruct κ as [| | |key'| | | | |key'| | | |]; simpl; try done.
      - apply other_of; [done|]. destruct (k_eq k key' key) eqn:E; [|done]. rewrite (top_spoils k key o _ Hf HA) in Hs; [done|right; eauto].
      - rewrite (top_spoils k key o KClear Hf HA) in Hs; [done|by left].
      - destruct (match o with OTick _ | ODestroy => true | _ => false end) eqn:Et.
        + destruct o; try done. simpl in HA. rewrite Hrf in HA. by destruct HA as [[? ?] _].
        + revert HA. apply okind_norefresh. by destruct o.
    Qed.
    (** a value stays until its deadline *)
    Lemma keep_run key v x l : forall (st : bool) (s s' : sta) el, top s -> m_up (me s) = true -> fine l -> ODestroy ∉ l -> existsb (spoils k key) l = false ->
      (forall o, o ∈ l -> k_steady k = true \/ sets_back o = false \/ st = true /\ exists dw ds, o = OAdvance dw ds) ->
      (forall l1 l2 s1, l = l1 ++ l2 -> run k l1 s = Ok s1 -> late (me s1) el = false) ->
      run k l s = Ok s' -> unevicted k s s' key -> firm k st s key v x el -> m_up (me s') = true /\ exists el', firm k st s' key v x el' /\ dls el el'.
    Proof using Hk Hq Hta Hrf.
      induction l as [|o l IH]; intros st s s' el T Hup Hf Hd Hsp Hb Hy R Hev HF.
      { injection R as <-. split; [done|]. exists el. by split_and!. }
      pose proof R as R0. rewrite run_cons in R. unfold fine in Hf. simpl in Hf, Hsp. apply andb_true_iff in Hf as [Hf1 Hf2]. apply orb_false_iff in Hsp as [Hsp1 Hsp2].
      assert (o <> ODestroy) as Hn by (intros ->; apply Hd; left).
      destruct (top_step k Hk o s T Hf1) as (s1 & r1 & E1 & T1 & _ & _ & Hu & _). destruct (Hu Hup Hn) as (U1 & P1 & _). rewrite E1 in R. unfold rbind in R.
      destruct (top_facts k s T Hup) as (Hi & Htn & HJ).
      destruct (unevicted_split k Hk s s1 s' key l T1 Hf2 R (path_nevict k _ _ _ key P1) Hev) as [Hev1 Hev2].
      assert (late (me s) el = false) as Hl0 by (by apply (Hy [] (o :: l))).
      assert (run k [o] s = Ok s1) as R1 by (by rewrite run_cons, E1).
      assert (late (me s1) el = false) as Hl1 by (by apply (Hy [o] l)).
      assert (exists el', firm k st s1 key v x el' /\ dls el el') as (el1 & HF1 & D1).
      { assert ((k_steady k = true \/ sets_back o = false) \/ st = true /\ exists dw ds, o = OAdvance dw ds) as [Hfw|(-> & dw & ds & ->)] by (destruct (Hb o ltac:(left)) as [?|[?|?]]; auto).
        - apply (path_keep k st (fun κ => upto (okind k o) (m_ncb (me s)) κ /\ sparing k key κ) s s1 key v x el Hta Hrf); [|by apply path_unevicted|done..].
          intros κ [HA He]. split; [|by eapply okind_spares]. destruct Hfw as [?|Hfw]; [by left|right]. by eapply top_back.
        - exists el. split; [|by split_and!]. rewrite step_eq in E1. unfold step_with in E1. rewrite Hup in E1. simpl in E1. injection E1 as <- <-.
          destruct HF as (TF & Em & Ek & l1 & l2 & Eh & Hdd). split_and!; try done. exists l1, l2. split; [done|]. intros y ey Hy1 Ty Eky.
          destruct (Hdd y ey Hy1 Ty Eky) as [?|[? _]]; [by left|done]. }
      destruct (IH st s1 s' el1 T1 U1 Hf2) as (U2 & el2 & HF2 & D2); try done.
      - intros ?. apply Hd. by right.
      - intros o' Ho'. apply Hb. by right.
      - intros l1 l2 s2 -> R2. rewrite (dls_late _ _ _ D1). apply (Hy (o :: l1) l2 s2); [done|]. by rewrite run_cons, E1.
      - split; [done|]. exists el2. split; [done|]. destruct D1 as (?&?&?), D2 as (?&?&?). split_and!; congruence.
    Qed.
    (** the value found after an operation that replaces what was there was assigned by it *)
    Lemma entered_stamped (A : kind -> Prop) (s s' : sta) key x el v : path k A s s' -> J k s -> (forall κ, A κ -> forward k κ) ->
      (forall y ey u, tv s y = Some ey -> k_eq k (el_key ey) key = true -> valz (el_map ey) = Some u -> reached (m_wall (me s)) (el_xw ey) || reached (m_steady (me s)) (el_xs ey) = true) ->
      tv s' x = Some el -> k_eq k (el_key el) key = true -> valz (el_map el) = Some v -> late (me s') el = false ->
      exists m, stamped m el /\ (m_wall (me s) <= m_wall m)%Z /\ (m_steady (me s) <= m_steady m)%Z.
    Proof using.
      intros P HJ HA Hold T Ek Hv Hl. destruct (origin A 0 s s' P HJ) with (x := x) (el := el) (v := v) as [(el1 & T1 & V1 & K1 & W1 & S1 & _)|(κ & sx & _ & _ & P1 & P2 & Hst)]; try done.
      - split; [lia|]. intros i c Hi. lia.
      - exfalso. specialize (Hold x el1 v T1 ltac:(congruence) V1). rewrite W1, S1 in Hold. destruct (path_clk k A s s' HA P) as [C1 C2].
        unfold late in Hl. apply orb_false_iff in Hl as [[Hl1 Hl2]%orb_false_iff _]. apply orb_true_iff in Hold as [Ho|Ho]; eapply reached_le in Ho; [|exact C1| |exact C2]; congruence.
      - exists (me sx). split; [done|]. by destruct (path_clk k A s sx HA P1).
    Qed.
    Lemma none_old s key : J k s -> inv k g0 s -> a_torn (cs s) = None -> looki k s key false = R0 ->
      forall y ey u, tv s y = Some ey -> k_eq k (el_key ey) key = true -> valz (el_map ey) = Some u -> reached (m_wall (me s)) (el_xw ey) || reached (m_steady (me s)) (el_xs ey) = true.
    Proof using Hq Hta Hrf.
      intros HJ Hi Htn Hl y ey u T Ek Hv. destruct (j_tame _ _ HJ y ey Hta T) as [Hw _].
      assert (exists u', el_map ey = MVal u') as [u' Em]. { destruct (el_map ey) as [|u'|[u'|]| | |]; try done; [eauto|]. by destruct (Hw u'). }
      assert (y ∈ hseq s (k_hash k key)) as Hy. { apply tv_elim in T as (Hx & el0 & Hel & ->). unfold hseq. apply elem_of_list_filter. split; [|done].
        rewrite (i_hash _ _ _ Hi y el0 (tab_LT g0 s y Htn Hx) Hel). f_equal. by apply Hq. }
      pose proof (firstv_none_inv _ _ Hl y Hy) as Hc. unfold cand in Hc. rewrite T, Ek in Hc. unfold vis in Hc. rewrite Em in Hc.
      destruct (late (me s) ey) eqn:Hlt; [|done]. unfold late in Hlt. destruct (j_cn _ _ HJ y ey Hrf T) as [Hcn _]. rewrite Hcn in Hlt. simpl in Hlt. by rewrite orb_false_r in Hlt.
    Qed.
    (** ** C18 *)
    Lemma kept l1 o l2 sc1 sc2 sc3 key v : fine (l1 ++ o :: l2) -> after k l1 sc1 -> after k (l1 ++ [o]) sc2 -> after k (l1 ++ o :: l2) sc3 ->
      peek k sc2 key = Some v -> ODestroy ∉ l2 -> existsb (spoils k key) l2 = false -> spared k sc2 sc3 key ->
      k_steady k = true \/ existsb sets_back l2 = false \/
        forallb (plain_op k) (l1 ++ [o]) = true /\ (forall o', o' ∈ l2 -> sets_back o' = false \/ exists dw ds, o' = OAdvance dw ds) ->
      (forall d, k_max_age k = Some d ->
        (k_steady k = true \/ sets_back o = false) /\
        (peek k sc1 key = None \/ exists key' v', o = OEmplace key' v' /\ k_eq k key' key = true /\ (k_pointer k = true -> v' ∉ m_dropped (me sc1))) /\
        forall l' l'' s, l2 = l' ++ l'' -> after k (l1 ++ o :: l') s ->
          (m_wall (me s) < m_wall (me sc1) + d)%Z /\ (k_steady k = false -> (m_steady (me s) < m_steady (me sc1) + d)%Z)) ->
      peek k sc3 key = Some v.
    Proof using Hk Hq Hta Hrf.
      intros Hf Ha1 Ha2 Ha3 Hp Hd Hsp Hev Hb Hy.
      assert (fine l1 /\ fine_op false o = true /\ fine l2) as (Hf1 & Hfo & Hf2). { apply fine_app in Hf as [? Hf]. by apply andb_true_iff in Hf as [? ?]. }
      assert (fine (l1 ++ [o])) as Hf12 by (apply fine_app; split; [done|by apply fine_one]).
      destruct (after_abs k Hk l1 sc1 Hf1 Ha1) as (sa1 & R1 & S1 & T1 & _).
      destruct (after_abs k Hk _ sc2 Hf12 Ha2) as (sa2 & R2 & S2 & T2 & _).
      destruct (after_abs k Hk _ sc3 Hf Ha3) as (sa3 & R3 & S3 & T3 & _).
      destruct (peek_entry sa2 sc2 key v S2 T2 Hp) as (U2 & _).
      destruct (run_snoc _ _ _ _ R2) as (sa1' & r & R1' & E). assert (sa1' = sa1) as -> by congruence. clear R1'.
      assert (run k l2 sa2 = Ok sa3) as R23. { change (o :: l2) with ([o] ++ l2) in R3. rewrite app_assoc, run_app, R2 in R3. exact R3. }
      destruct (up_step o sa1 sa2 r T1 Hfo E U2) as [U1 Hn].
      destruct (top_facts k sa1 T1 U1) as (I1 & Tn1 & J1). destruct (top_facts k sa2 T2 U2) as (I2 & Tn2 & J2).
      assert (looki k sa2 key false = RV v) as El. { rewrite (peek_look k Hta sa2 sc2 key S2 T2), (look_up sa2 sc2 S2), U2 in Hp. unfold val in Hp. by destruct (looki k sa2 key false); try done; injection Hp as ->. }
      assert (k_resolver k = RAsync -> uq k none sa2) as Hua.
      { intros Hr. apply (run_uq (l1 ++ [o]) st_init sa2 (top_init k) Hf12); [|exact R2|intros _; apply uq_init|done]. apply forallb_forall. intros y _. destruct y; simpl; by rewrite Hr. }
      destruct (look_firm k sa2 key v false Hta Hq J2 El Hua) as (x & el & HF & Hlt).
      assert (forall d, k_max_age k = Some d -> exists m, stamped m el /\ (m_wall (me sa1) <= m_wall m)%Z /\ (m_steady (me sa1) <= m_steady m)%Z) as Hst.
      { intros d Hda. destruct (Hy d Hda) as (Hfw & Hnew & _). pose proof HF as (TF & Em & Ek & _).
        destruct (top_step k Hk o sa1 T1 Hfo) as (s2' & r' & E' & _ & _ & _ & Hu & _). rewrite E in E'. injection E' as <- <-. destruct (Hu U1 Hn) as (_ & P & _).
        assert (forall κ, upto (okind k o) (m_ncb (me sa1)) κ -> forward k κ) as Hfk. { intros κ HA. destruct Hfw as [?|Hfw]; [by left|right]. by eapply top_back. }
        destruct Hnew as [Hnone|(key' & v' & -> & Ek' & Hh)].
        - apply (entered_stamped (upto (okind k o) (m_ncb (me sa1))) sa1 sa2 key x el v P J1 Hfk); [|done|done|by rewrite Em|done].
          apply none_old; try done. rewrite (peek_look k Hta sa1 sc1 key S1 T1), (look_up sa1 sc1 S1), U1 in Hnone. by destruct (look_kinds k sa1 key false) as [?|[[u Eu]|[? _]]]; try done; rewrite Eu in Hnone.
        - assert (holds k sa1 v' = true) as Hhh. { unfold holds. destruct (k_pointer k); [|done]. simpl. apply bool_decide_eq_true. rewrite (srel_me _ _ S1). by apply Hh. }
          rewrite (step_emplace k sa1 key' v' T1 U1 Hhh) in E. injection E as <- <-. unfold f_emplace in *.
          destruct (expire_ends k g0 sa1 key' I1 Tn1) as ((_ & Ie & Xe) & Te).
          assert (path k (fun κ => κ = KFree \/ κ = KErase key') sa1 (f_expire k sa1 key')) as Pe by (eapply expire_path; eauto).
          destruct (path_clk k (fun κ => κ = KFree \/ κ = KErase key') sa1 (f_expire k sa1 key')) as [C1 C2]; [by intros ? [-> | ->]; right|done|].
          assert (nohope k (f_expire k sa1 key') key') as Hno by (by eapply expire_nohope).
          destruct (insert_enter k g0 (f_expire k sa1 key') key' v' HClean) as (s2 & Pi & M); try done.
          destruct (entered_stamped (fun κ => κ = KFree \/ κ = KEnter key' HClean (Some v') \/ evicting κ) (f_expire k sa1 key') (f_maint k (f_insert k (f_expire k sa1 key') key' v')) key x el v) as (m & Hm & ? & ?); try done.
          + eapply path_trans; [eapply path_weaken; [|exact Pi]; by left|]. eapply path_trans; [eapply path_one; [right; by left|done]|]. destruct (insert_ends k g0 (f_expire k sa1 key') key' v' Ie Te) as [Ii Ti]. eapply maint_path; try done; intros; simpl; tauto.
          + by eapply path_J.
          + by intros κ [-> |[-> |?]]; right; [..|destruct κ].
          + intros y ey u Ty Eky Hv. exfalso. assert (hopeful (el_map ey) = false) as Hh'. { apply (Hno y ey Ty). destruct Hq as (_ & Q2 & Q3 & Q4). assert (k_eq k (el_key ey) key' = true) as Hek by (apply (Q3 _ key); [done|by apply Q2]). split; [by apply Q4|done]. }
            destruct (el_map ey) as [| |[]| | |]; done.
          + by rewrite Em.
          + exists m. split_and!; [done|lia|lia]. }
      assert (exists st, firm k st sa2 key v x el /\ forall o', o' ∈ l2 -> k_steady k = true \/ sets_back o' = false \/ st = true /\ exists dw ds, o' = OAdvance dw ds) as (st & HF' & Hb').
      { destruct Hb as [Hb|[Hb|[Hpl Hb]]].
        - exists false. split; [done|]. intros. by left.
        - exists false. split; [done|]. intros o' Ho'. right. left. by eapply existsb_false.
        - exists true. split; [|intros o' Ho'; destruct (Hb o' Ho'); auto].
          apply firm_unique; try done. apply (run_uq (l1 ++ [o]) st_init sa2 (top_init k) Hf12 Hpl R2); [intros _; apply uq_init|done]. }
      assert (forall l' l'' s, l2 = l' ++ l'' -> run k l' sa2 = Ok s -> late (me s) el = false) as Hlate.
      { intros l' l'' s El2 R. pose proof HF as (TF & Em & _). destruct (j_cn _ _ J2 x el Hrf TF) as [Hcn _].
        unfold late. rewrite Hcn. destruct (k_max_age k) as [d|] eqn:Hda.
        2: { destruct (j_val _ _ J2 x el Hda TF) as [-> ->]; [by rewrite Em|done]. }
        destruct (Hst d eq_refl) as (m & Hm & C1 & C2). destruct (Hm d Hda) as [Hw Hs]. destruct (Hy d eq_refl) as (_ & _ & Hyy).
        assert (run k (l1 ++ o :: l') st_init = Ok s) as R'. { change (o :: l') with ([o] ++ l'). by rewrite app_assoc, run_app, R2. }
        destruct (run_c k _ st_init s st_init (h_init _ _ _ comp_ptr_sim) R') as (sc & C & S). destruct (Hyy l' l'' sc El2 C) as [Y1 Y2].
        rewrite <-(srel_me _ _ S), <-(srel_me _ _ S1) in Y1, Y2. rewrite Hw, Hs. simpl. rewrite bool_decide_false by lia. simpl.
        rewrite orb_false_r. destruct (k_steady k) eqn:Hks; [done|]. simpl. rewrite bool_decide_false; [done|]. specialize (Y2 eq_refl). lia. }
      destruct (keep_run key v x l2 st sa2 sa3 el T2 U2 Hf2 Hd Hsp Hb' Hlate R23 (spared_un k sa2 sa3 sc2 sc3 key S2 S3 Hev) HF') as (U3 & el3 & HF3 & D3).
      rewrite (peek_look k Hta sa3 sc3 key S3 T3), (look_up sa3 sc3 S3), U3.
      assert (late (me sa3) el3 = false) as Hl3. { rewrite (dls_late _ _ _ D3). apply (Hlate l2 [] sa3); [by rewrite app_nil_r|done]. }
      by rewrite (firm_look k st sa3 key v x el3 false HF3 Hl3).
    Qed.
  End kept.
End origins.

(** what a lookup hands out *)
Lemma found_fresh k l sc key v : fine_cfg k -> fine l -> after k l sc ->
  peek k sc key = Some v \/ tame k /\ eq_ok k /\ m_up (me sc) = true /\ hits k sc key v ->
  exists l1 o l2 sc1 sc2, l = l1 ++ o :: l2 /\ after k l1 sc1 /\ after k (l1 ++ [o]) sc2 /\
    supplies k (key_of sc1) (m_ncb (me sc1)) false key v o = true /\
    forall d, k_max_age k = Some d ->
      (k_steady k = true \/ sets_back o = false -> m_wall (me sc) < m_wall (me sc2) + d)%Z /\
      (k_steady k = false -> m_steady (me sc) < m_steady (me sc2) + d)%Z.
Proof.
  intros Hk Hf Ha Hp. assert (peek k sc key = Some v) as Hp'. { destruct Hp as [?|(Ht & Hq & Hup & Hh)]; [done|]. by apply (peek_hits k Hk Ht Hq l sc key v Hf Ha Hup). }
  destruct (fresh k Hk l sc key v Hf Ha Hp') as (l1 & o & l2 & sc1 & sc2 & E & A1 & A2 & Hs & Hd & _).
  exists l1, o, l2, sc1, sc2. split_and!; try done. intros d Hm. destruct (Hd d Hm). done.
Qed.
Lemma found_used k l sc key v d idle : fine_cfg k -> eq_ok k -> fine l -> after k l sc -> k_refresh k = Some (d, idle) -> idle <> 0%Z ->
  peek k sc key = Some v \/ tame k /\ m_up (me sc) = true /\ hits k sc key v ->
  exists l1 o l2 sc1, l = l1 ++ o :: l2 /\ after k l1 sc1 /\ supplies k (key_of sc1) (m_ncb (me sc1)) false key v o = true /\
    exists la ob lb sb, o :: l2 = la ++ ob :: lb /\ (la = [] \/ asks k key ob = true) /\ after k (l1 ++ la ++ [ob]) sb /\ (m_steady (me sc) < m_steady (me sb) + idle)%Z.
Proof.
  intros Hk Hq Hf Ha Hr Hi Hp. assert (peek k sc key = Some v) as Hp'. { destruct Hp as [?|(Ht & Hup & Hh)]; [done|]. by apply (peek_hits k Hk Ht Hq l sc key v Hf Ha Hup). }
  destruct (fresh k Hk l sc key v Hf Ha Hp') as (l1 & o & l2 & sc1 & sc2 & E & A1 & A2 & Hs & _ & Hd).
  exists l1, o, l2, sc1. split_and!; try done. by apply (Hd Hq d idle).
Qed.
Lemma kept_all k l1 o l2 sc1 sc2 sc3 key v : fine_cfg k -> eq_ok k -> tame k -> k_refresh k = None ->
  fine (l1 ++ o :: l2) -> after k l1 sc1 -> after k (l1 ++ [o]) sc2 -> after k (l1 ++ o :: l2) sc3 ->
  peek k sc2 key = Some v -> ODestroy ∉ l2 -> existsb (spoils k key) l2 = false -> spared k sc2 sc3 key ->
  k_steady k = true \/ existsb sets_back l2 = false \/
    forallb (plain_op k) (l1 ++ [o]) = true /\ (forall o', o' ∈ l2 -> sets_back o' = false \/ exists dw ds, o' = OAdvance dw ds) ->
  (forall d, k_max_age k = Some d ->
    (k_steady k = true \/ sets_back o = false) /\
    (peek k sc1 key = None \/ exists key' v', o = OEmplace key' v' /\ k_eq k key' key = true /\ (k_pointer k = true -> v' ∉ m_dropped (me sc1))) /\
    forall l' l'' s, l2 = l' ++ l'' -> after k (l1 ++ o :: l') s ->
      (m_wall (me s) < m_wall (me sc1) + d)%Z /\ (k_steady k = false -> (m_steady (me s) < m_steady (me sc1) + d)%Z)) ->
  peek k sc3 key = Some v.
Proof. intros Hk Hq Hta Hrf. exact (kept k Hk Hq Hta Hrf l1 o l2 sc1 sc2 sc3 key v). Qed.
