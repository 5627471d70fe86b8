(** What lookups find while a refresh is in flight and after it (lemmas for PropertiesRefresh.v). *)
From stdpp Require Import sorting.
From Verif Require Import Base AQueue ATable BasicHashtable QueueProofs BasicHashtableProofs ContainersProofs Mapped Cache CachePtr CacheAbs CompSim CacheSim AbsInv AbsPrim AbsPrim2 AbsSweep AbsOps AbsComp Trace AbsTrace TraceInv Delay AbsTraceCb Histories AbsResolve AbsStep AbsLook Effects Observe Transfer Lookups Answers Waiters Calls Origins Idle.

Lemma firstv_alone f M e : e ∈ M -> (forall y, y ∈ M -> y <> e -> f y = R0) -> firstv f M = f e.
Proof.
  induction M as [|x M IH]; intros He H; [by apply elem_of_nil in He|]. simpl. destruct (decide (x = e)) as [->|Hne].
  - destruct (f e) eqn:E; try done. apply firstv_none. intros y Hy. destruct (decide (y = e)) as [->|]; [done|]. apply H; [by right|done].
  - rewrite (H x) by (done || left). apply IH; [by apply elem_of_cons in He as [?|?]|]. intros y Hy. apply H. by right.
Qed.

Section refresh.
  Context (k : cfg) (Hk : fine_cfg k).
  Notation srel := (srel comp_abs comp_ptr crel).
  Notation top := (top k).

  (** ** Lookups of caches without eviction are not weakened *)
  Definition strong (s : sta) : Prop := forall x el p, tv s x = Some el -> el_map el = MPend p -> p_weak p = false.
  Lemma mini_strong κ s s' : k_max_size k = None \/ k_weaken k = false -> mini k κ s s' -> strong s -> strong s'.
  Proof using.
    intros Hms HM IH x el' p' T' Em'.
    destruct (mini_tv k _ _ _ _ _ HM T') as [(el & T & [->|[(Hc & _)|[(i & o & δ & -> & c & Hc & -> & _)|[(i & o & c & p & y & cn & δ & -> & Hc & Hcc & Hx & Em & _ & ->)|(i & c & p & -> & Hc & Hcc & Hx & Em & ->)]]]])|(key & cl & mp & -> & T & -> & _ & Hm & _)].
    - by eapply IH.
    - assert (forall f, f = m_mark_expired (k_pointer k) (el_map el) -> f = MPend p' -> p_weak p' = false) as Hmk.
      { intros f -> E. unfold m_mark_expired, m_dead in E. destruct (el_map el) as [q| | | | |] eqn:Eq; try (by destruct (k_pointer k)).
        injection E as <-. simpl. by apply (IH x el q). }
      inversion Hc; subst; simpl in Em'; try done; try (by eapply Hmk); try (by eapply IH).
      + exfalso. destruct Hms; congruence.
      + unfold m_strengthen in Em'. destruct (el_map el) as [q|v|[v|]|y| |] eqn:Eq; simpl in Em'; try done; [|by case_match].
        unfold p_strengthen in Em'. pose proof (IH x el q T Eq). repeat case_match; simpl in *; simplify_eq; done.
      + injection Em' as <-. simpl. by eapply IH.
      + injection Em' as <-. simpl. by eapply IH.
    - simpl in Em'. unfold m_mark_expired, m_dead in Em'. destruct (el_map el) as [q| | | | |] eqn:Eq; try (by destruct (k_pointer k)).
      injection Em' as <-. simpl. by apply (IH x el q).
    - destruct (assigned_facts k (me s') (bool_decide (is_Some o)) (with_map (with_cn el cn) (match o with Some v0 => settled k p v0 | None => m_settle_error (k_pointer k) y p end))) as (Ek & Ema & _).
      rewrite Ema in Em'. simpl in Em'. destruct o; unfold settled, m_settle_error, m_dead in Em'; repeat case_match; done.
    - simpl in Em'. injection Em' as <-. simpl. by apply (IH x el p).
    - destruct (born_facts k (me s) key mp) as (Ek & Em & _). rewrite Em in Em'. subst mp. destruct Hm as [Hm _]. by injection Hm as ->.
  Qed.
  Lemma run_strong l : k_max_size k = None \/ k_weaken k = false -> forall sa : sta, fine l -> run k l st_init = Ok sa -> m_up (me sa) = true -> strong sa.
  Proof using Hk.
    intros Hms. induction l as [|o l IH] using rev_ind; intros sa Hf R Hup.
    { injection R as <-. intros x el v T. apply tv_elim in T as [T _]. by apply elem_of_nil in T. }
    apply run_snoc in R as (s1 & r & R & E). apply fine_app in Hf as [Hf1 Hf2%fine_one].
    destruct (top_run k Hk l st_init (top_init k) Hf1) as (s1' & R' & T1 & _). assert (s1' = s1) as -> by congruence. clear R'.
    destruct (top_step k Hk o s1 T1 Hf2) as (sa' & r' & E' & _ & _ & _ & Hu & Hd). rewrite E in E'. injection E' as <- <-.
    destruct (up_step k Hk o s1 sa r T1 Hf2 E Hup) as [Hup1 Hn]. destruct (Hu Hup1 Hn) as (_ & P & _).
    apply (path_inv k _ strong _ _ (fun κ s s' _ => mini_strong κ s s' Hms) P). by apply IH.
  Qed.

  (** ** The completion of a lookup *)
  Section done.
    Context (Hq : eq_ok k) (Hta : tame k).
    Lemma done_alone s s' i e key o δ : ready k s -> m_up (me s) = true -> open_at k s i e key -> mini k (KDone i o δ) s s' ->
      exists el p cn x, tv s e = Some el /\ el_map el = MPend p /\ p_exp p = false /\ k_eq k (el_key el) key = true /\
        cn_ok k (olds_of (p_cbq p)) (m_els (me s)) (el_cn el) cn /\
        tv s' e = Some (assigned k (me s') (bool_decide (is_Some o)) (with_map (with_cn el cn) (match o with Some v => settled k p v | None => m_settle_error (k_pointer k) x p end))) /\
        (forall h, hseq s' h = hseq s h) /\
        (forall y ey, y <> e -> tv s y = Some ey -> k_eq k (el_key ey) key = true -> hopeful (el_map ey) = true -> y ∈ olds_of (p_cbq p)) /\
        (forall y ey, y <> e -> tv s' y = Some ey -> k_eq k (el_key ey) key = true -> hopeful (el_map ey) = false).
    Proof using Hq.
      intros R Hup U HM. destruct (Answers.open_tv k Hq s i e key R Hup U) as (ele & pe & He & Eme & Epe & [_ Eke]).
      destruct (ready_facts k s R Hup) as (Hi & Ht & HJ & Hu).
      destruct U as (c0 & _ & _ & Hc0 & _ & Ec0 & _).
      assert (k_resolver k = RAsync) as Hr. { destruct (j_sync _ _ HJ) as [?|[Hcb _]]; [done|]. by rewrite Hcb, lookup_empty in Hc0. }
      specialize (Hu Hr). pose proof (n_body _ _ _ _ HM) as HB. remember (KDone i o δ) as κ eqn:Eκ.
      destruct HB as [κ Hκ| κ e' el' o' _ Hc| | i' c e' el p o' x cn δ' Hc Hcc Ec Te Em Hcn Te' Hy Hh _ _ _ _ _|]; try done.
      { by destruct Hκ as [->|[[? ->]|[[? ->]|[? ->]]]]. } { subst κ. by inversion Hc. }
      injection Eκ as -> -> ->. assert (c = c0) as -> by congruence. assert (e' = e) as -> by congruence. assert (el = ele) as -> by congruence. assert (p = pe) as -> by congruence.
      assert (forall y ey, y <> e -> tv s y = Some ey -> k_eq k (el_key ey) key = true -> hopeful (el_map ey) = true -> y ∈ olds_of (p_cbq pe)) as Hold.
      { intros y ey Hne Ty Eky Hhy. assert (k_eq k (el_key ey) (el_key ele) = true) as Ek. { destruct Hq as (_ & Hsym & Htr & _). eapply Htr; [exact Eky|]. by apply Hsym. }
        destruct (Hu y e ey ele Ty He Hne Ek Hhy) as [L|[L|[[]|[]]]]; [by rewrite Em; simpl; rewrite Epe|..].
        - exfalso. destruct L as (en & q & Hn & Eq & Hin). apply elem_of_list_In, in_concat in Hin as (l & Hl & Hin).
          apply in_map_iff in Hl as (pc & <- & Hpc). destruct pc as [|n o1]; simpl in Hin; [done|]. destruct Hin as [->|[]].
          destruct (j_rs _ _ HJ y en q n e ele Hn Eq) as (_ & _ & Hp); [by apply elem_of_list_In|done|]. unfold el_pending in Hp. by rewrite Em in Hp.
        - destruct L as (en & q & Hn & Eq & Hin). assert (en = ele) as -> by congruence. assert (q = pe) as -> by congruence. done. }
      exists ele, pe, cn, x. split_and!; try done.
      intros y ey Hne Ty' Eky. rewrite Hy in Ty' by done. destruct (tv s y) as [ey0|] eqn:Ty; [|done]. simpl in Ty'. injection Ty' as <-.
      case_decide as D.
      - simpl. unfold m_mark_expired, m_dead. by destruct (el_map ey0), (k_pointer k).
      - apply not_true_is_false. intros Hhy. apply D. by eapply Hold.
    Qed.
    Lemma alone_look s key e el incl : top s -> m_up (me s) = true -> tv s e = Some el -> k_eq k (el_key el) key = true ->
      (forall y ey, y <> e -> tv s y = Some ey -> k_eq k (el_key ey) key = true -> hopeful (el_map ey) = false) ->
      looki k s key incl = vis (me s) incl el.
    Proof using Hq.
      intros T Hup Te Ek Ho. unfold looki. rewrite (firstv_alone _ _ e).
      - unfold cand. by rewrite Te, Ek.
      - destruct (top_facts k s T Hup) as (Hi & Ht & _). pose proof Te as (He & el0 & Hel & ->)%tv_elim. apply elem_of_list_filter. split; [|done].
        rewrite (i_hash _ _ _ Hi e el0) by (done || by apply tab_LT). simpl in Ek. destruct Hq as (_ & _ & _ & Hh). by rewrite (Hh _ _ Ek).
      - intros y _ Hne. unfold cand. destruct (tv s y) as [ey|] eqn:Ty; [|done]. destruct (k_eq k (el_key ey) key) eqn:Eky; [|done].
        specialize (Ho y ey Hne Ty Eky). unfold vis. destruct (el_map ey); try done. simpl in Ho. rewrite negb_false_iff in Ho. rewrite Ho. by rewrite andb_false_r.
    Qed.
    Lemma under_open (s : sta) (sc : cache) i key : srel s sc -> underway k sc i key -> exists e, open_at k s i e key.
    Proof using.
      intros S (c & el & p & Hc & Hcc & Hel & Em & Ep & Ek). rewrite <-(srel_me _ _ S) in *. exists (cb_el c), c, el, p. done.
    Qed.
    Lemma assign_mini l i v us sc sc' : fine (l ++ [OAssign i v us]) -> after k l sc -> after k (l ++ [OAssign i v us]) sc' -> m_up (me sc) = true -> in_flight sc i ->
      (k_pointer k = true -> v ∉ m_dropped (me sc)) ->
      exists (sa sa' : sta) δ, run k l st_init = Ok sa /\ run k (l ++ [OAssign i v us]) st_init = Ok sa' /\ srel sa sc /\ srel sa' sc' /\ top sa /\ top sa' /\ ready k sa /\ mini k (KDone i (Some v) δ) sa sa'.
    Proof using Hk Hta Hq.
      intros Hf Ha Ha' Hup Hin Hv. pose proof Hf as [Hf1 Hf2%fine_one]%fine_app.
      destruct (after_abs k Hk l sc Hf1 Ha) as (sa & R & S & T & _). destruct (after_abs k Hk _ sc' Hf Ha') as (sa' & R' & S' & T' & _).
      pose proof R' as (s1 & r & R1 & E)%run_snoc. assert (s1 = sa) as -> by congruence.
      exists sa, sa'. assert (ready k sa) as Rd. { apply (ready_run k Hk Hta Hq l st_init); [apply ready_init|done|done]. }
      destruct Hin as (c & Hc & Hcc). rewrite step_eq in E. unfold step_with in E. simpl in Hf2.
      pose proof (look_up sa sc S) as U. rewrite <-U, Hup in E. simpl in E. pose proof T as [Hi _ _].
      destruct (cb_assign_ends k (drift_runs us) g0 sa i v (map (run_nested k) us) Hi) as (s2 & r2 & E2 & _ & _ & _ & HM & Hto); try done; [apply not_elem_of_nil|by apply quiet_runs|].
      rewrite E2 in E. injection E as -> ->. destruct (Hto ltac:(congruence)) as [Ht1 Ht2].
      assert (r = RetBool true) as ->. { apply (Ht1 c); [by rewrite (srel_me _ _ S)|done|]. unfold holds; destruct (k_pointer k); [|done]; simpl; apply bool_decide_eq_true; rewrite (srel_me _ _ S); by apply Hv. }
      destruct (HM ltac:(congruence)) as [[_ ?]|[_ HM']]; [done|]. exists (drift_runs us). done.
    Qed.
    Lemma fail_mini l i x us sc sc' : fine (l ++ [OFail i x us]) -> after k l sc -> after k (l ++ [OFail i x us]) sc' -> m_up (me sc) = true -> in_flight sc i ->
      exists (sa sa' : sta) δ, run k l st_init = Ok sa /\ run k (l ++ [OFail i x us]) st_init = Ok sa' /\ srel sa sc /\ srel sa' sc' /\ top sa /\ top sa' /\ ready k sa /\ mini k (KDone i None δ) sa sa'.
    Proof using Hk Hta Hq.
      intros Hf Ha Ha' Hup Hin. pose proof Hf as [Hf1 Hf2%fine_one]%fine_app.
      destruct (after_abs k Hk l sc Hf1 Ha) as (sa & R & S & T & _). destruct (after_abs k Hk _ sc' Hf Ha') as (sa' & R' & S' & T' & _).
      pose proof R' as (s1 & r & R1 & E)%run_snoc. assert (s1 = sa) as -> by congruence.
      exists sa, sa'. assert (ready k sa) as Rd. { apply (ready_run k Hk Hta Hq l st_init); [apply ready_init|done|done]. }
      destruct Hin as (c & Hc & Hcc). rewrite step_eq in E. unfold step_with in E. simpl in Hf2.
      pose proof (look_up sa sc S) as U. rewrite <-U, Hup in E. simpl in E. pose proof T as [Hi _ _].
      destruct (cb_fail_ends k (drift_runs us) g0 sa i x (map (run_nested k) us) Hi) as (s2 & r2 & E2 & _ & _ & _ & HM & Hto); try done; [apply not_elem_of_nil|by apply quiet_runs|].
      rewrite E2 in E. injection E as -> ->. destruct (Hto ltac:(congruence)) as [Ht1 Ht2].
      assert (r = RetBool true) as ->. { apply (Ht1 c); [by rewrite (srel_me _ _ S)|done|done]. }
      destruct (HM ltac:(congruence)) as [[_ ?]|[_ HM']]; [done|]. exists (drift_runs us). done.
    Qed.
    Lemma peek_val (s : sta) (sc : cache) key v : srel s sc -> top s -> peek k sc key = Some v -> m_up (me s) = true /\ looki k s key false = RV v.
    Proof using Hta.
      intros S T Hp. rewrite (peek_look k Hta s sc key S T), (look_up s sc S) in Hp. destruct (m_up (me s)); [|done]. split; [done|].
      unfold val in Hp. by destruct (looki k s key false); try done; injection Hp as ->.
    Qed.
    Lemma look_val_entry s key v incl : looki k s key incl = RV v -> exists x el, tv s x = Some el /\ k_eq k (el_key el) key = true /\ el_map el = MVal v /\ late (me s) el = false.
    Proof using.
      intros Hl. destruct (firstv_split _ _ _ Hl) as (l1 & x & l2 & Eq & Ex & Hn); [done|].
      unfold cand in Ex. destruct (tv s x) as [el|] eqn:Tx; [|done]. destruct (k_eq k (el_key el) key) eqn:Ek; [|done].
      exists x, el. unfold vis in Ex. destruct (el_map el) as [p|v'| | | |]; try done; [by case_match|]. destruct (late (me s) el); [done|]. by injection Ex as ->.
    Qed.
    (** what was found before is what the lookup replaces *)
    Lemma found_old s s' i e key v o δ : ready k s -> m_up (me s) = true -> open_at k s i e key -> mini k (KDone i o δ) s s' -> looki k s key false = RV v ->
      exists el p y ey, tv s e = Some el /\ el_map el = MPend p /\ olds_of (p_cbq p) = [y] /\ y <> e /\ tv s y = Some ey /\ el_map ey = MVal v /\ late (me s) ey = false.
    Proof using Hq.
      intros R Hup U HM Hl. destruct (done_alone s s' i e key o δ R Hup U HM) as (el & p & cn & x & Te & Em & _ & _ & _ & _ & _ & Hold & _).
      destruct (look_val_entry s key v false Hl) as (y & ey & Ty & Eky & Emy & Hlt).
      assert (y <> e) as Hne by (intros ->; congruence).
      pose proof (Hold y ey Hne Ty Eky ltac:(by rewrite Emy)) as Hin. destruct (ready_facts k s R Hup) as (_ & _ & HJ & _).
      pose proof (j_one _ _ HJ e el p Te Em) as H1. exists el, p, y, ey. split_and!; try done.
      destruct (olds_of (p_cbq p)) as [|z [|? ?]]; [by apply elem_of_nil in Hin| |simpl in H1; lia]. by apply elem_of_list_singleton in Hin as ->.
    Qed.

    Lemma assigned_ontime m el : ages_ok k -> el_xw el = None -> el_xs el = None -> reached (m_steady m) (el_cn el) = false -> late m (assigned k m true el) = false.
    Proof using.
      intros [Ha1 Ha2] Exw Exs Hrc.
      assert (forall t d, (0 < d)%Z -> bool_decide (t + d <= t)%Z = false) as Hpos by (intros t d Hd; apply bool_decide_eq_false; lia).
      assert (exists el1, el_cn el1 = el_cn el /\ reached (m_wall m) (el_xw el1) = false /\ reached (m_steady m) (el_xs el1) = false /\
        assigned k m true el = match k_refresh k with
          | Some (delay, idle) => let el := with_rf el1 (m_steady m + delay)%Z in
              if bool_decide (idle = 0%Z) then el else with_cn el (tp_min (el_cn el) (Some (m_steady m + idle)%Z))
          | None => el1 end) as (el1 & E1 & E2 & E3 & ->).
      { exists (match k_max_age k with Some d => aged k m d el | None => el end). unfold assigned. split_and!; [..|by destruct (k_err_age k)]; destruct (k_max_age k) as [d|] eqn:Hma; unfold aged; simpl; rewrite ?Exw, ?Exs; try done.
        - simpl. apply Hpos. by apply Ha1.
        - destruct (k_steady k); [done|]. simpl. apply Hpos. by apply Ha1. }
      destruct (k_refresh k) as [[dl idle]|] eqn:Hrf; unfold late; simpl; [|by rewrite E1, E2, E3, Hrc].
      case_bool_decide as Hid; simpl; rewrite E2, E3, E1; [done|]. rewrite AbsComp.reached_min, Hrc. simpl. apply Hpos. specialize (Ha2 dl idle eq_refl). lia.
    Qed.

    (** ** The new value takes over *)
    Lemma takes_over l i v us sc sc' key : ages_ok k -> k_max_size k = None \/ k_weaken k = false ->
      (forall d idle, k_refresh k = Some (d, idle) -> exists old, peek k sc key = Some old) ->
      fine (l ++ [OAssign i v us]) -> after k l sc -> after k (l ++ [OAssign i v us]) sc' -> m_up (me sc) = true -> underway k sc i key ->
      (k_pointer k = true -> v ∉ m_dropped (me sc)) -> m_steady (me sc') = m_steady (me sc) ->
      peek k sc' key = Some v.
    Proof using Hk Hta Hq.
      intros [Ha1 Ha2] Hms Hpk Hf Ha Ha' Hup Hu Hv Hst. assert (in_flight sc i) as Hin by (destruct Hu as (c & _ & _ & ? & ? & _); by exists c).
      destruct (assign_mini l i v us sc sc' Hf Ha Ha' Hup Hin Hv) as (sa & sa' & δ & R & R' & S & S' & T & T' & Rd & HM).
      destruct (under_open sa sc i key S Hu) as (e & Ho). pose proof (look_up sa sc S) as U. rewrite Hup in U. symmetry in U.
      destruct (done_alone sa sa' i e key (Some v) δ Rd U Ho HM) as (el & p & cn & x & Te & Em & Ep & Ek & Hcn & Te' & _ & _ & Hoth).
      pose proof (n_up _ _ _ _ HM) as U'. rewrite U in U'.
      destruct (ready_facts k sa Rd U) as (_ & _ & HJ & _).
      destruct (assigned_facts k (me sa') (bool_decide (is_Some (Some v))) (with_map (with_cn el cn) (settled k p v))) as (Ek' & Em' & _).
      rewrite (peek_look k Hta sa' sc' key S' T'), (look_up sa' sc' S'), U'.
      rewrite (alone_look sa' key e _ false T' U' Te' ltac:(by rewrite Ek') Hoth). unfold vis. rewrite Em'. simpl.
      pose proof Hf as [Hf1 _]%fine_app. pose proof (run_strong l Hms sa Hf1 R U e el p Te Em) as Hw. unfold settled. rewrite Ep, Hw.
      assert (reached (m_steady (me sa')) cn = false) as Hrc.
      { apply not_true_is_false. intros Hr. destruct Hcn as (_ & _ & H3). destruct (j_pc _ _ HJ e el Te ltac:(unfold el_pending; by rewrite Em)) as (_ & _ & Ecn & _).
        destruct (H3 _ Hr) as [Hr'|(o & eo & Hoin & Heo & Hr')]; [by rewrite Ecn in Hr'|].
        destruct (k_refresh k) as [[d idle]|] eqn:Hrf; [|destruct (j_cn _ _ HJ e el Hrf Te) as [_ E]; rewrite Em in E; simpl in E; rewrite E in Hoin; by apply elem_of_nil in Hoin].
        destruct (Hpk d idle eq_refl) as (old & Hp). destruct (peek_val sa sc key old S T Hp) as [_ Hl].
        destruct (found_old sa sa' i e key old (Some v) δ Rd U Ho HM Hl) as (el1 & p1 & y & ey & Te1 & Em1 & E1 & _ & Ty & _ & Hlt).
        assert (el1 = el) as -> by congruence. assert (p1 = p) as -> by congruence. rewrite E1 in Hoin. apply elem_of_list_singleton in Hoin as ->.
        apply tv_elim in Ty as (_ & ey0 & Hey & ->). assert (eo = ey0) as -> by congruence. unfold late in Hlt. simpl in Hlt.
        rewrite (srel_me _ _ S'), Hst, <-(srel_me _ _ S) in Hr'. rewrite Hr', orb_true_r in Hlt. done. }
      assert (late (me sa') (assigned k (me sa') true (with_map (with_cn el cn) (MVal v))) = false) as ->; [|done].
      destruct (j_pc _ _ HJ e el Te ltac:(unfold el_pending; by rewrite Em)) as (Exw & Exs & _ & _).
      by apply assigned_ontime.
    Qed.

    (** ** Time passes *)
    Lemma advance_run l dw ds (s s' : sta) : run k l st_init = Ok s -> run k (l ++ [OAdvance dw ds]) st_init = Ok s' -> m_up (me s) = true ->
      s' = with_me s (set_clocks (me s) (m_wall (me s) + if k_steady k then Z.max 0 dw else dw)%Z (m_steady (me s) + Z.max 0 ds)%Z).
    Proof using.
      intros R R' U. apply run_snoc in R' as (s1 & r & R1 & E). assert (s1 = s) as -> by congruence. rewrite step_eq in E. unfold step_with in E. rewrite U in E. simpl in E. by injection E as <- _.
    Qed.
    (** the new value does not outlive the old one if nobody uses it *)
    Lemma not_prolonged l i v us dw ds sc sd se key old : k_max_age k = None ->
      fine (l ++ [OAssign i v us; OAdvance dw ds]) -> after k l sc -> after k (l ++ [OAdvance dw ds]) sd -> after k (l ++ [OAssign i v us; OAdvance dw ds]) se ->
      underway k sc i key -> peek k sc key = Some old -> (k_pointer k = true -> v ∉ m_dropped (me sc)) ->
      peek k sd key = None -> peek k se key = None.
    Proof using Hk Hta Hq.
      intros Hma Hf Ha Hd He Hu Hp Hv Hpd. pose proof Hf as Hf0.
      assert (l ++ [OAssign i v us; OAdvance dw ds] = (l ++ [OAssign i v us]) ++ [OAdvance dw ds]) as El by (by rewrite <-app_assoc). rewrite El in *.
      pose proof Hf as [Hf1 _]%fine_app. pose proof Hf1 as [Hf2 _]%fine_app.
      assert (fine (l ++ [OAdvance dw ds])) as Hfd by (apply fine_app; split; [done|by apply fine_one]).
      destruct (after_abs k Hk _ _ Hfd Hd) as (sd' & Rd & Sd & Td & _). destruct (after_abs k Hk _ _ Hf He) as (se' & Re & Se & Te & _).
      assert (in_flight sc i) as Hin by (destruct Hu as (c & _ & _ & ? & ? & _); by exists c).

      assert (exists sc1, after k (l ++ [OAssign i v us]) sc1) as (sc1 & Ha1).
      { pose proof Re as (s1 & r & R1 & _)%run_snoc. destruct (run_c k _ st_init _ st_init (h_init _ _ _ comp_ptr_sim) R1) as (s2 & C2 & _). by exists s2. }
      destruct (after_abs k Hk l sc Hf2 Ha) as (sa0 & R0 & S0 & T0 & _). destruct (peek_val sa0 sc key old S0 T0 Hp) as [U0 Hl0]. pose proof (look_up sa0 sc S0) as Hup. rewrite U0 in Hup.
      destruct (assign_mini l i v us sc sc1 Hf1 Ha Ha1 Hup Hin Hv) as (sa & sa' & δ & R & R' & S & S' & T & T' & Rdy & HM). assert (sa0 = sa) as -> by congruence. clear S0 T0 R0.
      destruct (under_open sa sc i key S Hu) as (e & Ho).
      destruct (done_alone sa sa' i e key (Some v) δ Rdy U0 Ho HM) as (el & p & cn & x & Tve & Em & Ep & Ek & Hcn & Tve' & _ & Hold & Hoth).
      destruct (found_old sa sa' i e key old (Some v) δ Rdy U0 Ho HM Hl0) as (el1 & p1 & y & ey & Te1 & Em1 & E1 & Hne & Ty & Emy & Hlt).
      assert (el1 = el) as -> by congruence. assert (p1 = p) as -> by congruence.
      pose proof (n_up _ _ _ _ HM) as U'. rewrite U0 in U'. destruct (ready_facts k sa Rdy U0) as (_ & _ & HJ & _).
      pose proof (advance_run _ dw ds _ _ R Rd U0) as Esd. pose proof (advance_run _ dw ds _ _ R' Re U') as Ese.
      destruct (n_clk _ _ _ _ HM) as (Hst & _).
      (* the old value is late at [sd] *)
      destruct (j_val _ _ HJ y ey Hma Ty ltac:(by rewrite Emy)) as [Exw Exs].
      assert (reached (m_steady (me sd')) (el_cn ey) = true) as Hcy.
      { destruct (look_firm k sa key old false Hta Hq HJ Hl0) as (y' & ey' & HF & Hlt'); [by apply (ready_facts k sa Rdy U0)|].
        pose proof HF as (Ty' & Emy' & Eky' & _).
        assert (y' = y) as ->.
        { assert (y' <> e) as Hne' by (intros ->; congruence). pose proof (Hold y' ey' Hne' Ty' Eky' ltac:(by rewrite Emy')) as H. rewrite E1 in H. by apply elem_of_list_singleton in H. }
        assert (ey' = ey) as -> by congruence. apply not_false_is_true. intros Hn.
        assert (firm k false sd' key old y ey) as HFd.
        { destruct HF as (TF & EmF & EkF & l1 & l2 & Eh & Hdd). rewrite Esd. split_and!; try done. exists l1, l2. split; [done|]. intros z ez Hz Tz Ekz. change (tv sa z = Some ez) in Tz.
          destruct (Hdd z ez Hz Tz Ekz) as [?|(_ & Hp1 & Hp2)]; [by left|]. left. apply not_true_is_false. intros Hhz.
          assert (z <> e) as Hze. { intros ->. unfold el_pending in Hp1. assert (ez = el) as -> by congruence. by rewrite Em in Hp1. }
          pose proof (Hold z ez Hze Tz Ekz Hhz) as H. rewrite E1 in H. apply elem_of_list_singleton in H as ->. congruence. }
        rewrite (peek_look k Hta sd' sd key Sd Td), (look_up sd' sd Sd) in Hpd.
        rewrite (firm_look k false sd' key old y ey false HFd) in Hpd; [|unfold late; rewrite Exw, Exs, Hn; done].
        assert (m_up (me sd') = true) as Hupd by (by rewrite Esd). by rewrite Hupd in Hpd. }
      rewrite (peek_look k Hta se' se key Se Te), (look_up se' se Se). assert (m_up (me se') = true) as Hupe by (by rewrite Ese). rewrite Hupe.
      assert (forall z, tv se' z = tv sa' z) as Htv by (by rewrite Ese).
      destruct (assigned_facts k (me sa') (bool_decide (is_Some (Some v))) (with_map (with_cn el cn) (settled k p v))) as (Ek' & Em' & _).
      rewrite (alone_look se' key e _ false Te Hupe ltac:(by rewrite Htv) ltac:(by rewrite Ek')) by (intros z ez; rewrite Htv; apply Hoth).
      unfold vis. rewrite Em'. simpl. unfold settled. rewrite Ep. destruct (p_weak p); [by destruct (k_pointer k)|].
      assert (late (me se') (assigned k (me sa') true (with_map (with_cn el cn) (MVal v))) = true) as ->; [|done].
      assert (reached (m_steady (me se')) cn = true) as Hcr.
      { destruct Hcn as (_ & H2 & _). destruct (k_refresh k) as [[dl idle]|] eqn:Hrf; [|destruct (j_cn _ _ HJ e el Hrf Tve) as [_ E]; rewrite Em in E; simpl in E; congruence].
        apply tv_elim in Ty as (_ & ey0 & Hey & ->). simpl in *.
        specialize (H2 ltac:(done) y ey0 ltac:(rewrite E1; by apply elem_of_list_singleton) Hey). rewrite Ese. simpl. rewrite Esd in Hcy. simpl in Hcy.
        destruct (el_cn ey0) as [c|]; [|done]. destruct cn as [c'|]; [|done]. simpl in H2, Hcy |- *. apply bool_decide_eq_true in Hcy. apply bool_decide_eq_true. lia. }
      unfold late. apply orb_true_intro. right. unfold assigned. rewrite Hma.
      assert (match k_err_age k with Some _ | _ => with_map (with_cn el cn) (MVal v) end = with_map (with_cn el cn) (MVal v)) as Eer by (by destruct (k_err_age k)). cbv zeta. rewrite Eer.
      destruct (k_refresh k) as [[dl idle]|]; [|exact Hcr]. destruct (bool_decide (idle = 0%Z)); [exact Hcr|].
      change (reached (m_steady (me se')) (tp_min cn (Some (m_steady (me sa') + idle)%Z)) = true). by rewrite AbsComp.reached_min, Hcr.
    Qed.
    (** a refresh that fails takes the old value with it *)
    Lemma failed_refresh l i x us sc sc' key : fine (l ++ [OFail i x us]) -> after k l sc -> after k (l ++ [OFail i x us]) sc' -> m_up (me sc) = true -> underway k sc i key ->
      peek k sc' key = None.
    Proof using Hk Hta Hq.
      intros Hf Ha Ha' Hup Hu. assert (in_flight sc i) as Hin by (destruct Hu as (c & _ & _ & ? & ? & _); by exists c).
      destruct (fail_mini l i x us sc sc' Hf Ha Ha' Hup Hin) as (sa & sa' & δ & R & R' & S & S' & T & T' & Rd & HM).
      destruct (under_open sa sc i key S Hu) as (e & Ho). pose proof (look_up sa sc S) as U. rewrite Hup in U. symmetry in U.
      destruct (done_alone sa sa' i e key None δ Rd U Ho HM) as (el & p & cn & y & Te & Em & Ep & Ek & Hcn & Te' & _ & _ & Hoth).
      pose proof (n_up _ _ _ _ HM) as U'. rewrite U in U'.
      destruct (assigned_facts k (me sa') (bool_decide (is_Some (@None Z))) (with_map (with_cn el cn) (m_settle_error (k_pointer k) y p))) as (Ek' & Em' & _).
      rewrite (peek_look k Hta sa' sc' key S' T'), (look_up sa' sc' S'), U'.
      rewrite (alone_look sa' key e _ false T' U' Te' ltac:(by rewrite Ek') Hoth). unfold vis. rewrite Em'. simpl. unfold m_settle_error, m_dead. by destruct (p_exp p || p_weak p), (k_pointer k).
    Qed.

    (** ** A value is served for as long as it would be without further operations *)
    Lemma no_gap l1 dw ds l2 sc1 sc2 sc3 key v : spared k sc1 sc3 key ->
      fine (l1 ++ l2) -> k_resolver k = RAsync \/ forallb (plain_op k) l1 = true ->
      after k l1 sc1 -> after k (l1 ++ [OAdvance dw ds]) sc2 -> after k (l1 ++ l2) sc3 ->
      peek k sc1 key = Some v -> peek k sc2 key = Some v ->
      ODestroy ∉ l2 -> existsb (spoils k key) l2 = false -> k_steady k = true \/ existsb sets_back l2 = false ->
      (k_refresh k = None \/ forall l' o' l'' s, l2 = l' ++ o' :: l'' -> after k (l1 ++ l') s -> undisturbed k s key o') ->
      (m_wall (me sc3) <= m_wall (me sc2))%Z -> (m_steady (me sc3) <= m_steady (me sc2))%Z -> peek k sc3 key = Some v.
    Proof using Hk Hta Hq.
      intros Hev Hf Hpl Ha1 Ha2 Ha3 Hp1 Hp2 Hd Hsp Hb Hc Hw Hs. pose proof Hf as [Hf1 Hf2]%fine_app.
      assert (fine (l1 ++ [OAdvance dw ds])) as Hfa by (apply fine_app; split; [done|by apply fine_one]).
      destruct (after_abs k Hk l1 sc1 Hf1 Ha1) as (s1 & R1 & S1 & T1 & _). destruct (after_abs k Hk _ sc2 Hfa Ha2) as (s2 & R2 & S2 & T2 & _).
      destruct (after_abs k Hk _ sc3 Hf Ha3) as (s3 & R3 & S3 & T3 & _).
      rewrite <-(srel_me _ _ S3), <-(srel_me _ _ S2) in Hw, Hs.
      destruct (peek_val s1 sc1 key v S1 T1 Hp1) as [U1 Hl1]. destruct (peek_val s2 sc2 key v S2 T2 Hp2) as [U2 Hl2].
      assert (ready k s1) as Rd1. { apply (ready_run k Hk Hta Hq l1 st_init); [apply ready_init|done|done]. }
      destruct (ready_facts k s1 Rd1 U1) as (I1 & Tn1 & J1 & Hua).
      assert (uq k none s1) as Huq. { destruct Hpl as [?|Hpl]; [by apply Hua|]. apply (run_uq k Hk Hq Hta l1 st_init s1 (top_init k) Hf1 Hpl R1); [intros _; apply uq_init|done]. }
      destruct (look_firm k s1 key v false Hta Hq J1 Hl1 Hua) as (x & el & HF & Hnl). pose proof HF as (Tx & Em & Ek & _).
      pose proof (advance_run _ dw ds _ _ R1 R2 U1) as E2.
      assert (late (me s2) el = false) as Hl.
      { destruct (look_val_entry s2 key v false Hl2) as (y & ey & Ty & Eky & Emy & Hlt). rewrite E2 in Ty. change (tv s1 y = Some ey) in Ty.
        destruct (decide (y = x)) as [->|Hne]; [by assert (ey = el) as -> by congruence|]. exfalso.
        assert (k_eq k (el_key ey) (el_key el) = true) as Ekk. { destruct Hq as (_ & Hsym & Htr & _). eapply Htr; [exact Eky|]. by apply Hsym. }
        destruct (Huq y x ey el Ty Tx Hne Ekk) as [(en & q & Tn & Eq & _)|[(en & q & Tn & Eq & _)|[[]|[]]]]; [by rewrite Emy|by rewrite Em|congruence|congruence]. }
      apply (spared_un k _ _ _ _ key S1 S3) in Hev.
      rewrite run_app, R1 in R3. unfold rbind in R3.
      destruct (run_clk k Hk l2 s1 s3 T1 U1 Hf2 Hd Hb R3) as (U3 & C1 & C2).
      assert (forall m, (m_wall m <= m_wall (me s2))%Z -> (m_steady m <= m_steady (me s2))%Z -> late m el = false) as Hlate.
      { intros m M1 M2. apply not_true_is_false. intros Hm. unfold late in Hm, Hl. rewrite !orb_true_iff in Hm. rewrite !orb_false_iff in Hl. destruct Hl as [[L1 L2] L3].
        destruct Hm as [[Hm|Hm]|Hm]; eapply reached_le in Hm; try eassumption; congruence. }
      destruct (k_refresh k) as [[dl idle]|] eqn:Hrf.
      - destruct Hc as [?|Hc]; [done|].
        pose proof (Hlate (me s3) Hw Hs) as Hl3. unfold late in Hl3. rewrite !orb_false_iff in Hl3. destruct Hl3 as [[L1 L2] L3].
        assert (exists B, (m_steady (me s3) < B)%Z /\ used (fun z => z = B) el /\ (idle <> 0%Z -> (B <= m_steady (me s1) + idle)%Z)) as (B & HB1 & HB2 & HB3).
        { destruct (el_cn el) as [c|] eqn:Ec.
          - simpl in L3. apply bool_decide_eq_false in L3. exists c. split; [lia|]. split; [intros B c' ->; rewrite Ec; by intros [= ->]|]. intros Hid.
            destruct (run_idling k Hk dl idle l1 Hrf Hid s1 Hf1 R1 U1 x el v Tx ltac:(by rewrite Em)) as (c' & Ec' & ?). by assert (c' = c) as -> by congruence.
          - exists (m_steady (me s3) + 1)%Z. split; [lia|]. split; [intros B c _; by rewrite Ec|]. intros Hid.
            destruct (run_idling k Hk dl idle l1 Hrf Hid s1 Hf1 R1 U1 x el v Tx ltac:(by rewrite Em)) as (c' & Ec' & ?). congruence. }
        destruct (stay_run k Hk Hq Hta dl idle Hrf key v x B l2 s1 s3 el) as (el' & HF' & (K1 & K2 & _) & Hu'); try done; [by apply (from_DQ k Hk dl idle Hrf l1)|by apply (calm_run k Hk dl idle Hrf l1)|].
        apply (stays_end k Hta key v x el' B s3 sc3 S3 T3 U3 HF'); [|lia|done]. unfold timely. by rewrite K1, K2.
      - destruct (keep_run k Hk Hq Hta Hrf key v x l2 false s1 s3 el) as (_ & el' & HF' & D'); try done.
        + intros o Ho. destruct Hb as [?|Hb]; [by left|right; left]. apply not_true_is_false. intros Hso. apply not_false_iff_true in Hso. apply Hso.
          apply not_true_is_false. intros Hso'. assert (existsb sets_back l2 = true); [|congruence]. apply existsb_exists. exists o. by split; [apply elem_of_list_In|].
        + intros la lb sx -> Rx. apply fine_app in Hf2 as [Hfa1 Hfb1]. rewrite existsb_app in Hb.
          assert (ODestroy ∉ la /\ ODestroy ∉ lb) as [Hda Hdb] by (split; intros ?; apply Hd, elem_of_app; auto).
          assert ((k_steady k = true \/ existsb sets_back la = false) /\ (k_steady k = true \/ existsb sets_back lb = false)) as [Hba Hbb].
          { rewrite orb_false_iff in Hb. tauto. }
          destruct (run_clk k Hk la s1 sx T1 U1 Hfa1 Hda Hba Rx) as (Ux & _). destruct (top_run k Hk la s1 T1 Hfa1) as (sx' & Rx' & Tx' & _). assert (sx' = sx) as -> by congruence.
          rewrite run_app, Rx in R3. unfold rbind in R3. destruct (run_clk k Hk lb sx s3 Tx' Ux Hfb1 Hdb Hbb R3) as (_ & W1 & W2). apply Hlate; lia.
        + rewrite (peek_look k Hta s3 sc3 key S3 T3), (look_up s3 sc3 S3), U3. rewrite (firm_look k false s3 key v x el' false HF'); [done|]. rewrite (dls_late _ _ _ D'). by apply Hlate.
    Qed.
  End done.
End refresh.
