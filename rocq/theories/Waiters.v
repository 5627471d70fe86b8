(** Lookups in flight: their waiters stay until the lookup completes. *)
From stdpp Require Import sorting.
From Verif Require Import Base AQueue ATable BasicHashtable QueueProofs BasicHashtableProofs ContainersProofs Mapped Cache CachePtr CacheAbs CompSim CacheSim AbsInv AbsPrim AbsPrim2 AbsSweep AbsOps AbsComp Histories Trace AbsTrace TraceInv Delay AbsTraceCb AbsResolve AbsStep AbsLook Effects Observe Transfer Lookups.

Section waiters.
  Context (k : cfg) (Hk : fine_cfg k).
  Notation srel := (srel comp_abs comp_ptr crel).
  Notation top := (top k).
  Definition opened (s : sta) (i : N) (key : Z) (q : list N) : Prop :=
    exists c el p, m_cbs (me s) !! i = Some c /\ cb_called c = false /\ tv s (cb_el c) = Some el /\ el_map el = MPend p /\
      waits_of (p_cbq p) = q /\ el_key el = key.

  Lemma mini_opened κ s s' i key q : mini k κ s s' -> opened s i key q -> ~ completes κ i ->
    exists q', opened s' i key (q ++ q') /\ forall w, w ∈ q' -> exists b, κ = KWait w b.
  Proof using.
    intros HM (c & el & p & Hc & Hcc & T & Em & Hq & Hkey) Hn.
    assert (exists c', m_cbs (me s') !! i = Some c' /\ cb_el c' = cb_el c /\ cb_called c' = false) as (c' & Hc' & Ee & Hcc').
    { destruct (n_cbs _ _ _ _ HM) as (_ & N1 & N2). destruct (m_cbs (me s') !! i) as [c'|] eqn:E.
      - destruct (N1 i c' E) as [(_ & _ & _ & ? & _)|(c0 & E0 & E1 & [E2|[_ ?]])]; [congruence| |done]. exists c'. split_and!; congruence.
      - rewrite (N2 i c Hc E) in Hcc. done. }
    assert (forall el' p', tv s' (cb_el c) = Some el' -> el_map el' = MPend p' -> waits_of (p_cbq p') = waits_of (p_cbq p) -> el_key el' = el_key el ->
      exists q', opened s' i key (q ++ q') /\ forall w, w ∈ q' -> exists b, κ = KWait w b) as Hd.
    { intros el' p' T' Em' Eq Ek. exists []. split; [|by intros w ?%elem_of_nil]. rewrite app_nil_r. exists c', el', p'. rewrite Ee. split_and!; congruence. }
    assert (tv s' (cb_el c) = tv s (cb_el c) -> exists q', opened s' i key (q ++ q') /\ forall w, w ∈ q' -> exists b, κ = KWait w b) as Hs.
    { intros E. apply (Hd el p); congruence. }
    destruct (n_body _ _ _ _ HM) as [κ _ Hv _ _ _|κ e el0 o T0 Hch T0' Hv _ _|e key' cl mp T0 _ _ _ T0' Hv _ _ _ _|j d e el0 q0 o z cn δ Hd1 Hd2 Hd3 T0 Em0 _ T0' Hv _ _ _ _ Hinj|j d e el0 q0 Hd1 Hd2 Hd3 T0 Em0 T0' Hv _ _ Hinj].
    - apply Hs, Hv.
    - destruct (decide (cb_el c = e)) as [E|E]; [|by apply Hs, Hv]. rewrite E in *. assert (el0 = el) as -> by congruence.
      revert T0'. inversion Hch; subst; intros T0'; try (unfold el_pending in *; rewrite Em in *; done).
      all: try (eapply Hd; [exact T0'|simpl; rewrite Em; done|done|done]).
      + simpl in T0'. unfold m_strengthen in T0'. rewrite Em in T0'. unfold p_strengthen in T0'. destruct (p_exp p) eqn:Ep; (eapply Hd; [exact T0'|done|done|done]).
      + exists [w]. split; [|intros w' ->%elem_of_list_singleton; eauto]. match goal with H : el_map el = MPend ?p1 |- _ => assert (p1 = p) as -> by congruence end.
        eexists c', _, _. split_and!; [done|done|exact T0'|done| |done]. simpl. unfold waits_of. by rewrite map_app, concat_app.
      + match goal with H : el_map el = MPend ?p1 |- _ => assert (p1 = p) as -> by congruence end.
        eapply Hd; [exact T0'|done| |done]. simpl. unfold waits_of. rewrite map_app, concat_app. simpl. by rewrite app_nil_r.
    - apply Hs, Hv. intros E. congruence.
    - assert (cb_el c <> e) as E by (intros E; apply Hn; simpl; symmetry; by eapply Hinj). pose proof (Hv _ E) as E'.
      rewrite T in E'. destruct (decide _); simpl in E'; [|by apply Hs; rewrite T]. eapply Hd; [exact E'|unfold marked; simpl; by rewrite Em|done|done].
    - assert (cb_el c <> e) as E by (intros E; apply Hn; simpl; symmetry; by eapply Hinj). by apply Hs, Hv.
  Qed.
  Lemma okind_completes o κ i : fine_op true o = true -> okind k o κ -> completes κ i -> touches i o = true.
  Proof using.
    induction o as [o IH] using op_ind'. destruct o; simpl; try done; try (by intros _ H HC; repeat destruct H as [->|H]; subst; by try destruct H as (? & -> & ?)); try (by intros _ H HC; destruct κ; try done; repeat destruct H as [H|H]); try (by intros; subst; simpl in *; rewrite bool_decide_true);
      try (by intros _ [-> | ->] HC; simpl in HC; [done|rewrite bool_decide_true]); try (by intros _ [-> |[-> | ->]] HC; simpl in HC; [done|rewrite bool_decide_true|done]).
    - intros [Hf _]%andb_true_iff [->|[->|[_ [(o & -> & _)|(x & Hx & Ho)%anyof_exists]]]] HC; try done.
      apply existsb_exists. exists x. split; [by apply elem_of_list_In|]. apply (Forall_in _ _ _ IH Hx); [exact (forallb_in _ _ _ Hf Hx)|done|done].
    - destruct IH as [IH1 IH2]. intros [Hf1 Hf2]%andb_true_iff [_ [->|[->|[->|[(? & -> & _)|[(x & Hx & Ho)%anyof_exists|(x & Hx & Ho)%anyof_exists]]]]]] HC; try done.
      + apply orb_true_iff. left. apply existsb_exists. exists x. split; [by apply elem_of_list_In|]. apply (Forall_in _ _ _ IH1 Hx); [exact (forallb_in _ _ _ Hf1 Hx)|done|done].
      + apply orb_true_iff. right. apply existsb_exists. exists x. split; [by apply elem_of_list_In|]. apply (Forall_in _ _ _ IH2 Hx); [exact (forallb_in _ _ _ Hf2 Hx)|done|done].
  Qed.
  Lemma top_completes o κ i : fine_op false o = true -> okind k o κ -> completes κ i -> touches i o = true.
  Proof using.
    intros Hf. destruct (match o with OTick _ => true | _ => false end) eqn:Et.
    - destruct o; try done. simpl in *. intros [_ [->|[(? & [->|[-> _]])|[(? & ? & -> & _)|[(x & Hx & (y & Hy & Ho)%anyof_exists)%anyof_exists|(? & ->)]]]]] HC; try done.
      apply existsb_exists. exists x. split; [by apply elem_of_list_In|]. apply existsb_exists. exists y. split; [by apply elem_of_list_In|].
      pose proof (forallb_in _ _ _ Hf Hx) as Hx'. simpl in Hx'. rewrite !andb_true_iff in Hx'. destruct Hx' as ((Hx' & _) & _).
      apply (okind_completes y κ); [exact (forallb_in _ _ _ Hx' Hy)|done|done].
    - destruct (match o with ODestroy => true | _ => false end) eqn:Ed; [by destruct o|]. apply okind_completes. by destruct o.
  Qed.
  Lemma path_opened o n s s' i key q : path k (upto (okind k o) n) s s' -> fine_op false o = true -> touches i o = false -> (i < n)%N ->
    opened s i key q -> exists q', opened s' i key (q ++ q').
  Proof using.
    intros P Hf Ht Hn Ho. apply (path_inv k (upto (okind k o) n) (fun s1 => exists q', opened s1 i key (q ++ q')) s s'); [|done|exists []; by rewrite app_nil_r].
    intros κ s1 s2 HA HM (q1 & Ho1). destruct (mini_opened κ s1 s2 i key (q ++ q1) HM Ho1) as (q2 & Ho2 & _).
    - destruct HA as [HA|(j & -> & Hj)]; [|simpl; lia]. intros HC. pose proof (top_completes o κ i Hf HA HC). congruence.
    - exists (q1 ++ q2). by rewrite app_assoc.
  Qed.
  Lemma opened_lt g s i key q : inv k g s -> opened s i key q -> (i < m_ncb (me s))%N.
  Proof using. intros Hi (c & _ & _ & Hc & _). apply (i_ncb _ _ _ Hi). eauto. Qed.
  Lemma run_opened i key l : forall (s s' : sta) q, top s -> m_up (me s) = true -> fine l -> ODestroy ∉ l -> existsb (touches i) l = false -> run k l s = Ok s' ->
    opened s i key q -> exists q', opened s' i key (q ++ q') /\ m_up (me s') = true.
  Proof using Hk.
    induction l as [|o l IH]; intros s s' q T Hup Hf Hd Ht R Ho; [injection R as <-; exists []; by rewrite app_nil_r|].
    rewrite run_cons in R. unfold fine in Hf. simpl in Hf, Ht. apply andb_true_iff in Hf as [Hf1 Hf2]. apply orb_false_iff in Ht as [Ht1 Ht2].
    assert (o <> ODestroy) as Hn by (intros ->; apply Hd; left).
    destruct (top_step k Hk o s T Hf1) as (s1 & r1 & E1 & T1 & _ & _ & Hu & _). destruct (Hu Hup Hn) as (U1 & P1 & _). rewrite E1 in R. unfold rbind in R.
    destruct (path_opened o _ s s1 i key q P1 Hf1 Ht1 ltac:(destruct T as [Hi _ _]; by eapply opened_lt) Ho) as (q1 & Ho1).
    destruct (IH s1 s' (q ++ q1) T1 U1 Hf2 ltac:(intros ?; apply Hd; by right) Ht2 R Ho1) as (q2 & Ho2 & U2). exists (q1 ++ q2). by rewrite app_assoc.
  Qed.
  Lemma flight_opened (sa : sta) (sc : cache) i : srel sa sc -> top sa -> m_up (me sc) = true -> in_flight sc i ->
    exists key, key_of sc i = Some key /\ opened sa i key (waiting_on sc i).
  Proof using.
    intros S [Hi _ _] Hup (c & Hc & Hcc). unfold key_of, waiting_on. rewrite <-(srel_me _ _ S) in *. rewrite Hc.
    destruct (i_cb _ _ _ Hi i c Hc Hcc) as (Hpr & el & Hel & Hpe); [apply not_elem_of_nil|].
    destruct (i_pin _ _ _ Hi (cb_el c) el Hel Hpe Hup) as [HL|?]; [|done].
    unfold LT in HL. simpl in HL. rewrite (a_tab_None _ (i_up _ _ _ Hi Hup)) in HL. rewrite Hel. exists (el_key el). split; [done|].
    unfold is_pend, el_pending in Hpe. destruct (el_map el) as [p| | | | |] eqn:Em; try done.
    exists c, (with_rc el 0), p. split_and!; try done; [by apply tv_some|]. unfold stored_waiters. by rewrite Em.
  Qed.
  Lemma opened_flight (sa : sta) (sc : cache) i key q : srel sa sc -> opened sa i key q -> in_flight sc i /\ key_of sc i = Some key /\ waiting_on sc i = q.
  Proof using.
    intros S (c & el & p & Hc & Hcc & T & Em & Hq & Hkey). unfold in_flight, key_of, waiting_on. rewrite <-(srel_me _ _ S). rewrite Hc.
    apply tv_elim in T as (_ & el0 & Hel & ->). simpl in *. rewrite Hel. split_and!; [eauto|by subst|]. unfold stored_waiters. by rewrite Em.
  Qed.
  (** ** C23 *)
  Lemma stays_in_flight l1 l2 sc1 sc2 i : fine (l1 ++ l2) -> ODestroy ∉ l2 -> existsb (touches i) l2 = false -> after k l1 sc1 -> after k (l1 ++ l2) sc2 ->
    m_up (me sc1) = true -> in_flight sc1 i -> in_flight sc2 i /\ key_of sc2 i = key_of sc1 i /\ (exists q, waiting_on sc2 i = waiting_on sc1 i ++ q) /\ m_up (me sc2) = true.
  Proof using Hk.
    intros Hf Hd Ht Ha1 Ha2 Hup Hin. pose proof Hf as Hf0. apply fine_app in Hf as [Hf1 Hf2].
    destruct (after_abs k Hk l1 sc1 Hf1 Ha1) as (sa1 & R1 & S1 & T1 & _). destruct (after_abs k Hk _ sc2 Hf0 Ha2) as (sa2 & R2 & S2 & T2 & _).
    rewrite run_app, R1 in R2. unfold rbind in R2. destruct (flight_opened sa1 sc1 i S1 T1 Hup Hin) as (key & Ek & Ho).
    destruct (run_opened i key l2 sa1 sa2 _ T1 ltac:(by rewrite <-(look_up sa1 sc1)) Hf2 Hd Ht R2 Ho) as (q & Ho2 & U2).
    destruct (opened_flight sa2 sc2 i key _ S2 Ho2) as (H1 & H2 & H3). split_and!; [done|congruence|by exists q|by rewrite (look_up sa2 sc2)].
  Qed.
  Lemma completed l i v us sc sc' : fine (l ++ [OAssign i v us]) -> after k l sc -> after k (l ++ [OAssign i v us]) sc' -> m_up (me sc) = true -> in_flight sc i ->
    (k_pointer k = true -> v ∉ m_dropped (me sc)) ->
    answer k sc (OAssign i v us) = Some (RetBool true) /\
    m_log (me sc') = rev (map (fun w => EvCall w v 0 false) (waiting_on sc i)) ++ m_log (me sc) /\ ~ in_flight sc' i.
  Proof using Hk.
    intros Hf Ha Ha' Hup Hin Hv. destruct (after_snoc k Hk l (OAssign i v us) sc sc' Hf Ha Ha') as (sa & sa' & r & S & S' & T & T' & E & Ec).
    destruct (flight_opened sa sc i S T Hup Hin) as (key & _ & Ho). destruct Ho as (c & el & p & Hc & Hcc & Tv & Em & Hq & _).
    rewrite step_eq in E. unfold step_with in E. apply fine_app in Hf as [_ Hf%fine_one]. simpl in Hf.
    pose proof (look_up sa sc S) as U. rewrite <-U, Hup in E. simpl in E. destruct T as [Hi _ _].
    destruct (cb_assign_ends k (drift_runs us) g0 sa i v (map (run_nested k) us) Hi) as (s1 & r1 & E1 & _ & _ & _ & _ & Hto); try done; [apply not_elem_of_nil|by apply quiet_runs|].
    rewrite E1 in E. injection E as -> ->. destruct (Hto ltac:(congruence)) as [Ht1 Ht2].
    assert (r = RetBool true) as -> by (apply (Ht1 c); try done; unfold holds; destruct (k_pointer k); [|done]; simpl; apply bool_decide_eq_true; rewrite (srel_me _ _ S); by apply Hv).
    destruct (Ht2 eq_refl) as (c1 & el1 & p1 & Hc1 & _ & Hel1 & Em1 & El & Ecb). assert (c1 = c) as -> by congruence.
    apply tv_elim in Tv as (_ & el0 & Hel & ->). simpl in Em. assert (el1 = el0) as -> by congruence. assert (p1 = p) as -> by congruence. split_and!.
    - unfold answer. by rewrite Ec.
    - rewrite <-Hq. rewrite <-(srel_me _ _ S), <-(srel_me _ _ S'). exact El.
    - intros (d & Hd & Hdc). rewrite <-(srel_me _ _ S'), Ecb, lookup_insert in Hd. injection Hd as <-. done.
  Qed.
  Lemma failed l i x us sc sc' : fine (l ++ [OFail i x us]) -> after k l sc -> after k (l ++ [OFail i x us]) sc' -> m_up (me sc) = true -> in_flight sc i ->
    answer k sc (OFail i x us) = Some (RetBool true) /\
    m_log (me sc') = rev (map (fun w => EvCall w 0 x false) (waiting_on sc i)) ++ m_log (me sc) /\ ~ in_flight sc' i.
  Proof using Hk.
    intros Hf Ha Ha' Hup Hin. destruct (after_snoc k Hk l (OFail i x us) sc sc' Hf Ha Ha') as (sa & sa' & r & S & S' & T & T' & E & Ec).
    destruct (flight_opened sa sc i S T Hup Hin) as (key & _ & Ho). destruct Ho as (c & el & p & Hc & Hcc & Tv & Em & Hq & _).
    rewrite step_eq in E. unfold step_with in E. apply fine_app in Hf as [_ Hf%fine_one]. simpl in Hf.
    pose proof (look_up sa sc S) as U. rewrite <-U, Hup in E. simpl in E. destruct T as [Hi _ _].
    destruct (cb_fail_ends k (drift_runs us) g0 sa i x (map (run_nested k) us) Hi) as (s1 & r1 & E1 & _ & _ & _ & _ & Hto); try done; [apply not_elem_of_nil|by apply quiet_runs|].
    rewrite E1 in E. injection E as -> ->. destruct (Hto ltac:(congruence)) as [Ht1 Ht2].
    assert (r = RetBool true) as -> by (by apply (Ht1 c)).
    destruct (Ht2 eq_refl) as (c1 & el1 & p1 & Hc1 & _ & Hel1 & Em1 & El & Ecb). assert (c1 = c) as -> by congruence.
    apply tv_elim in Tv as (_ & el0 & Hel & ->). simpl in Em. assert (el1 = el0) as -> by congruence. assert (p1 = p) as -> by congruence. split_and!.
    - unfold answer. by rewrite Ec.
    - rewrite <-Hq. rewrite <-(srel_me _ _ S), <-(srel_me _ _ S'). exact El.
    - intros (d & Hd & Hdc). rewrite <-(srel_me _ _ S'), Ecb, lookup_insert in Hd. injection Hd as <-. done.
  Qed.
  (** ** C27 *)
  Definition closed (s : sta) (i : N) : Prop := (i < m_ncb (me s))%N /\ forall c, m_cbs (me s) !! i = Some c -> cb_called c = true.
  Lemma mini_closed κ s s' i : mini k κ s s' -> closed s i -> closed s' i.
  Proof using.
    intros HM [Hn Hc]. destruct (n_cbs _ _ _ _ HM) as (N0 & N1 & _). split; [lia|]. intros c' E.
    destruct (N1 i c' E) as [(? & _)|(c & E0 & _ & [-> |[? _]])]; [lia|by apply Hc|done].
  Qed.
  Lemma run_closed i l : forall (s s' : sta), top s -> fine l -> run k l s = Ok s' -> closed s i -> m_up (me s') = true -> closed s' i.
  Proof using Hk.
    induction l as [|o l IH]; intros s s' T Hf R Hc Hup'; [by injection R as <-|].
    rewrite run_cons in R. unfold fine in Hf. simpl in Hf. apply andb_true_iff in Hf as [Hf1 Hf2].
    destruct (top_step k Hk o s T Hf1) as (s1 & r1 & E1 & T1 & _ & _ & Hu & Hd). rewrite E1 in R. unfold rbind in R.
    assert (forall l (s s' : sta), top s -> fine l -> run k l s = Ok s' -> m_up (me s) = false -> m_up (me s') = false) as Hdown.
    { clear -Hk. induction l as [|o l IH]; intros s s' T Hf R Hup; [by injection R as <-|]. rewrite run_cons in R. unfold fine in Hf. simpl in Hf. apply andb_true_iff in Hf as [Hf1 Hf2].
      destruct (top_step k Hk o s T Hf1) as (s1 & r1 & E1 & T1 & _ & _ & Hu & Hd). rewrite E1 in R. unfold rbind in R. eapply IH; eauto. }
    destruct (m_up (me s1)) eqn:Hup1; [|rewrite (Hdown l s1 s' T1 Hf2 R Hup1) in Hup'; done].
    destruct (m_up (me s)) eqn:Hup; [|by specialize (Hd eq_refl)].
    assert (o <> ODestroy) as Hn.
    { intros ->. destruct T as [Hi _ _]. destruct (destroy_ends k g0 s Hi eq_refl) as (s2 & E2 & _ & _ & _ & U2 & _).
      rewrite step_eq in E1. unfold step_with in E1. rewrite Hup in E1. change (negb true) with false in E1. cbv beta iota in E1. rewrite E2 in E1. unfold rbind in E1. injection E1 as <- <-. congruence. }
    apply (IH s1 s' T1 Hf2 R); [|done]. destruct (Hu eq_refl Hn) as (_ & P & _).
    apply (path_inv k (upto (okind k o) (m_ncb (me s))) (fun s2 => closed s2 i) s s1); [|done|done]. intros κ s2 s3 _. apply mini_closed.
  Qed.
  Definition completion (i : N) (o : op) : Prop := (exists v us, o = OAssign i v us) \/ (exists x us, o = OFail i x us).
  Lemma completion_closed o i (s s' : sta) r : top s -> fine_op false o = true -> completion i o -> step k false o s = Ok (s', r) -> r = RetBool true -> closed s' i.
  Proof using Hk.
    intros T Hf Ho E ->. destruct (m_up (me s)) eqn:Hup.
    - assert (exists c el p v x, m_cbs (me s) !! i = Some c /\ cb_called c = false /\ m_els (me s) !! cb_el c = Some el /\ el_map el = MPend p /\
         m_log (me s') = calls v x (p_cbq p) ++ m_log (me s) /\ m_cbs (me s') = <[i := Cbk (cb_el c) true (cb_own c) (cb_kept c)]> (m_cbs (me s))) as (c & el & p & v & x & Hc & _ & _ & _ & _ & Ecb).
      { destruct T as [Hi _ _]. rewrite step_eq in E. unfold step_with in E. rewrite Hup in E. destruct Ho as [(v & us & ->)|(x & us & ->)]; simpl in E, Hf.
        - destruct (cb_assign_ends k (drift_runs us) g0 s i v (map (run_nested k) us) Hi) as (s1 & r1 & E1 & _ & _ & _ & _ & Hto); try done; [apply not_elem_of_nil|by apply quiet_runs|].
          rewrite E1 in E. injection E as -> ->. destruct (Hto Hup) as [_ Ht]. destruct (Ht eq_refl) as (c & el & p & ?). exists c, el, p, v, 0%Z. done.
        - destruct (cb_fail_ends k (drift_runs us) g0 s i x (map (run_nested k) us) Hi) as (s1 & r1 & E1 & _ & _ & _ & _ & Hto); try done; [apply not_elem_of_nil|by apply quiet_runs|].
          rewrite E1 in E. injection E as -> ->. destruct (Hto Hup) as [_ Ht]. destruct (Ht eq_refl) as (c & el & p & ?). exists c, el, p, 0%Z, x. done. }
      split; [|rewrite Ecb, lookup_insert; by intros c' [= <-]].
      destruct (top_step k Hk o s T Hf) as (s1 & r1 & E1 & T1 & _). assert (s1 = s') as -> by congruence. destruct T1 as [Hi1 _ _]. apply (i_ncb _ _ _ Hi1). rewrite Ecb, lookup_insert. eauto.
    - exfalso. rewrite step_eq in E. unfold step_with in E. rewrite Hup in E. destruct Ho as [(v & us & ->)|(x & us & ->)]; simpl in E; unfold cb_assign, cb_fail in E; destruct (m_cbs (me s) !! i) as [c|]; try done;
        destruct (cb_called c) eqn:Ec; try done; rewrite Hup in E; destruct (cb_cancel s i c) as [[? ?]| | |]; simpl in E; congruence.
  Qed.
  Lemma closed_completion {C} o i (s s' : @st C) r : (m_up (me s) = true -> (i < m_ncb (me s))%N /\ forall c, m_cbs (me s) !! i = Some c -> cb_called c = true) -> completion i o -> step k false o s = Ok (s', r) -> r <> RetBool true /\ (m_up (me s) = true -> s' = s).
  Proof using.
    intros Hc Ho E. rewrite step_eq in E. unfold step_with in E.
    assert (forall (s1 : st) b, Ok (s1, b) = Ok (s', r) -> b <> RetBool true -> (m_up (me s) = true -> s1 = s) -> r <> RetBool true /\ (m_up (me s) = true -> s' = s)) as Hd.
    { intros s1 b [= -> ->]. done. }
    destruct Ho as [(v & us & ->)|(x & us & ->)]; rewrite andb_false_r in E; unfold cb_assign, cb_fail in E.
    - destruct (m_cbs (me s) !! i) as [c|] eqn:Hi; [|by apply (Hd _ _ E)]. destruct (cb_called c) eqn:Ec; [by apply (Hd _ _ E)|].
      destruct (m_up (me s)) eqn:Hup; [destruct (Hc eq_refl) as [_ Hc']; rewrite (Hc' c eq_refl) in Ec; done|].
      destruct (cb_cancel s i c) as [[s1 b]| | |]; unfold rbind in E; try done. by apply (Hd _ _ E).
    - destruct (m_cbs (me s) !! i) as [c|] eqn:Hi; [|by apply (Hd _ _ E)]. destruct (cb_called c) eqn:Ec; [by apply (Hd _ _ E)|].
      destruct (m_up (me s)) eqn:Hup; [destruct (Hc eq_refl) as [_ Hc']; rewrite (Hc' c eq_refl) in Ec; done|].
      destruct (cb_cancel s i c) as [[s1 b]| | |]; unfold rbind in E; try done. by apply (Hd _ _ E).
  Qed.
  Lemma completes_once l1 l2 o1 o2 i sc1 sc2 sc3 : fine (l1 ++ o1 :: l2 ++ [o2]) -> completion i o1 -> completion i o2 ->
    after k l1 sc1 -> answer k sc1 o1 = Some (RetBool true) -> after k (l1 ++ o1 :: l2) sc2 -> after k (l1 ++ o1 :: l2 ++ [o2]) sc3 ->
    answer k sc2 o2 <> Some (RetBool true) /\ (m_up (me sc2) = true -> sc3 = sc2).
  Proof using Hk.
    intros Hf Ho1 Ho2 Ha1 An Ha2 Ha3. assert (fine ((l1 ++ [o1]) ++ l2)) as Hf12.
    { apply (fine_app (l1 ++ [o1]) l2). replace (l1 ++ o1 :: l2 ++ [o2]) with (((l1 ++ [o1]) ++ l2) ++ [o2]) in Hf by (by rewrite <-!app_assoc). apply fine_app in Hf as [Hf _]. by apply fine_app in Hf. }
    replace (l1 ++ o1 :: l2 ++ [o2]) with (((l1 ++ [o1]) ++ l2) ++ [o2]) in * by (by rewrite <-!app_assoc).
    replace (l1 ++ o1 :: l2) with ((l1 ++ [o1]) ++ l2) in * by (by rewrite <-!app_assoc).
    destruct (after_snoc k Hk _ o2 sc2 sc3 Hf Ha2 Ha3) as (sa2 & sa3 & r & S2 & S3 & T2 & T3 & E & Ec).
    pose proof Hf12 as Hf12'. apply fine_app in Hf12' as [Hf1 Hf2]. apply after_app in Ha2 as Ha2'. destruct Ha2' as (sc1' & Ha1' & R12).
    destruct (after_snoc k Hk l1 o1 sc1 sc1' Hf1 Ha1 Ha1') as (sa1 & sa1' & r1 & S1 & S1' & T1 & T1' & E1 & Ec1).
    unfold answer in An. rewrite Ec1 in An. injection An as ->. apply fine_app in Hf1 as [_ Hf1%fine_one].
    pose proof (completion_closed o1 i sa1 sa1' _ T1 Hf1 Ho1 E1 eq_refl) as Hcl.
    destruct (after_abs k Hk (l1 ++ [o1]) sc1' ltac:(by apply fine_app in Hf12 as [? _]) Ha1') as (sb1 & Rb1 & Sb1 & Tb1 & _).
    destruct (after_abs k Hk _ sc2 Hf12 Ha2) as (sa2' & Rb2 & S2' & T2' & _). rewrite run_app, Rb1 in Rb2. unfold rbind in Rb2.
    assert (closed sb1 i) as Hclb. { unfold closed in *. replace (me sb1) with (me sa1'); [done|]. rewrite (srel_me _ _ Sb1), (srel_me _ _ S1'). done. }
    assert (m_up (me sa2') = true -> closed sa2' i) as Hcl2. { intros Hup. by apply (run_closed i l2 sb1 sa2'). }
    destruct (closed_completion o2 i sc2 sc3 r) as [Hr Hs]; [rewrite <-(srel_me _ _ S2'); exact Hcl2|done|done|].
    split; [unfold answer; rewrite Ec; congruence|done].
  Qed.
End waiters.
