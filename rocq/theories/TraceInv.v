(** Facts about table entries that every elementary change keeps. *)
From stdpp Require Import sorting.
From Verif Require Import Base AQueue ATable BasicHashtable Mapped Cache CacheAbs AbsInv AbsPrim AbsPrim2 AbsOps AbsComp Trace AbsTrace Histories.

Lemma olds_iff ps o : o ∈ olds_of ps <-> exists n, PRefresh n o ∈ ps.
Proof.
  split; [apply olds_of_elem|]. intros (n & H). induction ps as [|p ps IH]; [by apply not_elem_of_nil in H|].
  unfold olds_of. simpl. rewrite elem_of_app. apply elem_of_cons in H as [<-|H]; [left; simpl; left|right; by apply IH].
Qed.
Lemma olds_app a b o : o ∈ olds_of (a ++ b) <-> o ∈ olds_of a \/ o ∈ olds_of b.
Proof. unfold olds_of. by rewrite map_app, concat_app, elem_of_app. Qed.

Lemma sorted_filter (P : N -> Prop) `{forall x, Decision (P x)} (l : list N) : StronglySorted N.lt l -> StronglySorted N.lt (filter P l).
Proof.
  induction 1 as [|x l Hl IH Hx]; [constructor|]. rewrite filter_cons. case_decide; [|done]. constructor; [done|].
  rewrite Forall_forall in *. intros y Hy. apply Hx. by apply elem_of_list_filter in Hy as [_ ?].
Qed.
Lemma sorted_snoc (l : list N) y : StronglySorted N.lt l -> (forall x, x ∈ l -> (x < y)%N) -> StronglySorted N.lt (l ++ [y]).
Proof.
  induction 1 as [|x l Hl IH Hx]; intros Hy; simpl; [by repeat constructor|]. constructor; [apply IH; intros z Hz; apply Hy; by right|].
  rewrite Forall_app. split; [done|]. constructor; [apply Hy; left|constructor].
Qed.

Section tinv.
  Context (k : cfg).
  Notation mini := (mini k).
  Notation path := (path k).
  Notation J := (J k).
  Notation tame := (tame k).

  (** what [tame] configurations keep out of the mapped values *)
  Definition tame_map (m : mapped) : Prop :=
    (forall v, m <> MWeak (Some v)) /\ (k_pointer k = true -> forall p, m = MPend p -> p_weak p = false).
  Lemma chg_facts s e el κ el' : chg k s e el κ (Some el') ->
    el_key el' = el_key el /\ el_pending el' = el_pending el /\ el_xw el' = el_xw el /\ el_xs el' = el_xs el /\
    (el_rs el = true -> el_rs el' = true) /\
    (el_pending el = true -> el_cn el' = el_cn el /\ el_rs el' = el_rs el) /\
    (forall p, el_map el' = MPend p -> exists q, el_map el = MPend q /\ forall o, o ∈ olds_of (p_cbq p) -> o ∈ olds_of (p_cbq q) \/
       (o < e)%N /\ noref s o /\ forall eo, tv s o = Some eo -> el_key eo = el_key el /\ el_rs eo = true /\ el_pending eo = false) /\
    (tame -> tame_map (el_map el) -> tame_map (el_map el')).
  Proof.
    intros H.
    assert (forall a, el_map a = el_map el -> forall p, el_map a = MPend p -> exists q, el_map el = MPend q /\ forall o, o ∈ olds_of (p_cbq p) -> o ∈ olds_of (p_cbq q) \/
       (o < e)%N /\ noref s o /\ forall eo, tv s o = Some eo -> el_key eo = el_key el /\ el_rs eo = true /\ el_pending eo = false) as Hs.
    { intros a E p Ep. exists p. rewrite <-E. auto. }
    assert (el_key (marked k el) = el_key el /\ el_pending (marked k el) = el_pending el /\ el_xw (marked k el) = el_xw el /\ el_xs (marked k el) = el_xs el /\
    (el_rs el = true -> el_rs (marked k el) = true) /\
    (el_pending el = true -> el_cn (marked k el) = el_cn el /\ el_rs (marked k el) = el_rs el) /\
    (forall p, el_map (marked k el) = MPend p -> exists q, el_map el = MPend q /\ forall o, o ∈ olds_of (p_cbq p) -> o ∈ olds_of (p_cbq q) \/
       (o < e)%N /\ noref s o /\ forall eo, tv s o = Some eo -> el_key eo = el_key el /\ el_rs eo = true /\ el_pending eo = false) /\
    (tame -> tame_map (el_map el) -> tame_map (el_map (marked k el)))) as Hm.
    { split_and!; try done.
      - apply marked_pend.
      - simpl. intros p. unfold m_mark_expired, m_dead. destruct (el_map el) as [q| | | | |]; try (by destruct (k_pointer k)).
        intros [= <-]. exists q. split; [done|]. by left.
      - simpl. intros _ [H1 H2]. unfold m_mark_expired, m_dead. destruct (el_map el) as [q| | | | |]; try (by destruct (k_pointer k)).
        split; [done|]. intros Hp p [= <-]. simpl. by eapply H2. }
    inversion H; subst; try exact Hm.
    - (* weaken *) split_and!; try done; simpl.
      + unfold el_pending; simpl. unfold m_weaken, m_dead. by destruct (el_map el), (k_pointer k).
      + intros p. unfold m_weaken, m_dead. destruct (el_map el) as [q| | | | |]; try (by destruct (k_pointer k)).
        intros [= <-]. exists q. split; [done|]. by left.
      + intros [Ht|[Ht|Ht]] [A1 A2]; try congruence. rewrite Ht in *. simpl.
        split; [|by rewrite Ht]. by destruct (el_map el).
    - (* strengthen *) split_and!; try done; simpl.
      + unfold el_pending; simpl. unfold m_strengthen. destruct (el_map el) as [q| |[v|]| | |]; try done; simpl.
        * unfold p_strengthen. by destruct (p_exp q).
        * by destruct (alive (me s) v).
      + intros p. unfold m_strengthen. destruct (el_map el) as [q| |[v|]| | |]; try done; simpl.
        * unfold p_strengthen. destruct (p_exp q); simpl; intros [= <-]; exists q; (split; [done|]); by left.
        * by destruct (alive (me s) v).
      + intros _ [A1 A2]. unfold m_strengthen. destruct (el_map el) as [q| |[v|]| | |]; try done; simpl.
        * unfold p_strengthen. destruct (p_exp q); simpl; [by split|]. split; [done|]. intros Hp p [= <-]. done.
        * by destruct (A1 v).
    - (* hit *) split_and!; try done; [|by apply Hs]. unfold el_pending. by destruct (el_map el).
    - (* wait *) split_and!; try done.
      + unfold el_pending; simpl. match goal with E : el_map el = MPend _ |- _ => by rewrite E end.
      + simpl. intros q [= <-]. exists p. split; [done|]. intros o. simpl. rewrite olds_app. intros [Ho|Ho]; [by left|]. by apply not_elem_of_nil in Ho.
      + simpl. intros _ [A1 A2]. split; [done|]. intros Hp q [= <-]. simpl. by eapply A2.
    - split_and!; try done; [|by apply Hs]. simpl. congruence.
    - (* ref *) split_and!; try done.
      + unfold el_pending; simpl. match goal with E : el_map el = MPend _ |- _ => by rewrite E end.
      + simpl. intros q [= <-]. exists p. split; [done|]. intros o'. simpl. rewrite olds_app. intros [Ho|Ho]; [by left|]. right.
        apply elem_of_list_singleton in Ho as ->. done.
      + simpl. intros _ [A1 A2]. split; [done|]. intros Hp q [= <-]. simpl. by eapply A2.
    - split_and!; try done; [|by apply Hs]. simpl. congruence.
  Qed.

  Lemma assigned_facts m v el : el_key (assigned k m v el) = el_key el /\ el_map (assigned k m v el) = el_map el /\ el_rs (assigned k m v el) = el_rs el.
  Proof.
    unfold assigned, aged. destruct v, (k_max_age k) as [d1|], (k_err_age k) as [d2|], (k_refresh k) as [[de idl]|]; simpl; try done; by case_bool_decide.
  Qed.
  Lemma born_facts m key mp : el_key (born k m key mp) = key /\ el_map (born k m key mp) = mp /\ el_rs (born k m key mp) = false.
  Proof. unfold born. destruct (m_pending mp); [done|]. destruct (assigned_facts m (is_val mp) (newborn key mp)) as (-> & -> & ->). done. Qed.

  (** where an entry comes from *)
  Lemma mini_tv κ s s' x el' : mini κ s s' -> tv s' x = Some el' ->
    (exists el, tv s x = Some el /\ (el' = el \/ (chg k s x el κ (Some el') /\ forall y, y <> x -> tv s' y = tv s y) \/
       (exists i o δ, κ = KDone i o δ /\ (exists c, m_cbs (me s) !! i = Some c /\ el' = marked k el /\ exists en p, tv s (cb_el c) = Some en /\ el_map en = MPend p /\ x ∈ olds_of (p_cbq p) /\ x <> cb_el c)) \/
       (exists i o c p y cn δ, κ = KDone i o δ /\ m_cbs (me s) !! i = Some c /\ cb_called c = false /\ cb_el c = x /\ el_map el = MPend p /\ cn_ok k (olds_of (p_cbq p)) (m_els (me s)) (el_cn el) cn /\
          el' = assigned k (me s') (bool_decide (is_Some o)) (with_map (with_cn el cn) (match o with Some v => settled k p v | None => m_settle_error (k_pointer k) y p end))) \/
       (exists i c p, κ = KCancel i /\ m_cbs (me s) !! i = Some c /\ cb_called c = false /\ cb_el c = x /\ el_map el = MPend p /\ el' = with_map el (MPend (p_cancel p))))) \/
    (exists key cl mp, κ = KEnter key cl (val_of mp) /\ tv s x = None /\ el' = born k (me s) key mp /\ (k_resolver k = RAsync -> newest s x) /\
       match mp with MVal _ => True | MErr _ => k_resolver k = RSync | _ => mp = MPend pend_init /\ k_resolver k = RAsync end /\
       fits k s x key cl).
  Proof.
    intros [_ _ _ _ B _] H. destruct B as [κ _ T _ _ _|κ e el o H1 H2 H3 H4 _ _|e key cl mp H1 _ _ H2 H3 H4 _ _ H5 H6|i c e el p o y cn δ H1 H2 H3 H4 H5 H6 H7 H8 _ _ _ _|i c e el p H1 H2 H3 H4 H5 H6 H7 _ _].
    - left. exists el'. rewrite <-T. auto.
    - left. destruct (decide (x = e)) as [->|Hne]; [|exists el'; rewrite <-H4 by done; auto].
      exists el. split; [done|]. right. left. split; [congruence|done].
    - destruct (decide (x = e)) as [->|Hne]; [|left; exists el'; rewrite <-H4 by done; auto]. right.
      exists key, cl, mp. split_and!; try done; [congruence|]. destruct mp; naive_solver.
    - left. destruct (decide (x = e)) as [->|Hne].
      + exists el. split; [done|]. right. right. right. left. exists i, o, c, p, y, cn, δ. split_and!; try done. congruence.
      + rewrite H8 in H by done. apply fmap_Some in H as (el0 & E & ->). exists el0. split; [done|]. case_decide as D; [|by left].
        right. right. left. exists i, o, δ. split; [done|]. exists c. split_and!; try done. exists el, p. split_and!; congruence.
    - left. destruct (decide (x = e)) as [->|Hne]; [|exists el'; rewrite <-H7 by done; auto].
      exists el. split; [done|]. right. right. right. right. exists i, c, p. split_and!; try done. congruence.
  Qed.

  Lemma settled_not_pend p v : m_pending (settled k p v) = false.
  Proof. unfold settled, m_dead. by destruct (p_exp p), (p_weak p), (k_pointer k). Qed.
  Lemma settle_error_not_pend p x : m_pending (m_settle_error (k_pointer k) x p) = false.
  Proof. unfold m_settle_error, m_dead. by destruct (p_exp p || p_weak p), (k_pointer k). Qed.

  (** the entries an entry is going to replace *)
  Definition reps (el : elem) : list N := olds_of (cbq_of (el_map el)).
  (** summary for one entry: what its successor inherits *)
  Lemma mini_tv_facts κ s s' x el' : mini κ s s' -> tv s' x = Some el' ->
    (exists el, tv s x = Some el /\ el_key el' = el_key el /\ (el_rs el = true -> el_rs el' = true) /\ (el_pending el' = true -> el_pending el = true) /\
      (el_pending el' = true -> el_xw el' = el_xw el /\ el_xs el' = el_xs el /\ el_cn el' = el_cn el /\ el_rs el' = el_rs el) /\
      (tame -> tame_map (el_map el) -> tame_map (el_map el')) /\
      (forall o, o ∈ reps el' -> o ∈ reps el \/ (o < x)%N /\ noref s o /\ (forall y, y <> x -> tv s' y = tv s y) /\
          forall eo, tv s o = Some eo -> el_key eo = el_key el /\ el_rs eo = true /\ el_pending eo = false)) \/
    (exists key cl mp, κ = KEnter key cl (val_of mp) /\ tv s x = None /\ el' = born k (me s) key mp /\ (k_resolver k = RAsync -> newest s x) /\ reps el' = [] /\
       tame_map (el_map el') /\ (el_pending el' = true -> el_xw el' = None /\ el_xs el' = None /\ el_cn el' = None /\ el_rs el' = false /\ k_resolver k = RAsync)).
  Proof.
    intros H Hx. destruct (mini_tv κ s s' x el' H Hx) as [(el & Hx0 & Hd)|(key & cl & mp & E1 & E2 & -> & E3 & E4 & E5)].
    - left. exists el. split; [done|]. destruct Hd as [->|[[Hd Hoth]|[(i & o & δ & E1 & c & E2 & -> & _)|[(i & o & c & p & y & cn & δ & _ & _ & _ & _ & Ep & Hcn & ->)|(i & c & p & _ & _ & _ & _ & Ep & ->)]]]].
      + split_and!; try done. by left.
      + destruct (chg_facts _ _ _ _ _ Hd) as (F1 & F2 & F3 & F4 & F5 & F6 & F7 & F8). split_and!; try done.
        * by rewrite F2.
        * rewrite F2. intros Hp. destruct (F6 Hp). done.
        * intros o Ho. unfold reps, cbq_of in *. destruct (el_map el') as [p| | | | |] eqn:Ep; try (by apply not_elem_of_nil in Ho).
          destruct (F7 p eq_refl) as (q & -> & Hq). destruct (Hq o Ho) as [?|(?&?&?)]; [by left|right; done].
      + split_and!; try done.
        * by rewrite marked_pend.
        * intros _ [A1 A2]. simpl. unfold m_mark_expired, m_dead. destruct (el_map el) as [q| | | | |]; try (by destruct (k_pointer k)).
          split; [done|]. intros Hp p [= <-]. simpl. by eapply A2.
        * unfold reps. simpl. intros o'. unfold m_mark_expired, m_dead. destruct (el_map el) as [q| | | | |]; try (destruct (k_pointer k); simpl; intros Ho'; by apply not_elem_of_nil in Ho'). by left.
      + match goal with |- context [assigned k ?m ?b ?e] => destruct (assigned_facts m b e) as (F1 & F2 & F3) end.
        unfold el_pending. rewrite F1, F2, F3. simpl.
        assert (m_pending match o with Some v => settled k p v | None => m_settle_error (k_pointer k) y p end = false) as Hnp
          by (destruct o; [apply settled_not_pend|apply settle_error_not_pend]).
        split_and!; try done; try (by rewrite Hnp).
        * intros Ht [A1 A2]. rewrite Ep in A2. destruct o as [v|]; unfold settled, m_settle_error, m_dead.
          -- destruct (p_exp p); [by destruct (k_pointer k)|]. destruct (p_weak p) eqn:Ew; [|done]. destruct (k_pointer k) eqn:Ek; [|done].
             by rewrite (A2 eq_refl p eq_refl) in Ew.
          -- by destruct (p_exp p || p_weak p), (k_pointer k).
        * unfold reps. rewrite F2. simpl. intros o' Ho'. exfalso. destruct (match o with Some v => _ | None => _ end) as [q| | | | |]; simpl in *; try done; by apply not_elem_of_nil in Ho'.
      + split_and!; try done; simpl.
        * intros _. unfold el_pending. by rewrite Ep.
        * intros Ht [A1 A2]. split; [done|]. intros Hp q [= <-]. simpl. by eapply A2.
        * intros o' Ho'. unfold reps in Ho'. simpl in Ho'. by apply not_elem_of_nil in Ho'.
    - right. exists key, cl, mp. destruct (born_facts (me s) key mp) as (F1 & F2 & F3). split_and!; try done.
      + unfold reps. rewrite F2. destruct mp; try done. by destruct E4 as [[= ->] _].
      + rewrite F2. destruct mp as [p| |o| | |]; try done; try (by destruct E4). destruct E4 as [[= ->] _]. split; [done|]. by intros _ p [= <-].
      + unfold el_pending. rewrite F2. unfold born. destruct mp; simpl; try done. by destruct E4.
  Qed.

  (** no deadlines without the policies that set them *)
  Lemma assigned_dl m v el : k_max_age k = None -> v = true -> el_xw (assigned k m v el) = el_xw el /\ el_xs (assigned k m v el) = el_xs el.
  Proof.
    intros E ->. unfold assigned. rewrite E. destruct (k_err_age k), (k_refresh k) as [[d i]|]; try done; by case_bool_decide.
  Qed.
  Lemma assigned_cn m v el : k_refresh k = None -> el_cn (assigned k m v el) = el_cn el.
  Proof. intros E. unfold assigned. rewrite E. destruct (k_max_age k), (k_err_age k), v; done. Qed.
  Lemma mini_val κ s s' x el' : mini κ s s' -> J s -> k_max_age k = None -> tv s' x = Some el' -> has_val (el_map el') = true -> el_xw el' = None /\ el_xs el' = None.
  Proof.
    intros H HJ Ha Hx Hv. destruct (mini_tv κ s s' x el' H Hx) as [(el & Hx0 & Hd)|(key & cl & mp & _ & _ & -> & _ & E4 & _)].
    - destruct Hd as [->|[[Hd _]|[(i & o' & δ & _ & c & _ & -> & _)|[(i & o' & c & p & y & cn & δ & _ & _ & _ & _ & Em & _ & ->)|(i & c & p & _ & _ & _ & _ & _ & ->)]]]].
      + by apply (j_val _ _ HJ x).
      + destruct (chg_facts _ _ _ _ _ Hd) as (_ & _ & -> & -> & _). apply (j_val _ _ HJ x); [done|done|].
        revert Hv. inversion Hd; subst; simpl; try done; try (by match goal with H : el_map el = _ |- _ => rewrite H end); destruct (el_map el) as [p0|v0|[v0|]|y0| |]; simpl; try done; try (by destruct (k_pointer k)).
        all: by destruct (p_strengthen p0).
      + simpl in *. unfold m_mark_expired, m_dead in Hv. by destruct (el_map el), (k_pointer k).
      + destruct (assigned_facts (me s') (bool_decide (is_Some o')) (with_map (with_cn el cn) (match o' with Some v => settled k p v | None => m_settle_error (k_pointer k) y p end))) as (_ & E & _). rewrite E in Hv. simpl in Hv.
        destruct o' as [v|]; [|unfold m_settle_error, m_dead in Hv; by destruct (p_exp p || p_weak p), (k_pointer k)].
        destruct (assigned_dl (me s') (bool_decide (is_Some (Some v))) (with_map (with_cn el cn) (settled k p v)) Ha) as [-> ->]; [by apply bool_decide_true; eauto|].
        simpl. destruct (j_pc _ _ HJ x el Hx0) as (? & ? & _); [unfold el_pending; by rewrite Em|done].
      + done.
    - unfold born. destruct (born_facts (me s) key mp) as (_ & E & _). rewrite E in Hv. destruct mp as [p|v|[v|]|y| |]; simpl in *; try done; try (by destruct E4).
      by apply assigned_dl.
  Qed.
  Lemma mini_cn κ s s' x el' : mini κ s s' -> J s -> k_refresh k = None -> tv s' x = Some el' -> el_cn el' = None /\ olds_of (cbq_of (el_map el')) = [].
  Proof.
    intros H HJ Ha Hx. destruct (mini_tv κ s s' x el' H Hx) as [(el & Hx0 & Hd)|(key & cl & mp & _ & _ & -> & _ & E4 & _)].
    - destruct (j_cn _ _ HJ x el Ha Hx0) as [C1 C2].
      destruct Hd as [->|[[Hd _]|[(i & o' & δ & _ & c & _ & -> & _)|[(i & o' & c & p & y & cn & δ & _ & _ & _ & _ & Em & Hcn & ->)|(i & c & p & _ & _ & _ & _ & _ & ->)]]]].
      + done.
      + assert (el_cn el' = el_cn el) as E. { inversion Hd; subst; simpl; try done. congruence. }
        split; [congruence|]. rewrite <-C2. inversion Hd; subst; simpl; try done; try congruence.
        all: try (destruct (el_map el) as [q|v|[v|]|y| |]; simpl; unfold m_dead; try done; try (by destruct (k_pointer k)); try (by destruct (alive _ v))).
        all: try (match goal with H : MPend _ = MPend _ |- _ => injection H as <- end; simpl; unfold olds_of; rewrite map_app, concat_app; simpl; by rewrite app_nil_r).
        unfold p_strengthen. by destruct (p_exp q).
      + simpl. split; [done|]. unfold m_mark_expired, m_dead. destruct (el_map el) as [q| | | | |]; simpl in *; try done; by destruct (k_pointer k).
      + rewrite assigned_cn by done. simpl. rewrite Em in C2. simpl in C2. split.
        * destruct Hcn as (_ & _ & Hcn). rewrite C2, C1 in Hcn. destruct cn as [t|]; [|done]. destruct (Hcn t) as [?|(o & eo & Ho & _)]; [simpl; by rewrite bool_decide_true|done|by apply not_elem_of_nil in Ho].
        * destruct (assigned_facts (me s') (bool_decide (is_Some o')) (with_map (with_cn el cn) (match o' with Some v => settled k p v | None => m_settle_error (k_pointer k) y p end))) as (_ & -> & _). simpl.
          pose proof (settled_not_pend p) as H1. pose proof (settle_error_not_pend p y) as H2.
          destruct o' as [v|]; [specialize (H1 v); by destruct (settled k p v)|by destruct (m_settle_error _ _ _)].
      + done.
    - destruct (born_facts (me s) key mp) as (_ & -> & _). unfold born. destruct mp as [p|v|[v|]|y| |]; simpl in *; try done; try (by destruct E4).
      + by destruct E4 as [[= ->] _].
      + by rewrite assigned_cn.
      + by rewrite assigned_cn.
  Qed.
  (** a lookup replaces one value at most *)
  Lemma chg_one s e el κ el' p : chg k s e el κ (Some el') -> el_map el' = MPend p ->
    exists q, el_map el = MPend q /\ (olds_of (p_cbq p) = olds_of (p_cbq q) \/ (exists key, κ = KRefresh key false) /\ olds_of (p_cbq q) = [] /\ exists o, olds_of (p_cbq p) = [o]).
  Proof.
    intros Hd Em. destruct (chg_facts _ _ _ _ _ Hd) as (_ & _ & _ & _ & _ & _ & F7 & _). destruct (F7 p Em) as (q & Eq & _). exists q. split; [done|]. clear F7.
    inversion Hd; subst; simpl in Em; rewrite ?Eq in Em; simpl in Em; try (injection Em as <-; by left).
    - unfold p_strengthen in Em. destruct (p_exp q); simpl in Em; injection Em as <-; by left.
    - injection Em as <-. left. simpl. assert (p0 = q) as -> by congruence. unfold olds_of. rewrite map_app, concat_app. simpl. by rewrite app_nil_r.
    - injection Em as <-. assert (p0 = q) as -> by congruence. right. split; [by eexists|]. split; [done|]. exists o. simpl.
      assert (olds_of (p_cbq q ++ [PRefresh e o]) = olds_of (p_cbq q) ++ [o]) as -> by (unfold olds_of; by rewrite map_app, concat_app). by match goal with H : olds_of (p_cbq q) = [] |- _ => rewrite H end.
  Qed.
  Definition olds_at (s : sta) (n : N) : list N := match tv s n with Some en => match el_map en with MPend p => olds_of (p_cbq p) | _ => [] end | None => [] end.
  Lemma mini_olds κ s s' n : mini κ s s' -> olds_at s' n = olds_at s n \/ olds_at s' n = [] \/ (exists key, κ = KRefresh key false) /\ olds_at s n = [] /\ exists o, olds_at s' n = [o].
  Proof.
    intros H. destruct (tv s' n) as [en'|] eqn:Tn; [|right; left; unfold olds_at; by rewrite Tn].
    destruct (el_map en') as [p'| | | | |] eqn:Em; try (right; left; unfold olds_at; by rewrite Tn, Em).
    destruct (mini_tv κ s s' n en' H Tn) as [(en & Hn0 & Hd)|(key & cl & mp & _ & _ & -> & _ & E4 & _)].
    - destruct Hd as [->|[[Hd _]|[(i & o' & δ & _ & c & _ & -> & _)|[(i & o' & c & p & y & cn & δ & _ & _ & _ & _ & _ & _ & ->)|(i & c & p & _ & _ & _ & _ & Ep & ->)]]]].
      + left. unfold olds_at. by rewrite Tn, Hn0.
      + destruct (chg_one _ _ _ _ _ _ Hd Em) as (q & Eq & [E|([key ->] & E1 & o & E2)]); unfold olds_at; rewrite Tn, Hn0, Em, Eq; [by left|]. right. right. eauto.
      + left. unfold olds_at. rewrite Tn, Hn0, Em. simpl in Em. unfold m_mark_expired, m_dead in Em. destruct (el_map en) as [q| | | | |] eqn:Eq; try (by destruct (k_pointer k)).
        injection Em as <-. done.
      + exfalso. match type of Em with context [assigned k ?m ?b ?e] => destruct (assigned_facts m b e) as (_ & F2 & _) end. rewrite F2 in Em. simpl in Em.
        destruct o' as [v|]; [pose proof (settled_not_pend p v) as X|pose proof (settle_error_not_pend p y) as X]; rewrite Em in X; done.
      + right. left. unfold olds_at. rewrite Tn, Em. simpl in Em. by injection Em as <-.
    - right. left. unfold olds_at. rewrite Tn, Em. destruct (born_facts (me s) key mp) as (_ & F2 & _). rewrite F2 in Em. subst mp. by destruct E4 as [[= ->] _].
  Qed.
  Lemma path_olds (A : kind -> Prop) s s' n : (forall key, ~ A (KRefresh key false)) -> path A s s' -> olds_at s n = [] -> olds_at s' n = [].
  Proof.
    intros HA. apply (path_inv k A (fun s => olds_at s n = [])). clear s s'. intros κ s s' Hκ H HN.
    destruct (mini_olds κ s s' n H) as [E|[E|([key ->] & _)]]; [congruence|done|]. by destruct (HA key).
  Qed.
  Lemma mini_has_cb κ s s' x : mini κ s s' -> has_cb s x -> (forall i c, completes κ i -> m_cbs (me s) !! i = Some c -> cb_el c <> x) -> has_cb s' x.
  Proof.
    intros H (i & c & Hc & Hcc & He) Hn. destruct (n_cbs _ _ _ _ H) as (_ & N1 & N2). destruct (m_cbs (me s') !! i) as [c'|] eqn:E.
    - destruct (N1 i c' E) as [(_ & _ & _ & ? & _)|(c0 & E0 & E1 & [E2|[_ E2]])]; [congruence| |].
      + assert (c0 = c) as -> by congruence. exists i, c'. split_and!; congruence.
      + by destruct (Hn i c E2 Hc).
    - by rewrite (N2 i c Hc E) in Hcc.
  Qed.
  Lemma chg_open s e el κ el' p : chg k s e el κ (Some el') -> el_map el' = MPend p -> p_exp p = false -> exists q, el_map el = MPend q /\ p_exp q = false /\ forall i, ~ completes κ i.
  Proof.
    intros Hd Em Hp. destruct (chg_facts _ _ _ _ _ Hd) as (_ & _ & _ & _ & _ & _ & F7 & _). destruct (F7 p Em) as (q & Eq & _). exists q. split; [done|]. clear F7.
    inversion Hd; subst; simpl in Em; rewrite ?Eq in Em; simpl in Em; try (injection Em as <-; split; [done|intros i []]).
    - unfold p_strengthen in Em. destruct (p_exp q) eqn:Ep; simpl in Em; injection Em as <-; [congruence|split; [done|intros i []]].
    - injection Em as <-. assert (p0 = q) as -> by congruence. split; [done|intros i []].
    - injection Em as <-. assert (p0 = q) as -> by congruence. split; [done|intros i []].
  Qed.
  Lemma mini_open κ s s' x el' p : mini κ s s' -> J s -> k_resolver k = RAsync -> tv s' x = Some el' -> el_map el' = MPend p -> p_exp p = false -> has_cb s' x.
  Proof.
    intros H HJ Hr Hx Em Hp. pose proof (fun el q => j_open _ _ HJ x el q Hr) as HO. pose proof (mini_has_cb κ s s' x H) as HS. revert HS.
    destruct (n_body _ _ _ _ H) as [κ Hκ T _ _ _|κ e el o H1 H2 H3 H4 _ _|e key cl mp H1 _ _ H2 H3 H4 _ _ H5 H6|i c e el q o y cn δ H1 H2 H3 H4 H5 H6 H7 H8 _ _ _ _|i c e el q H1 H2 H3 H4 H5 H6 H7 _ _]; intros HS.
    - apply HS; [|by destruct Hκ as [->|[[? ->]|[[? ->]|[? ->]]]]]. rewrite T in Hx. by eapply HO.
    - destruct (decide (x = e)) as [->|Hne].
      + assert (o = Some el') as -> by congruence. destruct (chg_open _ _ _ _ _ _ H2 Em Hp) as (q & Eq & Hq & Hn). apply HS; [by eapply HO|]. intros i c Hi. by destruct (Hn i).
      + rewrite H4 in Hx by done. apply HS; [by eapply HO|]. intros i c Hi. inversion H2; subst; done.
    - apply HS; [|done]. destruct (decide (x = e)) as [->|Hne]; [|rewrite H4 in Hx by done; by eapply HO].
      rewrite H3 in Hx. injection Hx as <-. destruct (born_facts (me s) key mp) as (_ & E & _). rewrite E in Em. subst mp. by destruct H2 as (_ & _ & ?).
    - destruct (decide (x = e)) as [->|Hne].
      + rewrite H7 in Hx. injection Hx as <-. match type of Em with context [assigned k ?m ?b ?e] => destruct (assigned_facts m b e) as (_ & E & _) end. rewrite E in Em. simpl in Em.
        destruct o as [v|]; [pose proof (settled_not_pend q v) as X|pose proof (settle_error_not_pend q y) as X]; rewrite Em in X; done.
      + rewrite H8 in Hx by done. apply fmap_Some in Hx as (el0 & E0 & ->). case_decide.
        * exfalso. simpl in Em. unfold m_mark_expired, m_dead in Em. destruct (el_map el0); try (by destruct (k_pointer k)). injection Em as <-. done.
        * apply HS; [by eapply HO|]. intros j d Hj Hd. simpl in Hj. subst j. congruence.
    - destruct (decide (x = e)) as [->|Hne].
      + rewrite H6 in Hx. injection Hx as <-. simpl in Em. by injection Em as <-.
      + rewrite H7 in Hx by done. apply HS; [by eapply HO|]. intros j d Hj Hd. simpl in Hj. subst j. congruence.
  Qed.
  (** while a resolver runs: its callback is there, and unless it completed the entry, unused *)
  Definition owned (s : sta) (i e : N) : Prop :=
    (exists c, m_cbs (me s) !! i = Some c /\ cb_el c = e /\ cb_kept c = true /\ (cb_called c = false \/ forall el, tv s e = Some el -> el_pending el = false)) /\
    (forall j d, m_cbs (me s) !! j = Some d -> cb_el d = e -> j = i) /\ (i < m_ncb (me s))%N.
  Lemma mini_owned κ s s' i e : mini κ s s' -> is_Some (m_cbs (me s') !! i) -> κ <> KCancel i -> κ <> KLet i -> owned s i e -> owned s' i e.
  Proof.
    intros H [c' Hc'] K1 K2 ((c & Hc & He & Hk & Hor) & Hu & Hn). destruct (n_cbs _ _ _ _ H) as (N0 & N1 & N2). destruct (n_keep _ _ _ _ H) as [N3 N4].
    assert (forall j d, m_cbs (me s') !! j = Some d -> cb_el d = e -> j = i) as Hu'.
    { intros j d Hd Ed. destruct (N1 j d Hd) as [(_ & _ & _ & Hj & _)|(d0 & Hd0 & E0 & _)].
      - destruct (N4 j d i c Hd Hj Hc). congruence.
      - apply (Hu j d0 Hd0). congruence. }
    split; [|split; [done|lia]].
    destruct (N1 i c' Hc') as [(? & _)|(c0 & Hc0 & E1 & E2)]; [lia|]. assert (c0 = c) as -> by congruence.
    exists c'. split_and!; [done|congruence|by destruct (N3 i c c' Hc Hc' Hk)|].
    destruct (cb_called c') eqn:Ec'; [|by left]. right. intros el' Hel'. destruct (el_pending el') eqn:Ep; [|done].
    destruct (cb_called c) eqn:Ec.
    - destruct Hor as [?|HF]; [done|].
      destruct (mini_tv_facts κ s s' e el' H Hel') as [(el & Hx0 & _ & _ & E & _)|(key & cl & mp & -> & E4 & -> & _)].
      + rewrite <-(HF el Hx0). symmetry. by apply E.
      + exfalso. destruct (born_facts (me s) key mp) as (_ & Eb & _). unfold el_pending in Ep. rewrite Eb in Ep.
        remember (KEnter key cl (val_of mp)) as κ eqn:Eκ. destruct (n_body _ _ _ _ H) as [κ Hκ|κ e0 el o H1 H2|e0 key0 cl0 mp0 H1 _ _ H2 H3 H4 _ _ H5 H6| |]; try done.
        * by destruct Hκ as [->|[[? ->]|[[? ->]|[? ->]]]].
        * subst κ. by inversion H2.
        * destruct (decide (e = e0)) as [<-|Hne]; [|rewrite H4 in Hel' by done; congruence].
          rewrite H3 in Hel'. injection Hel' as Hel'. destruct (born_facts (me s) key0 mp0) as (_ & Eb0 & _). rewrite Hel' in Eb0. rewrite Eb0 in Eb. subst mp0.
          destruct mp; try done. destruct H2 as (_ & _ & j & d & Hd & Hd1 & Hd2). pose proof (Hu j d Hd Hd2) as ->. congruence.
    - destruct E2 as [E2|[_ Hco]]; [congruence|]. exfalso. destruct κ as [| | | | | | | | |j o δ|j| |]; simpl in Hco; try done; subst j; [|done].
      remember (KDone i o δ) as κ eqn:Eκ. destruct (n_body _ _ _ _ H) as [κ Hκ|κ e0 el o0 H1 H2| |j c0 e0 el q o0 y cn δ0 H1 H2 H3 H4 H5 H6 H7 H8 _ _ _ _|]; try done.
      + by destruct Hκ as [->|[[? ->]|[[? ->]|[? ->]]]].
      + subst κ. by inversion H2.
      + injection Eκ as -> -> ->. assert (c0 = c) as -> by congruence. rewrite He in *. subst e0. rewrite H7 in Hel'. injection Hel' as <-.
        match type of Ep with context [assigned k ?m ?b ?e] => destruct (assigned_facts m b e) as (_ & E & _) end. unfold el_pending in Ep. rewrite E in Ep. simpl in Ep.
        destruct o as [v|]; [pose proof (settled_not_pend q v) as X|pose proof (settle_error_not_pend q y) as X]; congruence.
  Qed.
  Lemma path_owned (A : kind -> Prop) s s' i e : path A s s' -> is_Some (m_cbs (me s') !! i) -> ~ A (KCancel i) -> ~ A (KLet i) -> owned s i e -> owned s' i e.
  Proof.
    intros P Hs H1 H2. 
    assert (forall s1, path A s1 s' -> (i < m_ncb (me s1))%N -> is_Some (m_cbs (me s1) !! i)) as Hback.
    { intros s1 P1. clear P. induction P1 as [|s1 s2 s3 (κ & _ & HM) P1 IH]; [done|]. intros Hn. destruct (n_cbs _ _ _ _ HM) as (N0 & N1 & _).
      destruct IH as [c2 Hc2]; [done|lia|]. destruct (N1 i c2 Hc2) as [(? & _)|(c & Hc & _)]; [lia|eauto]. }
    induction P as [|s1 s2 s3 (κ & Hκ & HM) P IH]; [done|]. intros Ho. apply IH; [done|done|].
    eapply mini_owned; [done| |congruence|congruence|done]. apply Hback; [done|]. destruct (n_cbs _ _ _ _ HM) as (N0 & _). destruct Ho as (_ & _ & ?). lia.
  Qed.
  Lemma mini_J κ s s' : mini κ s s' -> J s -> J s'.
  Proof.
    intros H HJ. pose proof (mini_tv_facts κ s s') as HF. assert (k_resolver k = RAsync \/ k_resolver k <> RAsync) as Hres by (destruct (k_resolver k); auto). split.
    - intros x el' Hx Hp. destruct (HF x el' H Hx) as [(el & Hx0 & _ & _ & E1 & E2 & _)|(key & cl & mp & _ & _ & _ & _ & _ & _ & E)].
      + destruct (E2 Hp) as (-> & -> & -> & ->). apply (j_pc _ _ HJ x el Hx0 (E1 Hp)).
      + destruct (E Hp) as (? & ? & ? & ? & _). done.
    - destruct Hres as [?|Hn]; [by left|]. right.
      destruct (j_sync _ _ HJ) as [?|[Hc Ht]]; [done|]. destruct (n_cbs _ _ _ _ H) as (_ & N1 & _). split.
      + apply map_empty. intros i. destruct (m_cbs (me s') !! i) as [c|] eqn:E; [|done]. destruct (N1 i c E) as [(_&_&?&_)|(c0 & E0 & _)]; [done|].
        by rewrite Hc, lookup_empty in E0.
      + intros x el' Hx. destruct (el_pending el') eqn:Ep; [|done].
        destruct (HF x el' H Hx) as [(el & Hx0 & _ & _ & E1 & E2 & _)|(key & cl & mp & _ & _ & _ & _ & _ & _ & E)].
        * specialize (E1 Ep). by rewrite (Ht x el Hx0) in E1.
        * destruct (E Ep) as (?&?&?&?&?). done.
    - intros n en' p m o eo' Hn Em Ho Hoo.
      assert (o ∈ reps en') as Hor. { unfold reps. rewrite Em. simpl. apply olds_iff. eauto. }
      destruct (HF n en' H Hn) as [(en & Hn0 & Ek & _ & E1 & _ & _ & Hr)|(key & cl & mp & _ & _ & _ & _ & E & _)]; [|rewrite E in Hor; by apply not_elem_of_nil in Hor].
      assert (forall eo, tv s o = Some eo -> el_rs eo = true /\ el_key eo = el_key en /\ el_pending eo = false) as Hold.
      { intros eo Hoo0. destruct (Hr o Hor) as [Hor0|(_ & _ & _ & Hn2)]; [|destruct (Hn2 eo Hoo0) as (?&?&?); done].
        unfold reps, cbq_of in Hor0. destruct (el_map en) as [q| | | | |] eqn:Eq; try (by apply not_elem_of_nil in Hor0).
        apply olds_iff in Hor0 as (m' & Hm'). by eapply (j_rs _ _ HJ). }
      destruct (HF o eo' H Hoo) as [(eo & Hoo0 & Eko & Ers & Epo & _)|(key & cl & mp & Eκ & Eno & _ & Hnr & _ & _ & _)].
      + destruct (Hold eo Hoo0) as (A1 & A2 & A3). split_and!; [by apply Ers|congruence|]. destruct (el_pending eo'); [|done]. rewrite Epo in A3; done.
      + exfalso. destruct Hres as [Ha|Ha].
        * destruct (Hr o Hor) as [Hor0|(Hne & _ & Hot & _)].
          -- unfold reps, cbq_of in Hor0. destruct (el_map en) as [q| | | | |] eqn:Eq; try (by apply not_elem_of_nil in Hor0). by eapply (proj1 (Hnr Ha)).
          -- rewrite Hot in Hoo by lia. congruence.
        * destruct (j_sync _ _ HJ) as [?|[_ Ht]]; [done|]. assert (el_pending en' = true) as Hp' by (unfold el_pending; by rewrite Em).
          specialize (E1 Hp'). by rewrite (Ht n en Hn0) in E1.
    - assert (forall n en' p o, tv s' n = Some en' -> el_map en' = MPend p -> o ∈ olds_of (p_cbq p) ->
        (exists en q, tv s n = Some en /\ el_map en = MPend q /\ o ∈ olds_of (p_cbq q)) \/ noref s o /\ forall y, y <> n -> tv s' y = tv s y) as Hg.
      { intros n en' p o Hn Em Ho. assert (o ∈ reps en') as Hor by (unfold reps; by rewrite Em).
        destruct (HF n en' H Hn) as [(en & Hn0 & _ & _ & _ & _ & _ & Hr)|(key & cl & mp & _ & _ & _ & _ & E & _)]; [|rewrite E in Hor; by apply not_elem_of_nil in Hor].
        destruct (Hr o Hor) as [Hor0|(_ & ? & ? & _)]; [|by right]. left.
        unfold reps, cbq_of in Hor0. destruct (el_map en) as [q| | | | |] eqn:Eq; try (by apply not_elem_of_nil in Hor0). eauto. }
      intros n1 n2 e1 e2 p1 p2 o Hn1 Hn2 E1 E2 Ho1 Ho2. destruct (decide (n1 = n2)) as [?|Hne]; [done|]. exfalso.
      destruct (Hg n1 e1 p1 o) as [(f1 & q1 & ? & ? & ?)|(Hr1 & Ht1)]; try done; destruct (Hg n2 e2 p2 o) as [(f2 & q2 & ? & ? & ?)|(Hr2 & Ht2)]; try done.
      + apply Hne. by eapply (j_uref _ _ HJ).
      + by eapply Hr2.
      + by eapply Hr1.
      + rewrite Ht1 in Hn2 by done. by eapply Hr1.
    - intros n en' p o Hn Em Ho. assert (o ∈ reps en') as Hor by (unfold reps; by rewrite Em).
      destruct (HF n en' H Hn) as [(en & Hn0 & _ & _ & _ & _ & _ & Hr)|(key & cl & mp & _ & _ & _ & _ & E & _)]; [|rewrite E in Hor; by apply not_elem_of_nil in Hor].
      destruct (Hr o Hor) as [Hor0|(? & _)]; [|done].
      unfold reps, cbq_of in Hor0. destruct (el_map en) as [q| | | | |] eqn:Eq; try (by apply not_elem_of_nil in Hor0). by eapply (j_lt _ _ HJ).
    - intros n en' p Hn Em. pose proof (mini_olds κ s s' n H) as Ho. assert (olds_at s' n = olds_of (p_cbq p)) as E' by (unfold olds_at; by rewrite Hn, Em). rewrite <-E'.
      destruct Ho as [E|[E|(_ & _ & o & E)]]; rewrite E; [|simpl; lia..]. unfold olds_at. destruct (tv s n) as [en|] eqn:Tn; [|simpl; lia].
      destruct (el_map en) eqn:Eq; try (simpl; lia). by eapply (j_one _ _ HJ).
    - intros h Hr. pose proof (j_sorted _ _ HJ h Hr) as Hs. destruct (mini_hseq k κ s s' h H) as [E|[(y & _ & _ & _ & E)|(y & key & cl & o & _ & _ & _ & _ & E & Hnew)]]; rewrite E; [done|..].
      + by apply sorted_filter.
      + apply sorted_snoc; [done|]. intros x Hx. by eapply (proj2 (Hnew Hr)).
    - intros x el' Ht Hx. destruct (HF x el' H Hx) as [(el & Hx0 & _ & _ & _ & _ & E2 & _)|(key & cl & mp & _ & _ & _ & _ & _ & E & _)]; [|done].
      apply E2; [done|]. by apply (j_tame _ _ HJ x).
    - intros x el'. by apply (mini_val κ s s').
    - intros x el'. by apply (mini_cn κ s s').
    - intros x el' p. by apply (mini_open κ s s').
  Qed.
  Lemma J_init : J st_init.
  Proof.
    assert (forall x el, tv st_init x <> Some el) as H. { intros x el. unfold tv. simpl. done. }
    split; try (by intros; exfalso; eapply H; eauto).
    - destruct (k_resolver k) eqn:E; [right|right|left; done]; split; try done; intros; exfalso; eapply H; eauto.
    - intros h _. unfold hseq. simpl. constructor.
  Qed.
  Lemma path_J (A : kind -> Prop) s s' : path A s s' -> J s -> J s'.
  Proof. apply path_inv. intros κ s1 s2 _. apply mini_J. Qed.
  Lemma path_ncb (A : kind -> Prop) s s' : path A s s' -> (m_ncb (me s) <= m_ncb (me s'))%N.
  Proof.
    intros P. apply (path_inv k A (fun s1 => (m_ncb (me s) <= m_ncb (me s1))%N) s s'); [|done|lia].
    intros κ s1 s2 _ H ?. pose proof (proj1 (n_cbs _ _ _ _ H)). lia.
  Qed.

  (** nobody is going to replace [o], and no refresh starts *)
  Lemma path_noref (A : kind -> Prop) s s' o : (forall key, ~ A (KRefresh key false)) -> path A s s' -> noref s o -> noref s' o.
  Proof.
    intros HA. apply (path_inv k A (fun s => noref s o)). clear s s'. intros κ s s' Hκ H HN n en' q' Hn Em Ho.
    assert (forall key, κ <> KRefresh key false) as Hnk. { intros key ->. by eapply HA. }
    destruct (mini_tv κ s s' n en' H Hn) as [(en & Hn0 & Hd)|(key & cl & mp & _ & _ & -> & _ & E4 & _)].
    - destruct Hd as [->|[[Hd _]|[(i & o' & δ & _ & c & _ & -> & _)|[(i & o' & c & p & y & cn & δ & _ & _ & _ & _ & _ & _ & ->)|(i & c & p & _ & _ & _ & _ & _ & ->)]]]].
      + by eapply HN.
      + destruct (chg_facts _ _ _ _ _ Hd) as (_ & _ & _ & _ & _ & _ & F7 & _). destruct (F7 q' Em) as (q & Eq & Hq).
        destruct (Hq o Ho) as [?|Hne]; [by eapply HN|]. clear -Hd Hnk HN Hn0 Em Eq Ho.
        inversion Hd; subst; try (by exfalso; eapply Hnk);
          try (simpl in Em; rewrite Eq in Em; simpl in Em; injection Em as <-; by eapply HN); try (simpl in Em; rewrite Em in Eq; injection Eq as ->; by eapply HN).
        * simpl in Em. rewrite Eq in Em. simpl in Em. unfold p_strengthen in Em. destruct (p_exp q); simpl in Em; injection Em as <-; by eapply HN.
        * simpl in Em. injection Em as <-. simpl in Ho. rewrite olds_app in Ho. destruct Ho as [Ho|Ho]; [by eapply HN|by apply not_elem_of_nil in Ho].
      + simpl in Em. unfold m_mark_expired, m_dead in Em. destruct (el_map en) as [q| | | | |] eqn:Eq; try (by destruct (k_pointer k)).
        injection Em as <-. by eapply HN.
      + match type of Em with context [assigned k ?m ?b ?e] => destruct (assigned_facts m b e) as (_ & F2 & _) end. rewrite F2 in Em. simpl in Em.
        destruct o' as [v|]; [pose proof (settled_not_pend p v) as X|pose proof (settle_error_not_pend p y) as X]; rewrite Em in X; done.
      + simpl in Em. injection Em as <-. by apply not_elem_of_nil in Ho.
    - destruct (born_facts (me s) key mp) as (_ & F2 & _). rewrite F2 in Em. subst mp. destruct E4 as [[= ->] _]. by apply not_elem_of_nil in Ho.
  Qed.

  (** a lookup in flight stays pending until one of its callbacks completes *)
  Lemma mini_pending κ s s' e el : mini κ s s' -> tv s e = Some el -> el_pending el = true ->
    (exists el', tv s' e = Some el' /\ el_pending el' = true) \/ exists i o δ c, κ = KDone i o δ /\ m_cbs (me s) !! i = Some c /\ cb_el c = e.
  Proof.
    intros HM T Hp. destruct (n_body _ _ _ _ HM) as [κ0 _ Hv _ _ _|κ0 x elx o Tx Hc Tx' Hv _ _|x key cl mp Tx _ _ _ _ Hv _ _ _ _|i c x elx p o y cn δ Hc _ Ee Tx _ _ _ Hv _ _ _ _ _ _|i c x elx p _ _ Ee Tx Em Tx' Hv _ _ _].
    - left. exists el. by rewrite Hv.
    - destruct (decide (e = x)) as [->|Hne]; [|left; exists el; by rewrite Hv]. rewrite T in Tx. injection Tx as <-. destruct o as [o|].
      + left. exists o. split; [done|]. destruct (chg_facts _ _ _ _ _ Hc) as (_ & -> & _). done.
      + inversion Hc; subst; congruence.
    - left. exists el. rewrite Hv; [done|]. congruence.
    - destruct (decide (e = x)) as [->|Hne]; [right; by eexists _, _, _, _|]. left. rewrite Hv, T by done. simpl. eexists. split; [done|].
      case_decide; [|done]. unfold el_pending, marked, m_mark_expired in *. simpl. by destruct (el_map el).
    - destruct (decide (e = x)) as [->|Hne]; [|left; exists el; by rewrite Hv]. left. eexists. by split.
  Qed.
  Lemma path_pending (A : kind -> Prop) n s s' e : path A s s' -> (n <= m_ncb (me s))%N -> (forall i c, m_cbs (me s) !! i = Some c -> cb_el c = e -> (n <= i)%N) ->
    (exists el, tv s e = Some el /\ el_pending el = true) ->
    (exists el', tv s' e = Some el' /\ el_pending el' = true) \/ exists i o δ, A (KDone i o δ) /\ (n <= i)%N.
  Proof.
    induction 1 as [|s1 s2 s3 (κ & HA & HM) _ IH]; [by left|]. intros Hn Hc (el & T & Hp). destruct (n_cbs _ _ _ _ HM) as (N1 & N2 & _).
    destruct (mini_pending _ _ _ _ _ HM T Hp) as [He|(i & o & δ & c & -> & Hi & Ee)]; [|right; eauto 6].
    apply IH; [lia| |done]. intros i c' Hi Ee. destruct (N2 i c' Hi) as [(? & _)|(c & Hc' & Ec & _)]; [lia|]. apply (Hc i c); [done|congruence].
  Qed.

  (** hopeful entries were hopeful before, or have just been created *)
  Lemma chg_hope s e el κ el' : chg k s e el κ (Some el') -> hopeful (el_map el') = true -> hopeful (el_map el) = true.
  Proof.
    intros H. assert (hopeful (el_map (marked k el)) = true -> hopeful (el_map el) = true) as Hm.
    { simpl. unfold m_mark_expired, m_dead. destruct (el_map el); destruct (k_pointer k); try done. }
    inversion H; subst; try exact Hm; simpl; try done.
    - unfold m_weaken, m_dead. destruct (el_map el); destruct (k_pointer k); try done.
    - unfold m_strengthen. destruct (el_map el) as [q| |[v|]| | |]; try done. simpl. unfold p_strengthen. by destruct (p_exp q) eqn:E; simpl; rewrite ?E.
    - by match goal with E : el_map el = MPend _ |- _ => rewrite E end.
    - by match goal with E : el_map el = MPend _ |- _ => rewrite E end.
  Qed.
  Lemma mini_hope κ s s' x el' : mini κ s s' -> tv s' x = Some el' -> hopeful (el_map el') = true ->
    (exists el, tv s x = Some el /\ el_key el = el_key el' /\ hopeful (el_map el) = true) \/
    (exists key cl o, κ = KEnter key cl o /\ tv s x = None /\ el_key el' = key /\ fits k s x key cl /\ forall y, y <> x -> tv s' y = tv s y).
  Proof.
    intros H Hx Hh. pose proof (n_body _ _ _ _ H) as B.
    destruct (mini_tv κ s s' x el' H Hx) as [(el & Hx0 & Hd)|(key & cl & mp & -> & E2 & -> & _ & E4 & E5)].
    - left. exists el. split; [done|]. destruct Hd as [->|[[Hd _]|[(i & o' & δ & _ & c & _ & -> & _)|[(i & o' & c & p & y & cn & δ & _ & _ & _ & _ & Ep & _ & ->)|(i & c & p & _ & _ & _ & _ & _ & ->)]]]].
      + done.
      + split; [by destruct (chg_facts _ _ _ _ _ Hd) as (-> & _)|by eapply chg_hope].
      + split; [done|]. revert Hh. simpl. unfold m_mark_expired, m_dead. destruct (el_map el); destruct (k_pointer k); try done.
      + match type of Hh with context [assigned k ?m ?b ?e] => destruct (assigned_facts m b e) as (F1 & F2 & _) end. rewrite F2 in Hh. rewrite F1. split; [done|].
        rewrite Ep. simpl in *. destruct o' as [v|]; revert Hh; unfold settled, m_settle_error, m_dead; destruct (p_exp p); simpl; try done; destruct (k_pointer k); try done.
      + simpl in Hh. done.
    - right. exists key, cl, (val_of mp). destruct (born_facts (me s) key mp) as (F1 & _). split_and!; try done.
      inversion B as [? D|? ? ? ? D1 D2|e' ? ? mp' D1 ? ? ? D2 D3| |]; subst; try done; try (by destruct D).
      + inversion D2.
      + destruct (decide (x = e')) as [->|Hne]; [done|]. rewrite D3 in Hx by done. congruence.
  Qed.

  (** nobody has the key, and nobody with this key is created *)
  Lemma path_nohope (A : kind -> Prop) s s' key :
    (forall key' c o, A (KEnter key' c o) -> ~ (k_hash k key' = k_hash k key /\ k_eq k key' key = true)) ->
    path A s s' -> nohope k s key -> nohope k s' key.
  Proof.
    intros HA. apply (path_inv k A (fun s => nohope k s key)). clear s s'. intros κ s s' Hκ H HN x el' Hx [K1 K2].
    destruct (hopeful (el_map el')) eqn:Hh; [|done].
    destruct (mini_hope κ s s' x el' H Hx Hh) as [(el & Hx0 & Ek & Hh0)|(key' & cl & o & -> & _ & Ek & _)].
    - rewrite <-Hh0. apply (HN x el Hx0). split; by rewrite Ek.
    - exfalso. eapply HA; [exact Hκ|]. by rewrite <-Ek.
  Qed.

  Lemma path_only (A : kind -> Prop) s s' key o :
    (forall key' c o, A (KEnter key' c o) -> ~ (k_hash k key' = k_hash k key /\ k_eq k key' key = true)) ->
    path A s s' -> only k s key o -> only k s' key o.
  Proof.
    intros HA. apply (path_inv k A (fun s => only k s key o)). clear s s'. intros κ s s' Hκ H HN x el' Hx [K1 K2] Hh.
    destruct (mini_hope κ s s' x el' H Hx Hh) as [(el & Hx0 & Ek & Hh0)|(key' & cl & o' & -> & _ & Ek & _)].
    - apply (HN x el Hx0); [|done]. split; by rewrite Ek.
    - exfalso. eapply HA; [exact Hκ|]. by rewrite <-Ek.
  Qed.
  Lemma path_fits (A : kind -> Prop) s s' e key cl :
    (cl <> HAny -> forall key' c o, A (KEnter key' c o) -> ~ (k_hash k key' = k_hash k key /\ k_eq k key' key = true)) ->
    path A s s' -> fits k s e key cl -> fits k s' e key cl.
  Proof.
    intros HA P. destruct cl as [|o l|]; simpl; [|intros [-> H]; split; [done|]|done]; intros.
    - eapply path_nohope; eauto.
    - eapply path_only; eauto.
  Qed.

  (** ** one hopeful entry per key, apart from refreshes *)
  Notation eq_ok := (eq_ok k).
  Definition linked (s : sta) (n o : N) : Prop := exists en p, tv s n = Some en /\ el_map en = MPend p /\ o ∈ olds_of (p_cbq p).
  Definition uq (R : N -> N -> Prop) (s : sta) : Prop :=
    forall x y ex ey, tv s x = Some ex -> tv s y = Some ey -> x <> y -> k_eq k (el_key ex) (el_key ey) = true ->
      hopeful (el_map ex) = true -> hopeful (el_map ey) = true -> linked s x y \/ linked s y x \/ R x y \/ R y x.
  Definition clean (R : N -> N -> Prop) (κ : kind) : Prop :=
    match κ with KEnter _ HClean _ => True | KEnter _ (HRefresh o l) _ => R l o | KEnter _ HAny _ => False | _ => True end.
  Lemma mini_linked κ s s' n o en' eo' : mini κ s s' -> linked s n o -> tv s' n = Some en' -> tv s' o = Some eo' ->
    hopeful (el_map en') = true -> hopeful (el_map eo') = true -> o <> n -> linked s' n o.
  Proof.
    intros H (en & p & Hn & Em & Ho) Hn' Ho' H1 H2 Hne. pose proof (n_body _ _ _ _ H) as B.
    destruct (mini_tv κ s s' n en' H Hn') as [(en0 & Hn0 & Hd)|(key & cl & mp & _ & E & _)]; [|congruence].
    assert (en0 = en) as -> by congruence. clear Hn0.
    assert (forall q, el_map en' = MPend q -> (forall y, y ∈ olds_of (p_cbq p) -> y ∈ olds_of (p_cbq q)) -> linked s' n o) as Hok.
    { intros q Eq Hq. exists en', q. split_and!; try done. by apply Hq. }
    destruct Hd as [->|[[Hd _]|[(i & o' & δ & -> & c & Hc & -> & _)|[(i & o' & c & q & y & cn & δ & -> & Hc & _ & Hce & Eq & _ & ->)|(i & c & q & _ & _ & _ & _ & _ & ->)]]]].
    - by eapply Hok.
    - clear B. inversion Hd; subst; simpl in *; rewrite ?Em in *; simpl in *; try done; try (by eapply Hok; [done|]).
      + unfold p_strengthen in Hok. destruct (p_exp p); by eapply Hok.
      + match goal with E : MPend _ = MPend _ |- _ => injection E as -> end. eapply Hok; [done|]. intros z Hz. simpl. rewrite olds_app. by left.
      + match goal with E : MPend _ = MPend _ |- _ => injection E as -> end. eapply Hok; [done|]. intros z Hz. simpl. rewrite olds_app. by left.
    - simpl in H1. rewrite Em in H1. done.
    - exfalso. inversion B as [? D|? ? ? ? ? D|?|i' c' e' el' p' o'' y' cn' δ' Hc' ? He' Hel' Ep' ? ? D ?|?]; subst; try (by destruct D as [D|[[? D]|[[? D]|[? D]]]]); try (by inversion D).
      assert (c' = c) as -> by congruence. assert (el' = en) as -> by congruence. assert (p' = p) as -> by congruence.
      rewrite D in Ho' by done. rewrite decide_True in Ho' by done. apply fmap_Some in Ho' as (eo & _ & ->).
      revert H2. simpl. unfold m_mark_expired, m_dead. destruct (el_map eo); simpl; destruct (k_pointer k); done.
    - simpl in H1. done.
  Qed.
  Lemma mini_uq R κ s s' : eq_ok -> clean R κ -> mini κ s s' -> uq R s -> uq R s'.
  Proof.
    intros (_ & Hsym & _ & Hhash) Hcl H HU x y ex ey Hx Hy Hne Hk Hhx Hhy.
    destruct (mini_hope κ s s' x ex H Hx Hhx) as [(ex0 & Hx0 & Ekx & Hhx0)|(key & cl & o & -> & Hx0 & Ekx & Hno & Hot)].
    - destruct (mini_hope κ s s' y ey H Hy Hhy) as [(ey0 & Hy0 & Eky & Hhy0)|(key & cl & o & -> & Hy0 & Eky & Hno & Hot)].
      + destruct (HU x y ex0 ey0) as [L|[L|Hr]]; try done; [congruence|..].
        * left. by eapply mini_linked.
        * right. left. by eapply mini_linked.
        * by right; right.
      + rewrite Hot in Hx by done. simpl in Hcl. assert (ex0 = ex) as -> by congruence.
        assert (same_key k ex key) as Hsk by (subst key; split; [by apply Hhash|done]).
        destruct cl as [|o' l|]; [|destruct Hno as [-> Hno]|done].
        * by rewrite (Hno x ex Hx0 Hsk) in Hhx.
        * rewrite (Hno x ex Hx0 Hsk Hhx). by right; right; right.
    - rewrite Hot in Hy by done. simpl in Hcl.
      assert (same_key k ey key) as Hsk by (subst key; split; [symmetry; by apply Hhash|by apply Hsym]).
      destruct cl as [|o' l|]; [|destruct Hno as [-> Hno]|done].
      * by rewrite (Hno y ey Hy Hsk) in Hhy.
      * rewrite (Hno y ey Hy Hsk Hhy). by right; right; left.
  Qed.
  Lemma path_uq R (A : kind -> Prop) s s' : eq_ok -> (forall κ, A κ -> clean R κ) -> path A s s' -> uq R s -> uq R s'.
  Proof. intros He Hc. apply (path_inv k A (uq R)). intros κ s1 s2 HA H. apply mini_uq with κ; auto. Qed.
End tinv.
