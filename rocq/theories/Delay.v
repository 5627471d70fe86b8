(** The refresh queue along the elementary changes: it is ordered by due time, its members are values
    in the cache, and no value is missing from it. *)
From stdpp Require Import sorting.
From Verif Require Import Base AQueue ATable BasicHashtable QueueProofs BasicHashtableProofs Mapped Cache CacheAbs AbsInv AbsPrim AbsPrim2 AbsOps AbsComp Trace AbsTrace TraceInv Histories.

(** deadline over *)
Definition late (m : mem) (el : elem) : bool :=
  reached (m_wall m) (el_xw el) || reached (m_steady m) (el_xs el) || reached (m_steady m) (el_cn el).
Lemma reached_le a b t : (a <= b)%Z -> reached a t = true -> reached b t = true.
Proof. destruct t; simpl; [|done]. rewrite !bool_decide_eq_true. lia. Qed.
Lemma late_le (m m' : mem) el : (m_wall m <= m_wall m')%Z -> (m_steady m <= m_steady m')%Z -> late m el = true -> late m' el = true.
Proof.
  intros H1 H2. unfold late. rewrite !orb_true_iff. intros [[H|H]|H]; [left; left|left; right|right]; by eapply reached_le.
Qed.

Lemma elem_of_sublist {A} (l1 l2 : list A) x : sublist l1 l2 -> x ∈ l1 -> x ∈ l2.
Proof.
  intros Hs. induction Hs as [|y l1 l2 Hs IH|y l1 l2 Hs IH]; [done|..].
  - rewrite !elem_of_cons. intros [?|?]; auto.
  - rewrite elem_of_cons. auto.
Qed.
Lemma nodup_sublist {A} (l1 l2 : list A) : sublist l1 l2 -> NoDup l2 -> NoDup l1.
Proof.
  intros Hs. induction Hs as [|y l1 l2 Hs IH|y l1 l2 Hs IH]; intros H; [done|..]; apply NoDup_cons in H as [H1 H2]; [|by apply IH].
  apply NoDup_cons. split; [|by apply IH]. intros Hy. apply H1. by eapply elem_of_sublist.
Qed.
Lemma filter_same {A} (P Q : A -> Prop) `{forall x, Decision (P x), forall x, Decision (Q x)} (l : list A) : (forall x, x ∈ l -> P x <-> Q x) -> filter P l = filter Q l.
Proof.
  induction l as [|x l IH]; intros H'; [done|]. rewrite !filter_cons, IH by (intros; apply H'; by right).
  destruct (decide (P x)) as [?|?], (decide (Q x)) as [?|?]; try done; exfalso; specialize (H' x ltac:(left)); tauto.
Qed.
Lemma filter_sub {A} (P : A -> Prop) `{forall x, Decision (P x)} (l1 l2 : list A) : sublist l1 l2 -> sublist (filter P l1) (filter P l2).
Proof.
  intros Hs. induction Hs as [|y l1 l2 Hs IH|y l1 l2 Hs IH]; [done|..]; rewrite !filter_cons; case_decide; try done; by constructor.
Qed.
Lemma ssorted_sublist {A} (R : A -> A -> Prop) (l1 l2 : list A) : sublist l1 l2 -> StronglySorted R l2 -> StronglySorted R l1.
Proof.
  intros Hs. induction Hs as [|x l1 l2 Hs IH|x l1 l2 Hs IH]; intros H; [constructor|..].
  - apply StronglySorted_inv in H as [H1 H2]. constructor; [by apply IH|]. rewrite Forall_forall in H2 |- *. intros y Hy. apply H2. by eapply elem_of_sublist.
  - apply StronglySorted_inv in H as [H1 _]. by apply IH.
Qed.
Lemma ssorted_impl {A} (R R' : A -> A -> Prop) (l : list A) : (forall x y, x ∈ l -> y ∈ l -> R x y -> R' x y) -> StronglySorted R l -> StronglySorted R' l.
Proof.
  induction l as [|x l IH]; intros H Hs; [constructor|]. apply StronglySorted_inv in Hs as [H1 H2]. constructor.
  - apply IH; [|done]. intros a b Ha Hb. apply H; by right.
  - rewrite Forall_forall in H2 |- *. intros y Hy. apply H; [by left|by right|by apply H2].
Qed.
Lemma ssorted_snoc {A} (R : A -> A -> Prop) (l : list A) y : (forall x, x ∈ l -> R x y) -> StronglySorted R l -> StronglySorted R (l ++ [y]).
Proof.
  induction l as [|x l IH]; intros H Hs; simpl; [repeat constructor|]. apply StronglySorted_inv in Hs as [H1 H2]. constructor.
  - apply IH; [|done]. intros a Ha. apply H. by right.
  - apply Forall_app. split; [done|]. constructor; [apply H; by left|constructor].
Qed.

Section delay.
  Context (k : cfg).
  Notation mini := (mini k).
  Notation path := (path k).
  Notation J := (J k).
  Notation tame := (tame k).
  Definition forward (κ : kind) : Prop := k_steady k = true \/ drift_of κ <> Anyhow.

  Section rf.
    Context (delay idle : Z) (Hrf : k_refresh k = Some (delay, idle)).
    Definition due (s : sta) (x : N) : Z := match tv s x with Some el => el_rf el | None => 0%Z end.

    Lemma assigned_rf m el : el_rf (assigned k m true el) = (m_steady m + delay)%Z.
    Proof using Hrf. unfold assigned. rewrite Hrf. by destruct (k_max_age k), (k_err_age k), (bool_decide (idle = 0%Z)). Qed.
    Lemma chg_rf s e el κ el' : chg k s e el κ (Some el') -> el_rf el' = el_rf el.
    Proof using Type. inversion 1; done. Qed.

    Lemma val_pend el : is_val (el_map el) = true -> el_pending el = false.
    Proof using Type. unfold el_pending. by destruct (el_map el). Qed.
    (** what one change does to the queue *)
    Lemma mini_dq κ s s' : mini κ s s' -> exists kept new, a_dq (cs s') = kept ++ new /\ sublist kept (a_dq (cs s)) /\
      (forall x, x ∈ a_dq (cs s) -> x ∈ kept \/ κ = KPop x \/ tv s' x = None) /\
      (forall x el, x ∈ kept -> tv s x = Some el -> el_pending el = false -> exists el', tv s' x = Some el' /\ el_rf el' = el_rf el /\ el_pending el' = false) /\
      (new = [] \/ exists e el', new = [e] /\ e ∉ a_dq (cs s) /\ tv s' e = Some el' /\ el_rf el' = (m_steady (me s') + delay)%Z /\ el_pending el' = false) /\
      (forall x el', tv s' x = Some el' -> is_val (el_map el') = true -> (forall el, tv s x = Some el -> el_pending el = true) -> x ∈ new).
    Proof using Hrf.
      intros [_ _ Hck _ HB]. remember κ as κ0 eqn:Eκ in HB.
      destruct HB as [κ0 Hκ Hv _ Hdq Hhd|κ0 e el o T Hc T' Hv _ Hdq|e key cl mp T _ Hne _ T' Hv _ Hdq _ _|i c e el p o z cn δ Hc Hcc Hce T Em Hcn T' Hv _ Hdq Hne _ _ _|i c e el p _ _ _ T Em T' Hv _ Hdq _]; subst.
      - exists (a_dq (cs s')), []. rewrite app_nil_r. split_and!; [done|..|by left|].
        + rewrite Hdq. destruct κ; try done. apply sublist_rm.
        + intros x Hx. rewrite Hdq. destruct Hκ as [->|[[δ ->]|[[e ->]|[? ->]]]]; [by left|by left| |by left]. destruct (decide (x = e)) as [->|Hn]; [by right; left|left]. by apply elem_of_rm.
        + intros x el Hx Tx Hp. exists el. by rewrite Hv.
        + intros x el' T' Hv' Hp. rewrite Hv in T'. specialize (Hp _ T'). by apply val_pend in Hv'; rewrite Hv' in Hp.
      - exists (a_dq (cs s')), []. rewrite app_nil_r. split_and!; [done|..|by left|].
        + rewrite Hdq. destruct (tv s' e); [done|]. apply sublist_rm.
        + intros x Hx. rewrite Hdq. destruct (tv s' e) as [el'|] eqn:E; [by left|]. destruct (decide (x = e)) as [->|Hn]; [by right; right|left]. by apply elem_of_rm.
        + intros x elx Hx Tx Hp. destruct (decide (x = e)) as [->|Hn]; [|exists elx; by rewrite Hv]. rewrite T in Tx. injection Tx as <-.
          destruct (tv s' e) as [el'|] eqn:E; [|rewrite Hdq, elem_of_rm in Hx; by destruct Hx].
          exists el'. destruct (chg_facts k s e el κ el' Hc) as (_ & -> & _). split_and!; [done|by eapply chg_rf|done].
        + intros x el' Tx' Hv' Hp. apply val_pend in Hv'. destruct (decide (x = e)) as [->|Hn].
          * rewrite Tx' in Hc. destruct (chg_facts k s e el κ el' Hc) as (_ & E & _). rewrite Hv', (Hp _ T) in E. done.
          * rewrite Hv in Tx' by done. specialize (Hp _ Tx'). congruence.
      - unfold enq in Hdq. rewrite Hrf, bool_decide_true, andb_true_r in Hdq by eauto.
        exists (a_dq (cs s)), (if is_val mp then [e] else []). split_and!; [by destruct (is_val mp); [|rewrite app_nil_r]|done|by left|..].
        + intros x elx Hx Tx Hp. exists elx. rewrite Hv by (intros ->; congruence). done.
        + destruct (is_val mp) eqn:Ev; [right|by left]. destruct mp as [| v| | | |]; try done. eexists e, _. split_and!; [done|done|exact T'| |].
          * destruct Hck as (_ & _ & Hck). destruct (Hck eq_refl) as (_ & -> & _). unfold born. simpl. apply assigned_rf.
          * unfold born, el_pending. simpl. by rewrite (proj1 (proj2 (assigned_facts k _ _ _))).
        + intros x el' Tx' Hv' Hp. destruct (decide (x = e)) as [->|Hn].
          * rewrite T' in Tx'. injection Tx' as <-. rewrite (proj1 (proj2 (born_facts k _ _ _))) in Hv'. rewrite Hv'. by left.
          * rewrite Hv in Tx' by done. apply val_pend in Hv'. specialize (Hp _ Tx'). congruence.
      - unfold enq in Hdq. rewrite Hrf, (bool_decide_true (is_Some (Some _))), andb_true_r in Hdq by eauto.
        exists (a_dq (cs s)), (if bool_decide (is_Some o) then [cb_el c] else []). split_and!; [by destruct (bool_decide _); [|rewrite app_nil_r]|done|by left|..].
        + intros x elx Hx Tx Hp. assert (x <> cb_el c) as Hn by (intros ->; done). rewrite Hv, Tx by done. case_decide; simpl; [|by exists elx].
          eexists. split_and!; [done|done|]. unfold el_pending in *. simpl. unfold m_mark_expired. destruct (el_map elx); try done; by destruct (k_pointer k).
        + destruct o as [v|]; [rewrite bool_decide_true by eauto; right|rewrite bool_decide_false by (by intros []); by left].
          rewrite bool_decide_true in T' by eauto. eexists (cb_el c), _. split_and!; [done|done|exact T'|apply assigned_rf|].
          unfold el_pending. rewrite (proj1 (proj2 (assigned_facts k _ _ _))). simpl. apply settled_not_pend.
        + intros x el' Tx' Hv' Hp. destruct (decide (x = cb_el c)) as [->|Hn].
          * rewrite T' in Tx'. injection Tx' as <-. rewrite (proj1 (proj2 (assigned_facts k _ _ _))) in Hv'. simpl in Hv'. destruct o as [v|]; [rewrite bool_decide_true by eauto; by left|].
            unfold m_settle_error, m_dead in Hv'. repeat case_match; done.
          * rewrite Hv in Tx' by done. apply fmap_Some in Tx' as (el0 & T0 & ->). apply val_pend in Hv'. specialize (Hp _ T0). case_decide; simpl in Hv'; [|congruence].
            unfold el_pending, marked, m_mark_expired in *. simpl in Hv'. destruct (el_map el0); done.
      - exists (a_dq (cs s')), []. rewrite app_nil_r, Hdq. split_and!; [done|done|by left| |by left|].
        + intros x elx Hx Tx Hp. destruct (decide (x = e)) as [->|Hn]; [|exists elx; by rewrite Hv].
          rewrite T in Tx. injection Tx as <-. unfold el_pending in Hp. by rewrite Em in Hp.
        + intros x el' Tx' Hv' Hp. destruct (decide (x = e)) as [->|Hn]; [by rewrite T' in Tx'; injection Tx' as <-|].
          rewrite Hv in Tx' by done. apply val_pend in Hv'. specialize (Hp _ Tx'). congruence.
    Qed.

    (** queued entries are values in the cache, in the order in which they are due *)
    Record DQ (s : sta) : Prop := {
      d_tv x : x ∈ a_dq (cs s) -> exists el, tv s x = Some el /\ el_pending el = false /\ (el_rf el <= m_steady (me s) + delay)%Z;
      d_sorted : StronglySorted (fun x y => (due s x <= due s y)%Z) (a_dq (cs s));
      d_nd : NoDup (a_dq (cs s))
    }.
    Lemma mini_DQ κ s s' : mini κ s s' -> DQ s -> DQ s'.
    Proof using Hrf.
      intros HM [D1 D2 D3]. destruct (mini_dq κ s s' HM) as (kept & new & E & Hsub & _ & Hk & Hnew & _). destruct (n_clk _ _ _ _ HM) as (Hst & _).
      assert (forall x, x ∈ kept -> exists el el', tv s x = Some el /\ tv s' x = Some el' /\ el_rf el' = el_rf el /\ el_pending el' = false /\ (el_rf el <= m_steady (me s) + delay)%Z) as Hk'.
      { intros x Hx. destruct (D1 x) as (el & T & Hp & Hle); [by eapply elem_of_sublist|]. destruct (Hk x el Hx T Hp) as (el' & T' & ? & ?). by exists el, el'. }
      assert (StronglySorted (fun x y => (due s' x <= due s' y)%Z) kept) as Hs.
      { eapply ssorted_impl; [|eapply ssorted_sublist; [exact Hsub|exact D2]]. intros x y Hx Hy. unfold due.
        destruct (Hk' x Hx) as (ex & ex' & -> & -> & -> & _), (Hk' y Hy) as (ey & ey' & -> & -> & -> & _). done. }
      assert (NoDup kept) as Hn by (by eapply nodup_sublist).
      split; rewrite E.
      - intros x [Hx|Hx]%elem_of_app.
        + destruct (Hk' x Hx) as (el & el' & T & T' & Er & Hp & Hle). exists el'. split_and!; [done|done|lia].
        + destruct Hnew as [->|(e & el' & -> & _ & T' & Er & Hp)]; [by apply elem_of_nil in Hx|]. apply elem_of_list_singleton in Hx as ->. exists el'. split_and!; [done|done|lia].
      - destruct Hnew as [->|(e & el' & -> & _ & T' & Er & Hp)]; [by rewrite app_nil_r|]. apply ssorted_snoc; [|done].
        intros x Hx. unfold due. rewrite T', Er. destruct (Hk' x Hx) as (ex & ex' & _ & -> & -> & _ & Hle). lia.
      - destruct Hnew as [->|(e & el' & -> & He & T' & Er & Hp)]; [by rewrite app_nil_r|]. apply NoDup_app. split_and!; [done| |apply NoDup_singleton].
        intros x Hx ->%elem_of_list_singleton. apply He. by eapply elem_of_sublist.
    Qed.
    Lemma path_DQ (A : kind -> Prop) s s' : path A s s' -> DQ s -> DQ s'.
    Proof using Hrf. apply path_inv. intros κ s1 s2 _. apply mini_DQ. Qed.

    (** entries become due by the passing of time only *)
    Definition dues (now : Z) (s : sta) : list N := filter (fun x => (due s x <= now)%Z) (a_dq (cs s)).
    Lemma mini_dues κ s s' now : (0 < delay)%Z -> (now <= m_steady (me s))%Z -> mini κ s s' -> DQ s -> sublist (dues now s') (dues now s).
    Proof using Hrf.
      intros Hd Hnow HM [D1 D2 D3]. destruct (mini_dq κ s s' HM) as (kept & new & E & Hsub & _ & Hk & Hnew & _). destruct (n_clk _ _ _ _ HM) as (Hst & _).
      unfold dues. rewrite E, filter_app.
      assert (filter (fun x => (due s' x <= now)%Z) new = []) as ->.
      { destruct Hnew as [->|(e & el' & -> & _ & T' & Er & Hp)]; [done|]. rewrite filter_cons_False; [done|]. unfold due. rewrite T', Er. lia. }
      rewrite app_nil_r.
      assert (filter (fun x => (due s' x <= now)%Z) kept = filter (fun x => (due s x <= now)%Z) kept) as ->.
      { apply filter_same. intros x Hx. destruct (D1 x) as (el & T & Hp & _); [by eapply elem_of_sublist|]. destruct (Hk x el Hx T Hp) as (el' & T' & Er & _).
        unfold due. by rewrite T, T', Er. }
      by apply filter_sub.
    Qed.
    Lemma path_dues (A : kind -> Prop) s s' now : (0 < delay)%Z -> (now <= m_steady (me s))%Z -> path A s s' -> DQ s -> sublist (dues now s') (dues now s).
    Proof using Hrf.
      intros Hd Hnow P HD. assert ((now <= m_steady (me s'))%Z /\ DQ s' /\ sublist (dues now s') (dues now s)) as (_ & _ & ?); [|done].
      eapply (path_inv k A (fun x => (now <= m_steady (me x))%Z /\ DQ x /\ sublist (dues now x) (dues now s))); [|exact P|done].
      intros κ s1 s2 _ HM (H1 & H2 & H3). destruct (n_clk _ _ _ _ HM) as (Hst & _). split_and!; [lia|by eapply mini_DQ|].
      etrans; [|exact H3]. by eapply mini_dues.
    Qed.
    (** so the keys of the entries that are due are among those that were *)
    Lemma path_dkeys (A : kind -> Prop) (D : Z -> Prop) s s' now : (0 < delay)%Z -> (now <= m_steady (me s))%Z -> path A s s' -> DQ s ->
      (forall x el, x ∈ dues now s -> tv s x = Some el -> D (el_key el)) -> forall x el, x ∈ dues now s' -> tv s' x = Some el -> D (el_key el).
    Proof using Hrf.
      intros Hd Hnow P HD HK. enough ((now <= m_steady (me s'))%Z /\ DQ s' /\ forall x el, x ∈ dues now s' -> tv s' x = Some el -> D (el_key el)) as (_ & _ & ?) by done.
      eapply (path_inv k A (fun y => (now <= m_steady (me y))%Z /\ DQ y /\ forall x el, x ∈ dues now y -> tv y x = Some el -> D (el_key el))); [|exact P|done].
      intros κ s1 s2 _ HM (H1 & H2 & H3). destruct (n_clk _ _ _ _ HM) as (Hst & _). split_and!; [lia|by eapply mini_DQ|].
      intros x el' Hx T'. assert (x ∈ dues now s1) as Hx1. { eapply elem_of_sublist; [by eapply mini_dues|done]. }
      pose proof Hx1 as [_ Hx0]%elem_of_list_filter. destruct (d_tv _ H2 x Hx0) as (el & T & _).
      destruct (mini_tv_facts k κ s1 s2 x el' HM T') as [(el0 & T0 & -> & _)|(? & ? & ? & _ & T0 & _)]; [|congruence]. by eapply H3.
    Qed.

    (** a time before anything in the queue is due *)
    Definition early (t : Z) (s : sta) : Prop := (t <= m_steady (me s) + delay)%Z /\ forall x, x ∈ a_dq (cs s) -> (t <= due s x)%Z.
    Lemma path_early (A : kind -> Prop) t s s' : path A s s' -> DQ s -> early t s -> early t s'.
    Proof using Hrf.
      intros P HD HE. enough (DQ s' /\ early t s') by tauto. pose proof (conj HD HE) as HH. clear HD HE. revert P HH. apply (path_inv k A (fun s => DQ s /\ early t s)). clear s s'. intros κ s s' _ HM [HD [E1 E2]].
      destruct (mini_dq κ s s' HM) as (kept & new & E & Hsub & _ & Hk & Hnew & _). destruct (n_clk _ _ _ _ HM) as (Hst & _).
      split; [by eapply mini_DQ|]. split; [lia|]. intros x. rewrite E. intros [Hx|Hx]%elem_of_app.
      - assert (x ∈ a_dq (cs s)) as Hx0 by (by eapply elem_of_sublist). destruct (d_tv _ HD x Hx0) as (el & T & Hp & _). destruct (Hk x el Hx T Hp) as (el' & T' & Er & _).
        specialize (E2 x Hx0). unfold due in *. rewrite T in E2. rewrite T'. congruence.
      - destruct Hnew as [->|(e & el' & -> & _ & T' & Er & _)]; [by apply elem_of_nil in Hx|]. apply elem_of_list_singleton in Hx as ->. unfold due. rewrite T', Er. lia.
    Qed.

    (** the values that nobody is going to refresh are in [X] *)
    Definition cover (X : N -> Prop) (s : sta) : Prop :=
      forall x el, tv s x = Some el -> is_val (el_map el) = true -> el_rs el = false -> late (me s) el = false -> x ∈ a_dq (cs s) \/ X x.
    Lemma mini_cover (X : N -> Prop) κ s s' : tame -> J s -> forward κ -> (forall e, κ = KPop e -> X e) -> mini κ s s' -> cover X s -> cover X s'.
    Proof using Hrf.
      intros Ht HJ Hf HX HM HC x el' T' Hv' Hrs' Hl'. destruct (n_clk _ _ _ _ HM) as (Hst & Hwl & _). specialize (Hwl Hf).
      destruct (mini_dq κ s s' HM) as (kept & new & E & _ & Hout & _ & _ & Hnew).
      assert (forall el, tv s x = Some el -> is_val (el_map el) = true -> el_rs el = false -> late (me s) el = false -> x ∈ a_dq (cs s') \/ X x) as Hok.
      { intros el T Hv Hrs Hl. destruct (HC x el T Hv Hrs Hl) as [Hx|Hx]; [|by right]. destruct (Hout x Hx) as [?|[?|?]]; [left; rewrite E; by apply elem_of_app; left|right; by apply HX|congruence]. }
      assert ((forall el, tv s x = Some el -> el_pending el = true) -> x ∈ a_dq (cs s') \/ X x) as Hn.
      { intros Hp. left. rewrite E. apply elem_of_app. right. by eapply Hnew. }
      assert (forall el, late (me s') el = false -> late (me s) el = false) as Hle.
      { intros el He. destruct (late (me s) el) eqn:El; [|done]. by rewrite (late_le (me s) (me s') el) in He. }
      destruct (mini_tv k κ s s' x el' HM T') as [(el & T & [->|[[Hc _]|[(i & o & δ & -> & c & Hc & -> & _)|[(i & o & c & p & y & cn & δ & -> & Hc & _ & Hce & Em & _ & ->)|(i & c & p & _ & _ & _ & _ & Em & ->)]]]])|(key & cl & mp & -> & T & _)].
      - apply (Hok el); auto.
      - destruct (el_pending el) eqn:Ep; [apply Hn; intros; congruence|]. pose proof (chg_facts k s x el κ el' Hc) as (_ & _ & Exw & Exs & Ers & _).
        assert (el_rs el = false) as Hrs by (destruct (el_rs el); [by rewrite Ers in Hrs'|done]).
        destruct (j_tame _ _ HJ x el Ht T) as [Hw _].
        assert (is_val (el_map el) = true) as Hv.
        { unfold el_pending in Ep. clear Hok Hn Hle HC. inversion Hc; subst; simpl in *; try done; unfold marked, m_mark_expired, m_weaken, m_strengthen, m_dead in Hv'; simpl in Hv'; destruct (el_map el) as [p| |[v|]| | |] eqn:Em; simpl in *; try done; first [by destruct (Hw v)|repeat case_match; done]. }
        apply (Hok el); try done. apply Hle in Hl'. inversion Hc; subst; try done.
        + match goal with H : el_expired _ _ _ = false |- _ => unfold el_expired in H; rewrite !orb_false_iff in H; destruct H as [[[_ X1] X2] X3] end. unfold late. by rewrite X1, X2, X3.
        + unfold late in Hl'. simpl in Hl'. rewrite AbsComp.reached_min in Hl'. rewrite !orb_false_iff in Hl'. destruct Hl' as [[X1 X2] [X3 _]]. unfold late. by rewrite X1, X2, X3.
      - unfold marked in Hv'. simpl in Hv'. unfold m_mark_expired, m_dead in Hv'. repeat case_match; done.
      - apply Hn. intros el0 T0. rewrite T in T0. injection T0 as <-. unfold el_pending. by rewrite Em.
      - done.
      - apply Hn. intros el0 T0. congruence.
    Qed.
    Lemma path_cover (X : N -> Prop) (A : kind -> Prop) s s' : tame -> J s -> (forall κ, A κ -> forward κ) -> (forall e, A (KPop e) -> X e) -> path A s s' -> cover X s -> cover X s'.
    Proof using Hrf.
      intros Ht HJ HA HX P HC. assert (J s' /\ cover X s') as [_ H]; [|done].
      eapply (path_inv k A (fun s => J s /\ cover X s)); [|exact P|done]. intros κ s1 s2 H1 H2 [H3 H4]. split; [by eapply mini_J|].
      eapply mini_cover; try done; [by apply HA|]. intros e ->. by apply HX.
    Qed.
  End rf.

  Lemma path_steady (A : kind -> Prop) s s' : path A s s' -> (m_steady (me s) <= m_steady (me s'))%Z.
  Proof. induction 1 as [|s1 s2 s3 (κ & _ & HM) _ IH]; [lia|]. destruct (n_clk _ _ _ _ HM) as (? & _). lia. Qed.
  Lemma rm_shrinks e (l : list N) : e ∈ l -> length (rm e l) < length l.
  Proof.
    unfold rm. induction l as [|x l IH]; [by intros ?%elem_of_nil|]. intros [->|H]%elem_of_cons; rewrite filter_cons.
    - rewrite decide_False by tauto. simpl. pose proof (filter_length (fun y => y <> x) l). lia.
    - specialize (IH H). case_decide; simpl; lia.
  Qed.
  (** taking an entry off the queue *)
  Lemma pop_dues e s s' now : mini (KPop e) s s' -> dues now s' = rm e (dues now s).
  Proof.
    intros [_ _ _ _ HB _]. remember (KPop e) as κ eqn:Eκ. destruct HB as [κ Hκ Hv _ Hdq _|κ e0 el o T Hc|?|?|?]; try done; subst κ; [|by inversion Hc].
    unfold dues. rewrite Hdq. unfold rm. rewrite !list_filter_filter. apply filter_same. intros x _. unfold due. rewrite Hv. tauto.
  Qed.
  (** an entry marked as being refreshed stays so *)
  Lemma path_marked (A : kind -> Prop) s s' e : (forall key cl o, ~ A (KEnter key cl o)) -> path A s s' ->
    (forall el, tv s e = Some el -> el_rs el = true) -> (forall el, tv s' e = Some el -> el_rs el = true).
  Proof.
    intros HA. apply (path_inv k A (fun s => forall el, tv s e = Some el -> el_rs el = true)). intros κ s1 s2 H1 HM H el' T'.
    destruct (mini_tv_facts k κ s1 s2 e el' HM T') as [(el & T & _ & Hr & _)|(key & cl & mp & -> & _)]; [apply Hr; by eapply H|by destruct (HA _ _ _ H1)].
  Qed.
End delay.
