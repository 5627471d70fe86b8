(** Pointer caches whose old entries become weak pointers (lemmas for PropertiesWeak.v). *)
From Verif Require Import Base LinkedList AQueue ATable BasicHashtable LinkedListProofs QueueProofs BasicHashtableProofs ContainersProofs Mapped Cache CachePtr CacheAbs CompSim CacheSim AbsInv AbsPrim AbsPrim2 AbsSweep AbsOps AbsComp Trace AbsTrace TraceInv Delay AbsTraceCb Histories AbsResolve AbsStep AbsLook Effects Observe Transfer Lookups Answers Waiters Calls Origins Rounds Idle Refresh Entries.

(** ** Specification (used in PropertiesWeak.v) *)
(** The user does not drop their pointer to [v]. *)
Definition clings (v : Z) (o : op) : bool :=
  match o with OAdvance _ _ => true | ORelease w => negb (bool_decide (w = v)) | _ => timeless o end.

Section weak.
  Context (k : cfg) (Hk : fine_cfg k).
  Notation srel := (srel comp_abs comp_ptr crel).
  Notation top := (top k).
  Notation free := (fun κ => κ = KFree).

  (** the entry holds a strong or a weak pointer to [v] and nothing in front of it will be found *)
  Definition points (v : Z) (m : mapped) : Prop := m = MVal v \/ m = MWeak (Some v).
  Definition rests (s : sta) (key v : Z) (x : N) (el : elem) : Prop :=
    tv s x = Some el /\ points v (el_map el) /\ k_eq k (el_key el) key = true /\
    exists l1 l2, hseq s (k_hash k key) = l1 ++ x :: l2 /\
      forall y ey, y ∈ l1 -> tv s y = Some ey -> k_eq k (el_key ey) key = true -> hopeful (el_map ey) = false.
  Definition leaves (key : Z) (κ : kind) : Prop :=
    match κ with KClear => False | KErase key' => other k key key' | _ => True end.

  Context (Hrf : k_refresh k = None) (Hpt : k_pointer k = true) (Hwk : k_weaken k = true).
  (** the deadlines of the entry do not pass until the wall clock shows [W] and the steady one [T] *)
  Definition early (W T : Z) (el : elem) : Prop := reached W (el_xw el) = false /\ reached T (el_xs el) = false.
  Lemma early_late W T s x el : J k s -> tv s x = Some el -> early W T el -> (m_wall (me s) <= W)%Z -> (m_steady (me s) <= T)%Z -> late (me s) el = false.
  Proof using Hrf.
    intros HJ Tx [E1 E2] H1 H2. destruct (j_cn _ _ HJ x el Hrf Tx) as [E3 _]. unfold late. rewrite E3, !orb_false_iff. split_and!; [..|done]; apply not_true_is_false; intros H;
      eapply reached_le in H; try eassumption; congruence.
  Qed.
  Lemma mini_rests κ s s' key v x el : J k s -> mini k κ s s' -> v ∉ m_dropped (me s) -> rests s key v x el -> late (me s) el = false -> leaves key κ ->
    exists el', rests s' key v x el' /\ el_xw el' = el_xw el /\ el_xs el' = el_xs el.
  Proof using Hk Hrf Hpt Hwk.
    intros HJ HM Hdr (T & Em & Ek & l1 & l2 & Eq & Hd) Hl Hsp.
    assert (el_pending el = false) as Hnp by (unfold el_pending; by destruct Em as [-> | ->]).
    assert (el_expired k (me s) el = false) as Hne.
    { unfold el_expired. unfold late in Hl. rewrite !orb_false_iff in Hl. destruct Hl as ((-> & ->) & ->).
      destruct Em as [-> | ->]; simpl; [done|]. unfold alive. by rewrite bool_decide_true. }
    assert (exists el', tv s' x = Some el' /\ points v (el_map el') /\ el_key el' = el_key el /\ el_xw el' = el_xw el /\ el_xs el' = el_xs el) as (el' & T' & Em' & Ek' & X1 & X2).
    { destruct (n_body _ _ _ _ HM) as [κ _ Hv _ _ _|κ e el0 o T0 Hc T0' Hv _ _|e key' cl mp T0 Hn _ Hmp T0' Hv _ _ _ _|i c e el0 p o z cn δ Hc Hcc Hce T0 Em0 _ T0' Hv _ _ _ _|i c e el0 p Hc Hcc Hce T0 Em0 T0' Hv _ _].
      - exists el. by rewrite Hv.
      - destruct (decide (x = e)) as [->|Hne']; [|exists el; by rewrite Hv].
        assert (el0 = el) as -> by congruence. clear Hv.
        inversion Hc; subst; simpl in Hsp; try done; try congruence.
        + exfalso. destruct Hsp as [_ Hsp]. match goal with H : k_eq k (el_key el) key0 = true |- _ => by rewrite (Hsp _ H) in Ek end.
        + match goal with H : Some _ = tv s' e |- _ => rewrite <-H end. eexists. split; [reflexivity|]. simpl. split; [|done]. rewrite Hpt. destruct Em as [-> | ->]; by right.
        + match goal with H : Some _ = tv s' e |- _ => rewrite <-H end. eexists. split; [reflexivity|]. simpl. split; [|done]. rewrite Hpt. destruct Em as [-> | ->]; simpl; [by left|].
          unfold alive. rewrite bool_decide_true by done. by left.
        + exfalso. unfold el_pending in Hnp. match goal with H : el_map el = MPend _ |- _ => by rewrite H in Hnp end.
      - exists el. rewrite Hv by (intros ->; congruence). done.
      - exists el. rewrite Hv by (intros ->; rewrite T0 in T; injection T as ->; unfold el_pending in Hnp; by rewrite Em0 in Hnp).
        destruct (j_cn _ _ HJ _ _ Hrf T0) as [_ E]. rewrite Em0 in E. simpl in E. rewrite E, decide_False by apply not_elem_of_nil. rewrite option_fmap_id. done.
      - exists el. rewrite Hv by (intros ->; rewrite T0 in T; injection T as ->; unfold el_pending in Hnp; by rewrite Em0 in Hnp). done. }
    exists el'. split; [|done]. split_and!; [done|done|by rewrite Ek'|].
    assert (forall l1' : list N, (forall y, y ∈ l1' -> y ∈ l1) -> forall y ey, y ∈ l1' -> tv s' y = Some ey -> k_eq k (el_key ey) key = true -> hopeful (el_map ey) = false) as Hd'.
    { intros l1' Hsub y ey Hy Ty Eky. apply Hsub in Hy. destruct (hopeful (el_map ey)) eqn:Hh; [exfalso|done].
      destruct (mini_hope k κ s s' y ey HM Ty Hh) as [(ey0 & Ty0 & Ek0 & H0)|(k0 & c0 & o & _ & Tn & _)].
      - rewrite (Hd y ey0 Hy Ty0) in H0; [done|congruence].
      - assert (y ∈ hseq s (k_hash k key)) as Hyh by (rewrite Eq; apply elem_of_app; by left). by rewrite (mini_old k κ s s' _ y HM Hyh Tn) in Ty. }
    destruct (mini_hseq k κ s s' (k_hash k key) HM) as [E|[(y & ey & Ty & Ty' & E)|(y & key' & cl & o & _ & _ & _ & _ & E & _)]]; rewrite E, Eq.
    - exists l1, l2. split; [done|]. by apply Hd'.
    - exists (rm y l1), (rm y l2). split; [apply rm_split; congruence|]. apply Hd'. intros z Hz. unfold rm in Hz. apply elem_of_list_filter in Hz. tauto.
    - exists l1, (l2 ++ [y]). split; [by rewrite <-app_assoc|]. by apply Hd'.
  Qed.
  Lemma path_rests (A : kind -> Prop) W T s s' key v x el : (forall κ, A κ -> drift_of κ = Still /\ leaves key κ) -> path k A s s' -> J k s -> v ∉ m_dropped (me s) ->
    (m_wall (me s) <= W)%Z -> (m_steady (me s) <= T)%Z -> rests s key v x el -> early W T el -> v ∉ m_dropped (me s') /\ exists el', rests s' key v x el' /\ early W T el'.
  Proof using Hk Hrf Hpt Hwk.
    intros HA P. revert el. induction P as [s|s1 s2 s3 (κ & H1 & H2) P IH]; intros el HJ Hd HW HT HF HE; [eauto|].
    destruct (HA κ H1) as [Hs Hl]. assert (late (me s1) el = false) as Hlt by (destruct HF as [Tx _]; by eapply early_late).
    destruct (mini_rests κ s1 s2 key v x el HJ H2 Hd HF Hlt Hl) as (el' & HF' & X1 & X2).
    destruct (n_clk _ _ _ _ H2) as (_ & _ & C). destruct (C Hs) as (C1 & C2 & C').
    apply (IH el'); [by eapply mini_J|set_solver|by rewrite C1|by rewrite C2|done|]. unfold early. by rewrite X1, X2.
  Qed.
  (** it is found *)
  Lemma rests_lookup g s key v x el : inv k g s -> a_torn (cs s) = None -> J k s -> v ∉ m_dropped (me s) -> rests s key v x el -> late (me s) el = false -> p_lookup k s key = RV v.
  Proof using.
    intros Hi Ht HJ Hdr (T & Em & Ek & l1 & l2 & Eq & Hd) Hl.
    unfold p_lookup. assert (firstv (ans k s (k_hash k key) key false) (bucket s (k_hash k key)) = firstv (ans k s (k_hash k key) key false) (hseq s (k_hash k key))) as ->.
    { rewrite (hseq_bucket k g) by done. rewrite firstv_filter. apply firstv_ext. intros y Hy. case_decide as D; [done|]. unfold ans. destruct (a_hash (cs s) !! y) as [h|]; [|done].
      destruct (m_els (me s) !! y); [|done]. rewrite bool_decide_false; [done|]. congruence. }
    assert (forall y, y ∈ hseq s (k_hash k key) -> a_hash (cs s) !! y = Some (k_hash k key) /\ y ∈ tab s) as Hh. { intros y Hy. unfold hseq in Hy. by apply elem_of_list_filter in Hy. }
    rewrite Eq in Hh |- *. rewrite firstv_app, firstv_none.
    - simpl. unfold ans. destruct (Hh x) as [-> Hx]; [apply elem_of_app; right; by left|]. apply tv_elim in T as (_ & el0 & He0 & ->). rewrite He0. simpl in *. rewrite bool_decide_true, Ek by done.
      unfold el_expired. unfold late in Hl. simpl in Hl. rewrite !orb_false_iff in Hl. destruct Hl as ((-> & ->) & ->).
      destruct Em as [-> | ->]; simpl; [done|]. unfold alive. by rewrite bool_decide_true.
    - intros y Hy. unfold ans. destruct (Hh y) as [-> Hyt]; [apply elem_of_app; by left|]. destruct (m_els (me s) !! y) as [ey|] eqn:Ey; [|done].
      rewrite bool_decide_true by done. destruct (k_eq k (el_key ey) key) eqn:Eky; [|done]. pose proof (Hd y _ Hy (tv_some s y ey Hyt Ey) Eky) as Hho. simpl in Hho. simpl.
      destruct (el_expired k (me s) ey) eqn:Ex; [done|]. unfold el_expired in Ex. rewrite !orb_false_iff in Ex. destruct Ex as ((((_ & X2) & _) & _) & _). simpl.
      destruct (el_map ey) as [p|w|[w|]|z| |]; simpl in *; try done.
  Qed.
  (** ** Histories *)
  Lemma drift_max_still a b : a = Still -> b = Still -> drift_max a b = Still.
  Proof using. by intros -> ->. Qed.
  Lemma okind_still o κ : fine_op true o = true -> okind k o κ -> timeless o = true -> drift_of κ = Still.
  Proof using.
    assert (forall us, forallb (forallb timeless) us = true -> drift_runs us = Still) as Hus.
    { assert (forall u, forallb timeless u = true -> drift_ops u = Still) as Hu.
      { induction u as [|y u IH]; [done|]. simpl. intros [H1 H2]%andb_true_iff. apply drift_max_still; [by destruct y|by apply IH]. }
      induction us as [|u us IH]; [done|]. simpl. intros [H1 H2]%andb_true_iff. apply drift_max_still; [by apply Hu|by apply IH]. }
    induction o as [o IH] using op_ind'.
    assert (forall l, Forall (fun o => fine_op true o = true -> okind k o κ -> timeless o = true -> drift_of κ = Still) l -> forallb (fine_op true) l = true ->
        anyof (fun o => okind k o κ) l -> forallb timeless l = true -> drift_of κ = Still) as Hsub.
    { intros l IHl Hf (x & Hx & Ho)%anyof_exists Hs. apply (Forall_in _ _ _ IHl Hx); [exact (forallb_in _ _ _ Hf Hx)|done|exact (forallb_in _ _ _ Hs Hx)]. }
    destruct o; simpl; try done; try (by intros; subst; intuition (subst; done)); try (by intros _ H _; destruct κ; try done; repeat destruct H as [H|H]).
    - intros [Hf _]%andb_true_iff [->|[->|[_ [(o & -> & _)|Ho]]]]; try done. by apply Hsub.
    - destruct IH as [IH1 IH2]. intros [Hf1 Hf2]%andb_true_iff [_ [->|[->|[->|[(? & -> & _)|[Ho|Ho]]]]]] [Hs1 Hs2]%andb_true_iff; try done; [by apply (Hsub script)|by apply (Hsub imm)].
    - intros _ -> Hs. by apply Hus.
    - intros _ -> Hs. by apply Hus.
  Qed.
  Lemma top_still o n κ : fine_op false o = true -> upto (okind k o) n κ -> timeless o = true -> drift_of κ = Still.
  Proof using Hrf.
    intros Hf [Ho|(i & -> & _)] Ht; [|done]. destruct (match o with OTick _ | ODestroy => true | _ => false end) eqn:Et.
    - destruct o; try done. simpl in Ho. rewrite Hrf in Ho. by destruct Ho as [[? ?] _].
    - apply (okind_still o); [by destruct o|done|done].
  Qed.
  Lemma rests_run W C key v x l : eq_ok k -> forall (s s' : sta) el, top s -> m_up (me s) = true -> fine l -> ODestroy ∉ l -> existsb (spoils k key) l = false -> forallb (clings v) l = true ->
    k_steady k = true \/ existsb sets_back l = false -> run k l s = Ok s' -> (m_wall (me s') <= W)%Z -> (m_steady (me s') <= C)%Z ->
    v ∉ m_dropped (me s) -> rests s key v x el -> early W C el -> m_up (me s') = true /\ v ∉ m_dropped (me s') /\ exists el', rests s' key v x el' /\ early W C el'.
  Proof using Hk Hrf Hpt Hwk.
    intros Hq. induction l as [|o l IH]; intros s s' el T Hup Hf Hd Hsp Hc Hb R HW HC Hdr HF HE.
    { injection R as <-. eauto. }
    pose proof (run_clk k Hk (o :: l) s s' T Hup Hf Hd Hb R) as (_ & C1 & C2).
    rewrite run_cons in R. unfold fine in Hf. simpl in Hf, Hsp, Hc, Hb. apply andb_true_iff in Hf as [Hf1 Hf2]. apply orb_false_iff in Hsp as [Hsp1 Hsp2]. apply andb_true_iff in Hc as [Hc1 Hc2]. rewrite orb_false_iff in Hb.
    assert (o <> ODestroy) as Hn by (intros ->; apply Hd; left).
    destruct (top_step k Hk o s T Hf1) as (s1 & r1 & E1 & T1 & _ & _ & Hu & _). destruct (Hu Hup Hn) as (U1 & P1 & _). rewrite E1 in R. unfold rbind in R.
    destruct (top_facts k s T Hup) as (Hi & Htn & HJ).
    assert (v ∉ m_dropped (me s1) /\ exists el', rests s1 key v x el' /\ early W C el') as (Hdr1 & el1 & HF1 & HE1).
    { destruct (timeless o) eqn:Et.
      - apply (path_rests (upto (okind k o) (m_ncb (me s))) W C s s1 key v x el); try done; [|lia|lia]. intros κ HA. split; [by eapply top_still|].
        destruct HA as [HA|(j & -> & _)]; [|done]. destruct κ as [| | |key'| | | | |key'| | | |]; simpl; try done.
        + apply other_of; [done|]. destruct (k_eq k key' key) eqn:E; [|done]. rewrite (top_spoils k key o _ Hf1 HA) in Hsp1; [done|right; eauto].
        + rewrite (top_spoils k key o KClear Hf1 HA) in Hsp1; [done|by left].
      - rewrite step_eq in E1. unfold step_with in E1. rewrite Hup in E1.
        destruct o; simpl in *; try congruence; injection E1 as <- <-; split; try done; try by exists el.
        apply not_elem_of_union. split; [|done]. apply not_elem_of_singleton. apply negb_true_iff, bool_decide_eq_false in Hc1. congruence. }
    apply (IH s1 s' el1); try done; [intros ?; apply Hd; by right|]. destruct Hb as [?|[_ ?]]; tauto.
  Qed.
  (** ** Where it begins *)
  Lemma insert_rests W C g s key v key' : eq_ok k -> inv k g s -> a_torn (cs s) = None -> g_xs g = [] -> J k s -> nohope k s key -> k_eq k key key' = true -> v ∉ m_dropped (me s) ->
    (m_wall (me s) <= W)%Z -> (m_steady (me s) <= C)%Z ->
    (forall d, k_max_age k = Some d -> (W < m_wall (me s) + d)%Z /\ (k_steady k = false -> (C < m_steady (me s) + d)%Z)) ->
    v ∉ m_dropped (me (f_maint k (f_insert k s key v))) /\ exists x el, rests (f_maint k (f_insert k s key v)) key' v x el /\ early W C el.
  Proof using Hk Hrf Hpt Hwk.
    intros Hq Hi Ht Hx HJ Hn Ek Hdr HW HC Hage.
    destruct (insert_ends k g s key v Hi Ht) as [I3 T3].
    destruct (insert_enter k g s key v HClean Hi Ht Hx) as (s2 & P2 & M); [done|].
    assert (nohope k s2 key) as Hn2 by (by eapply free_nohope).
    assert (J k s2) as J2 by (by eapply path_J).
    assert (v ∉ m_dropped (me s2) /\ m_wall (me s2) = m_wall (me s) /\ m_steady (me s2) = m_steady (me s)) as (Hd2 & W2 & C2).
    { apply (path_inv k free (fun s2 => v ∉ m_dropped (me s2) /\ m_wall (me s2) = m_wall (me s) /\ m_steady (me s2) = m_steady (me s)) s); [|exact P2|done].
      intros κ u u' -> [_ _ (_ & _ & D) _ _] (H1 & H2 & H3). destruct (D eq_refl) as (D1 & D2 & D3). split; [set_solver|]. split; congruence. }
    set (s3 := f_insert k s key v) in *. pose proof (mini_J k _ _ _ M J2) as J3.
    assert (v ∉ m_dropped (me s3) /\ m_wall (me s3) = m_wall (me s) /\ m_steady (me s3) = m_steady (me s)) as (Hd3 & W3 & C3).
    { destruct M as [_ _ (_ & _ & D) _ _]. destruct (D eq_refl) as (D1 & D2 & D3). split; [set_solver|]. split; congruence. }
    assert (exists x el, rests s3 key' v x el /\ early W C el) as (x & el & HF & HE).
    { destruct (enter_firm k true _ _ _ key HClean v key' M eq_refl Ek (eq_hash k key key' Hq Ek)) as (x & F1 & F2 & F3 & l1 & l2 & F4 & F5).
      - intros y ey Hy Ty Eky. left. apply (Hn2 y ey Ty). assert (k_eq k (el_key ey) key = true) as Hk3 by (destruct Hq as (_ & H2 & Htr & _); eapply Htr; [exact Eky|by apply H2]). split; [by apply eq_hash|done].
      - exists x, (born k (me s2) key (MVal v)). split.
        + split_and!; [done|by left|done|]. exists l1, l2. split; [done|]. intros y ey H1 H2 H3. destruct (F5 y ey H1 H2 H3) as [?|[? _]]; done.
        + unfold early, born, assigned, aged. simpl. rewrite Hrf, W2, C2. destruct (k_max_age k) as [d|], (k_err_age k); simpl; try done.
          all: destruct (Hage d eq_refl) as [A1 A2]; rewrite bool_decide_false by lia; split; [done|]; destruct (k_steady k); simpl; [done|]; specialize (A2 eq_refl); by rewrite bool_decide_false by lia. }
    destruct (path_rests (fun κ => κ = KFree \/ evicting κ) W C s3 (f_maint k s3) key' v x el) as (Hd4 & el' & HF' & HE'); try done.
    - by intros κ [-> |He]; [|destruct κ].
    - eapply maint_path; try done; intros; simpl; tauto.
    - by rewrite W3.
    - by rewrite C3.
    - eauto.
  Qed.
  Lemma rests_peek s sc key v x el : srel s sc -> top s -> m_up (me s) = true -> v ∉ m_dropped (me s) -> rests s key v x el -> late (me s) el = false -> peek k sc key = Some v.
  Proof using.
    intros S T U Hd HF Hl. destruct (top_facts k s T U) as (I3 & Tn3 & J3). unfold peek, answer.
    assert (exists sa', step k false (OGetIf key) s = Ok (sa', RetVal v)) as (sa' & E).
    { rewrite step_eq. unfold step_with. rewrite U. simpl. rewrite (lookup_eq k g0 s key I3 Tn3). simpl. rewrite (rests_lookup g0 s key v x el I3 Tn3 J3 Hd HF Hl). by eexists. }
    by destruct (step_c k _ _ _ _ _ _ S E) as (sc' & -> & _).
  Qed.
  Lemma kept_pointer l1 key v l2 sc1 sc3 key' : eq_ok k -> fine (l1 ++ OEmplace key v :: l2) -> after k l1 sc1 -> after k (l1 ++ OEmplace key v :: l2) sc3 ->
    m_up (me sc1) = true -> v ∉ m_dropped (me sc1) -> k_eq k key key' = true -> ODestroy ∉ l2 -> existsb (spoils k key') l2 = false -> forallb (clings v) l2 = true ->
    k_steady k = true \/ existsb sets_back l2 = false ->
    (forall d, k_max_age k = Some d -> (m_wall (me sc3) < m_wall (me sc1) + d)%Z /\ (k_steady k = false -> (m_steady (me sc3) < m_steady (me sc1) + d)%Z)) ->
    peek k sc3 key' = Some v.
  Proof using Hk Hrf Hpt Hwk.
    intros Hq Hf Ha1 Ha3 Hup Hdr Ek Hd Hsp Hc Hb Hage.
    assert (fine l1 /\ fine l2) as (Hf1 & Hf2). { apply fine_app in Hf as [? Hf]. by apply andb_true_iff in Hf as [? ?]. }
    destruct (after_abs k Hk l1 sc1 Hf1 Ha1) as (sa1 & R1 & S1 & T1 & _). destruct (after_abs k Hk _ sc3 Hf Ha3) as (sa3 & R3 & S3 & T3 & _).
    rewrite <-(srel_me _ _ S1), <-(srel_me _ _ S3) in Hage.
    assert (m_up (me sa1) = true) as Hupa by (by rewrite (srel_me _ _ S1)). assert (v ∉ m_dropped (me sa1)) as Hdra by (by rewrite (srel_me _ _ S1)).
    destruct (top_facts k sa1 T1 Hupa) as (Hi & Ht & HJ).
    rewrite run_app, R1 in R3. unfold rbind in R3.
    destruct (run_clk k Hk (OEmplace key v :: l2) sa1 sa3 T1 Hupa) as (_ & Cw & Cs); [unfold fine; simpl; exact Hf2|by intros [?|?]%elem_of_cons|done|done|].
    rewrite run_cons in R3.
    destruct (top_step k Hk (OEmplace key v) sa1 T1 eq_refl) as (sa2 & r2 & E2 & T2 & _ & _ & Hu2 & _). destruct (Hu2 Hupa ltac:(done)) as (U2 & _). rewrite E2 in R3. unfold rbind in R3.
    assert (holds k sa1 v = true) as Hh. { unfold holds. rewrite Hpt. simpl. by rewrite bool_decide_true. }
    rewrite (step_emplace k sa1 key v T1 Hupa Hh) in E2. injection E2 as <- <-. unfold f_emplace in *.
    destruct (expire_ends k g0 sa1 key Hi Ht) as ((_ & I1 & _) & Tn1).
    assert (path k (fun κ => κ = KFree \/ κ = KErase key) sa1 (f_expire k sa1 key)) as P1 by (eapply expire_path; try done; tauto).
    assert (v ∉ m_dropped (me (f_expire k sa1 key)) /\ m_wall (me (f_expire k sa1 key)) = m_wall (me sa1) /\ m_steady (me (f_expire k sa1 key)) = m_steady (me sa1)) as (Hd1 & W1 & C1).
    { apply (path_inv k (fun κ => κ = KFree \/ κ = KErase key) (fun s2 => v ∉ m_dropped (me s2) /\ m_wall (me s2) = m_wall (me sa1) /\ m_steady (me s2) = m_steady (me sa1)) sa1); [|exact P1|done].
      intros κ u u' HA [_ _ (_ & _ & D) _ _] (H1 & H2 & H3). destruct D as (D1 & D2 & D3); [by destruct HA as [-> | ->]|]. split; [set_solver|]. split; congruence. }
    destruct (insert_rests (m_wall (me sa3)) (m_steady (me sa3)) g0 (f_expire k sa1 key) key v key' Hq I1 Tn1 eq_refl) as (Hd2 & x & el & HF & HE); [by eapply path_J|by eapply expire_nohope|done|done|by rewrite W1|by rewrite C1|by rewrite W1, C1|].
    destruct (rests_run _ _ key' v x l2 Hq _ _ _ T2 U2 Hf2 Hd Hsp Hc Hb R3 (Z.le_refl _) (Z.le_refl _) Hd2 HF HE) as (U3 & Hd3 & el' & HF' & HE').
    destruct (top_facts k sa3 T3 U3) as (I3 & Tn3 & J3). eapply rests_peek; try done. destruct HF' as [T' _]. eapply early_late; try done.
  Qed.

  (** ** What is found stays *)
  Lemma lookup_rests g s key v : eq_ok k -> inv k g s -> a_torn (cs s) = None -> J k s -> uq k none s -> p_lookup k s key = RV v ->
    exists x el, rests s key v x el /\ late (me s) el = false /\ (el_map el = MVal v \/ alive (me s) v = true).
  Proof using Hrf.
    intros Hq Hi Ht HJ Hu Hl. unfold p_lookup in Hl. destruct (firstv_split _ _ _ Hl) as (l1 & x & l2 & Eb & Ea & _); [done|].
    unfold ans in Ea. destruct (a_hash (cs s) !! x) as [h|] eqn:Eh; [|done]. destruct (m_els (me s) !! x) as [el0|] eqn:Ee; [|done].
    destruct (bool_decide (h = k_hash k key)) eqn:Ehk; [|done]. apply bool_decide_eq_true in Ehk as ->. destruct (k_eq k (el_key el0) key) eqn:Ek; [|done]. simpl in Ea.
    destruct (el_expired k (me s) el0) eqn:Ex; [done|]. simpl in Ea.
    assert (x ∈ tab s) as Hx. { eapply bucket_in. rewrite Eb. apply elem_of_app. right. by left. }
    assert (tv s x = Some (with_rc el0 0)) as Tx by (by apply tv_some).
    assert (points v (el_map el0) /\ (el_map el0 = MVal v \/ alive (me s) v = true)) as [Hp Hal].
    { destruct (el_map el0) as [p|w|[w|]|z| |] eqn:Em; simpl in Ea; try done; [injection Ea as ->; split; by left|].
      destruct (alive (me s) w) eqn:Hw; [|done]. injection Ea as ->. split; by right. }
    assert (x ∈ hseq s (k_hash k key)) as Hxh by (apply elem_of_list_filter; split; [exact Eh|exact Hx]).
    exists x, (with_rc el0 0). split; [|split; [|exact Hal]].
    - split_and!; try done. apply elem_of_list_split in Hxh as (m1 & m2 & Em). exists m1, m2. split; [done|]. intros y ey Hy Ty Eky.
      destruct (hopeful (el_map ey)) eqn:Hh; [exfalso|done].
      assert (x <> y) as Hne.
      { intros <-. assert (NoDup (hseq s (k_hash k key))) as Hnd. { apply NoDup_filter. by eapply tab_nodup. } rewrite Em in Hnd. apply NoDup_app in Hnd as (_ & Hd & _). apply (Hd x Hy). by left. }
      assert (forall n o, ~ linked s n o) as Hno.
      { intros n o (en & p & Tn & Emn & Ho). destruct (j_cn _ _ HJ n en Hrf Tn) as [_ Hc]. rewrite Emn in Hc. simpl in Hc. rewrite Hc in Ho. by apply elem_of_nil in Ho. }
      destruct Hq as (_ & Q2 & Q3 & _).
      destruct (Hu x y (with_rc el0 0) ey Tx Ty Hne) as [H|[H|[[]|[]]]]; [simpl; eapply Q3; [exact Ek|by apply Q2]|simpl; by destruct Hp as [-> | ->]|done|by eapply Hno|by eapply Hno].
    - unfold el_expired in Ex. rewrite !orb_false_iff in Ex. unfold late. simpl. rewrite !orb_false_iff. tauto.
  Qed.
  Lemma peek_found s sc key v : srel s sc -> top s -> peek k sc key = Some v -> m_up (me s) = true /\ p_lookup k s key = RV v.
  Proof using Hk.
    intros S T Hp. destruct (step k false (OGetIf key) s) as [[sa' r]| | |] eqn:E.
    2-4: destruct (top_step k Hk (OGetIf key) s T eq_refl) as (s1 & r1 & E1 & _); congruence.
    destruct (step_c k _ _ _ _ _ _ S E) as (sc' & Ec & _). unfold peek, answer in Hp. rewrite Ec in Hp. destruct r; try done. injection Hp as ->.
    rewrite step_eq in E. unfold step_with in E. destruct (m_up (me s)) eqn:Hup; [|done]. simpl in E. destruct (top_facts k s T Hup) as (Hi & Ht & _).
    rewrite (lookup_eq k g0 s key Hi Ht) in E. simpl in E. destruct (p_lookup k s key) eqn:El; try done. injection E as _ ->. done.
  Qed.
  Lemma found_pointer l1 dw ds l2 sc1 sc2 sc3 key v : eq_ok k -> fine (l1 ++ l2) -> forallb (plain_op k) l1 = true ->
    after k l1 sc1 -> after k (l1 ++ [OAdvance dw ds]) sc2 -> after k (l1 ++ l2) sc3 ->
    peek k sc1 key = Some v -> peek k sc2 key = Some v -> v ∉ m_dropped (me sc1) ->
    ODestroy ∉ l2 -> existsb (spoils k key) l2 = false -> forallb (clings v) l2 = true -> k_steady k = true \/ existsb sets_back l2 = false ->
    (m_wall (me sc3) <= m_wall (me sc2))%Z -> (m_steady (me sc3) <= m_steady (me sc2))%Z -> peek k sc3 key = Some v.
  Proof using Hk Hrf Hpt Hwk.
    intros Hq Hf Hpl Ha1 Ha2 Ha3 Hp1 Hp2 Hdr Hd Hsp Hc Hb Hw Hs. pose proof Hf as [Hf1 Hf2]%fine_app.
    assert (fine (l1 ++ [OAdvance dw ds])) as Hfa by (apply fine_app; split; [done|by apply fine_one]).
    destruct (after_abs k Hk l1 sc1 Hf1 Ha1) as (s1 & R1 & S1 & T1 & _). destruct (after_abs k Hk _ sc2 Hfa Ha2) as (s2 & R2 & S2 & T2 & _).
    destruct (after_abs k Hk _ sc3 Hf Ha3) as (s3 & R3 & S3 & T3 & _).
    rewrite <-(srel_me _ _ S3), <-(srel_me _ _ S2) in Hw, Hs. rewrite <-(srel_me _ _ S1) in Hdr.
    destruct (peek_found s1 sc1 key v S1 T1 Hp1) as [U1 Hl1]. destruct (peek_found s2 sc2 key v S2 T2 Hp2) as [U2 Hl2].
    destruct (top_facts k s1 T1 U1) as (I1 & Tn1 & J1). destruct (top_facts k s2 T2 U2) as (I2 & Tn2 & J2).
    assert (uq k none s1) as Hu1. { apply (run_unique k Hk Hq l1 st_init s1 (top_init k) Hf1 Hpl R1); [intros _; apply uq_init|done]. }
    pose proof (advance_run k _ dw ds _ _ R1 R2 U1) as E2.
    destruct (lookup_rests g0 s1 key v Hq I1 Tn1 J1 Hu1 Hl1) as (x & el & HF & Hnl & _).
    assert (uq k none s2) as Hu2. { rewrite E2. exact Hu1. }
    destruct (lookup_rests g0 s2 key v Hq I2 Tn2 J2 Hu2 Hl2) as (y & ey & HFy & Hnly & _).
    assert (tv s1 = tv s2) as Et by (by rewrite E2).
    assert (y = x /\ ey = el) as [-> ->].
    { destruct HF as (Tx & Em & Ek & _), HFy as (Ty & Emy & Eky & _). rewrite <-Et in Ty. destruct (decide (y = x)) as [->|Hne]; [split; [done|congruence]|exfalso].
      assert (forall n o, ~ linked s1 n o) as Hno.
      { intros n o (en & p & Tn & Emn & Ho). destruct (j_cn _ _ J1 n en Hrf Tn) as [_ Hcn]. rewrite Emn in Hcn. simpl in Hcn. rewrite Hcn in Ho. by apply elem_of_nil in Ho. }
      destruct Hq as (_ & Q2 & Q3 & _).
      destruct (Hu1 y x ey el Ty Tx Hne) as [H|[H|[[]|[]]]]; [eapply Q3; [exact Eky|by apply Q2]|by destruct Emy as [-> | ->]|by destruct Em as [-> | ->]|by eapply Hno|by eapply Hno]. }
    assert (early (m_wall (me s2)) (m_steady (me s2)) el) as HE. { unfold late in Hnly. rewrite !orb_false_iff in Hnly. unfold early. tauto. }
    rewrite run_app, R1 in R3. unfold rbind in R3.
    destruct (rests_run _ _ key v x l2 Hq _ _ _ T1 U1 Hf2 Hd Hsp Hc Hb R3 Hw Hs Hdr HF HE) as (U3 & Hd3 & el' & HF' & HE').
    destruct (top_facts k s3 T3 U3) as (I3 & Tn3 & J3). eapply rests_peek; try done. destruct HF' as [T' _]. eapply early_late; try done.
  Qed.
End weak.

(** ** No dead objects *)
Section alive.
  Context (k : cfg) (Hk : fine_cfg k).
  Notation srel := (srel comp_abs comp_ptr crel).
  Notation top := (top k).
  Definition live_object (m : mem) (v : Z) : Prop := v ∉ m_dropped m \/ exists e el, m_els m !! e = Some el /\ el_map el = MVal v.
  Lemma alive_live m v : alive m v = true -> live_object m v.
  Proof using.
    unfold alive. intros [H%bool_decide_eq_true|H]%orb_true_iff; [by left|right]. unfold strong in H. apply existsb_exists in H as ([e el] & Hin & H). simpl in H.
    apply elem_of_list_In, elem_of_map_to_list in Hin. destruct (el_map el) as [|w| | | |] eqn:E; try done. apply bool_decide_eq_true in H as ->. eauto.
  Qed.
  Lemma ans_live s h key incl e v : ans k s h key incl e = RV v -> live_object (me s) v.
  Proof using.
    unfold ans. destruct (a_hash (cs s) !! e); [|done]. destruct (m_els (me s) !! e) as [el|] eqn:Ee; [|done]. destruct (_ && _ && _); [|done].
    destruct (el_map el) as [p|w|[w|]|z| |] eqn:Em; simpl; try done; [by repeat case_match|..].
    - intros [= ->]. right. eauto.
    - destruct (alive (me s) w) eqn:Ea; [|done]. intros [= ->]. by apply alive_live.
  Qed.
  Lemma lookup_live s key v : p_lookup k s key = RV v -> live_object (me s) v.
  Proof using. intros H. destruct (firstv_split _ _ _ H) as (l1 & x & l2 & _ & E & _); [done|]. by eapply ans_live. Qed.
  Lemma peek_live l sc key v : fine l -> after k l sc -> peek k sc key = Some v -> live_object (me sc) v.
  Proof using Hk.
    intros Hf Ha Hp. destruct (after_abs k Hk l sc Hf Ha) as (sa & _ & S & T & _). rewrite <-(srel_me _ _ S).
    destruct (step k false (OGetIf key) sa) as [[sa' r]| | |] eqn:E.
    2-4: destruct (top_step k Hk (OGetIf key) sa T eq_refl) as (s1 & r1 & E1 & _); congruence.
    destruct (step_c k _ _ _ _ _ _ S E) as (sc' & Ec & _). unfold peek, answer in Hp. rewrite Ec in Hp. destruct r; try done. injection Hp as ->.
    rewrite step_eq in E. unfold step_with in E. destruct (m_up (me sa)) eqn:Hup; [|done]. simpl in E. destruct (top_facts k sa T Hup) as (Hi & Ht & _).
    rewrite (lookup_eq k g0 sa key Hi Ht) in E. simpl in E. destruct (p_lookup k sa key) eqn:El; try done. injection E as _ ->. by eapply lookup_live.
  Qed.
  (** removing entries revives nothing *)
  Definition older (m m' : mem) : Prop := m_dropped m' = m_dropped m /\ forall e el', m_els m' !! e = Some el' -> exists el, m_els m !! e = Some el /\ el_map el = el_map el'.
  Lemma older_live m m' v : older m m' -> live_object m' v -> live_object m v.
  Proof using. intros [E H] [Hd|(e & el' & He & Hm)]; [left; by rewrite <-E|right]. destruct (H e el' He) as (el & He' & Em). exists e, el. split; congruence. Qed.
  Lemma older_refl m : older m m.
  Proof using. split; [done|]. eauto. Qed.
  Lemma older_trans m1 m2 m3 : older m1 m2 -> older m2 m3 -> older m1 m3.
  Proof using. intros [E1 H1] [E2 H2]. split; [congruence|]. intros e el He. destruct (H2 e el He) as (el2 & He2 & Em2). destruct (H1 e el2 He2) as (el1 & He1 & Em1). exists el1. split; congruence. Qed.
  Lemma dec_older s e : older (me s) (me (f_dec s e)).
  Proof using.
    unfold f_dec. destruct (m_els (me s) !! e) as [el|] eqn:Ee; [|apply older_refl]. destruct (el_rc el) as [|[|n]]; simpl.
    1,2: split; [done|]; intros x el' H; simpl in H; apply lookup_delete_Some in H as [_ H]; eauto.
    split; [done|]. intros x el' H. simpl in H. apply lookup_insert_Some in H as [[<- <-]|[_ H]]; eauto.
  Qed.
  Lemma rem_older s e el : m_els (me s) !! e = Some el -> ~ is_pend el -> older (me s) (me (f_rem k s e)).
  Proof using.
    intros He Hp. unfold f_rem, f_disp. eapply older_trans; [|apply dec_older]. simpl. unfold f_cancel. simpl. rewrite ?He. unfold is_pend, el_pending in Hp.
    destruct (el_map el) eqn:Em; try apply older_refl. by destruct Hp.
  Qed.
  Lemma find_older M hash key incl : forall s, older (me s) (me (fsw k (fun s _ => s) (va_get k hash key incl) M s).1).
  Proof using.
    induction M as [|x M IH]; intros s; simpl; [apply older_refl|]. destruct (va_get k hash key incl s x) as [| |r'] eqn:Ea.
    - apply IH.
    - unfold va_get in Ea. destruct (gone k s x) eqn:Eg; [|by destruct (ans _ _ _ _ _)]. assert (exists el, m_els (me s) !! x = Some el) as [el Hel] by (unfold gone in Eg; destruct (m_els (me s) !! x); eauto; done).
      eapply older_trans; [|apply IH]. eapply rem_older; [exact Hel|by eapply gone_nopend].
    - apply older_refl.
  Qed.
  Lemma get_live l sc key script out v : fine l -> after k l sc -> k_resolver k = RNone -> fine_op false (OGet key script out) = true ->
    answer k sc (OGet key script out) = Some (RetVal v) -> live_object (me sc) v.
  Proof using Hk.
    intros Hf Ha Hr Ho Hp. destruct (after_abs k Hk l sc Hf Ha) as (sa & _ & S & T & _). rewrite <-(srel_me _ _ S).
    destruct (step k false (OGet key script out) sa) as [[sa' r]| | |] eqn:E.
    2-4: destruct (top_step k Hk (OGet key script out) sa T Ho) as (s1 & r1 & E1 & _); congruence.
    destruct (step_c k _ _ _ _ _ _ S E) as (sc' & Ec & _). unfold answer in Hp. rewrite Ec in Hp. injection Hp as ->.
    rewrite step_eq in E. unfold step_with in E. destruct (m_up (me sa)) eqn:Hup; [|done]. simpl in E. destruct (top_facts k sa T Hup) as (Hi & Ht & _).
    rewrite Hr in E. unfold get in E. rewrite (proj1 (get_ends k g0 sa key false Hi Ht)) in E. simpl in E. rewrite Hr in E.
    pose proof (f_find_spec k (bucket sa (k_hash k key)) g0 (k_hash k key) key false sa Hi Ht (bucket_nodup k _ _ _ Hi Ht) (bucket_in _ _)) as Hsp.
    unfold f_get in E. fold (f_find k sa key false) in Hsp. pose proof (find_older (bucket sa (k_hash k key)) (k_hash k key) key false sa) as Hol. fold (f_find k sa key false) in Hol.
    destruct (f_find k sa key false) as [s1 [[x r]|]]; simpl in *; [|done]. destruct (Hsp x r eq_refl) as (_ & _ & Er & _).
    destruct r; try done. injection E as _ ->. eapply older_live; [exact Hol|]. by eapply ans_live.
  Qed.
End alive.
