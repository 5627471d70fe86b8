(** Values that are used stay (lemmas for PropertiesAge.v). *)
From stdpp Require Import sorting.
From Verif Require Import Base AQueue ATable BasicHashtable QueueProofs BasicHashtableProofs ContainersProofs Mapped Cache CachePtr CacheAbs CompSim CacheSim AbsInv AbsPrim AbsPrim2 AbsSweep AbsOps AbsComp Trace AbsTrace TraceInv Delay AbsTraceCb Histories AbsResolve AbsStep AbsLook Effects Observe Transfer Lookups Answers Waiters Calls Origins Rounds.

Section idle.
  Context (k : cfg) (Hk : fine_cfg k).
  Notation srel := (srel comp_abs comp_ptr crel).
  Notation top := (top k).

  (** ** Which entry a lookup finds *)
  Lemma ans_rem g s x y hash key incl el : inv k g s -> m_els (me s) !! x = Some el -> gone k s x = true -> y <> x ->
    (forall ely, m_els (me s) !! y = Some ely -> tame_map k (el_map ely)) ->
    ans k (f_rem k s x) hash key incl y = ans k s hash key incl y.
  Proof using.
    intros Hi Hel Eg Hne Htm. pose proof (gone_nopend k _ _ _ Hel Eg) as Hnp.
    assert (m_els (me (f_rem k s x)) !! y = m_els (me s) !! y) as Ey by (by apply (f_rem_els k _ _ _ _ Hel Hnp)).
    unfold ans. rewrite Ey by done. rewrite (f_rem_settled k _ _ _ Hel Hnp). rewrite f_dec_hash by done. simpl.
    set (s1 := with_cs s _). destruct (a_hash (cs s) !! y); [|done]. destruct (m_els (me s) !! y) as [ely|] eqn:Hy'; [|done].
    destruct (rest_dec s1 x) as [_ _ Q1 Q2 _ _ _]. simpl in Q1, Q2.
    destruct (tame_map_get k (me (f_dec s1 x)) (me s) ely incl) as [-> ->]; try done. by apply Htm.
  Qed.
  Lemma fsw_first g hash key incl M y r : forall s, inv k g s -> a_torn (cs s) = None -> NoDup M -> (forall e, e ∈ M -> e ∈ tab s) ->
    (forall e el, e ∈ M -> m_els (me s) !! e = Some el -> tame_map k (el_map el)) ->
    (fsw k (fun s _ => s) (va_get k hash key incl) M s).2 = Some (y, r) ->
    exists l1 l2, M = l1 ++ y :: l2 /\ ans k s hash key incl y = r /\ r <> R0 /\ forall z, z ∈ l1 -> ans k s hash key incl z = R0.
  Proof using.
    induction M as [|x M IH]; intros s Hi Ht Hnd Hin Htm; simpl; [done|]. apply NoDup_cons in Hnd as [HxM Hnd].
    assert (x ∈ tab s) as Hx by (apply Hin; by left). destruct (i_tab _ _ _ Hi x) as [el Hel]; [by apply tab_LT|].
    unfold va_get at 1. destruct (gone k s x) eqn:Eg.
    - pose proof (gone_nopend k _ _ _ Hel Eg) as Hnp. destruct (f_rem_bs k _ _ _ Hel Hnp) as [Eb Et].
      destruct (rem_ends k g s x el) as (_ & I2 & _); try done.
      assert (forall y, y <> x -> m_els (me (f_rem k s x)) !! y = m_els (me s) !! y) as Ey by (intros z Hz; by apply (f_rem_els k _ _ _ _ Hel Hnp)).
      intros E. destruct (IH (f_rem k s x)) as (l1 & l2 & -> & Ea & Hr & Hz); [done|by rewrite Et|done|..|done|].
      { intros z Hz. unfold tab. rewrite Eb, at_unlink_elems. apply elem_of_list_filter. split; [intros ->; done|apply Hin; by right]. }
      { intros z elz Hz. rewrite Ey by (intros ->; done). intros Ez. eapply Htm; [by right|exact Ez]. }
      assert (ans k s hash key incl x = R0) as Hax.
      { unfold ans. destruct (a_hash (cs s) !! x); [|done]. rewrite Hel. unfold gone in Eg. rewrite Hel in Eg. apply andb_true_iff in Eg as [-> _].
        simpl. by rewrite andb_false_r. }
      assert (forall z, z ∈ l1 ++ y :: l2 -> ans k (f_rem k s x) hash key incl z = ans k s hash key incl z) as Hsame.
      { intros z Hz'. eapply ans_rem; try done; [intros ->; done|]. intros ely. apply Htm. by right. }
      exists (x :: l1), l2. split_and!; try done.
      + rewrite <-Hsame; [done|]. apply elem_of_app. right. left.
      + intros z [->|Hz']%elem_of_cons; [done|]. rewrite <-Hsame; [by apply Hz|]. apply elem_of_app. by left.
    - destruct (ans k s hash key incl x) eqn:Ea; try (by intros [= -> <-]; exists [], M; split_and!; try done; intros z ?%elem_of_nil).
      intros E. destruct (IH s) as (l1 & l2 & -> & Ea' & Hr & Hz); try done.
      + intros y' Hy. apply Hin. by right.
      + intros y' ely Hy. apply Htm. by right.
      + exists (x :: l1), l2. split_and!; try done. intros z [->|Hz']%elem_of_cons; [done|by apply Hz].
  Qed.
  Lemma firm_dead st m el incl : dead st m el -> vis m incl el = R0.
  Proof using.
    intros [H|(_ & Hp & Hl)]; [by apply vis_hope|]. unfold vis, el_pending in *. destruct (el_map el); try done. by rewrite Hl.
  Qed.
  Lemma find_firm g st s key v x el incl : tame k -> inv k g s -> a_torn (cs s) = None -> J k s -> firm k st s key v x el -> late (me s) el = false ->
    (f_find k s key incl).2 = Some (x, RV v).
  Proof using.
    intros Hta Hi Ht HJ HF Hl. pose proof (firm_look k st s key v x el incl HF Hl) as El.
    pose proof (find_look k g s key incl Hta Hi Ht HJ) as Ef. rewrite El in Ef.
    destruct (f_find k s key incl).2 as [[y r]|] eqn:E; [|done]. subst r. do 2 f_equal.
    destruct HF as (T & Em & Ek & l1 & l2 & Eh & Hd).
    assert (forall z, z ∈ bucket s (k_hash k key) -> ans k s (k_hash k key) key incl z = if decide (a_hash (cs s) !! z = Some (k_hash k key)) then cand k s key incl z else R0) as Hans.
    { intros z Hz. eapply ans_cand; try done. by eapply bucket_in. }
    destruct (fsw_first g (k_hash k key) key incl (bucket s (k_hash k key)) y (RV v) s) as (m1 & m2 & EM & Ey & _ & Hz); try done.
    { by eapply bucket_nodup. }
    { intros e. apply bucket_in. }
    { intros e el' He Hel. apply (j_tame _ _ HJ e (with_rc el' 0) Hta). apply tv_some; [by eapply bucket_in|done]. }
    rewrite (hseq_bucket k g s _ Hi Ht) in Eh.
    assert (x ∈ bucket s (k_hash k key) /\ a_hash (cs s) !! x = Some (k_hash k key)) as [Hxb Hxh].
    { assert (x ∈ filter (fun x => a_hash (cs s) !! x = Some (k_hash k key)) (bucket s (k_hash k key))) as Hx by (rewrite Eh; apply elem_of_app; right; left). apply elem_of_list_filter in Hx. tauto. }
    assert (cand k s key incl x = RV v) as Hcx. { unfold cand. rewrite T, Ek. unfold vis. by rewrite Em, Hl. }
    rewrite EM in Hxb. apply elem_of_app in Hxb as [Hx|Hx].
    { exfalso. specialize (Hz x Hx). rewrite Hans in Hz by (rewrite EM; apply elem_of_app; by left). rewrite decide_True in Hz by done. congruence. }
    apply elem_of_cons in Hx as [->|Hx]; [done|]. exfalso.
    assert (a_hash (cs s) !! y = Some (k_hash k key) /\ cand k s key incl y = RV v) as [Hyh Hcy].
    { rewrite Hans in Ey by (rewrite EM; apply elem_of_app; right; left). destruct (decide _); [done|done]. }
    assert (NoDup (l1 ++ x :: l2)) as Hnd. { rewrite <-Eh. apply NoDup_filter. by eapply bucket_nodup. }
    rewrite EM, filter_app, filter_cons_True in Eh by done.
    assert (y ∈ l1) as Hy1.
    { assert (x ∈ filter (fun x => a_hash (cs s) !! x = Some (k_hash k key)) m2) as Hx2 by (by apply elem_of_list_filter).
      apply elem_of_list_split in Hx2 as (n1 & n2 & En). rewrite En in Eh.
      assert (l1 = filter (fun x => a_hash (cs s) !! x = Some (k_hash k key)) m1 ++ y :: n1) as ->.
      { assert (forall (a b c d : list N), NoDup (c ++ x :: d) -> a ++ x :: b = c ++ x :: d -> c = a) as Huniq.
        { clear. intros a b c d. revert a. induction c as [|z c IH]; intros a Hn E; destruct a as [|w a]; simpl in *; [done|..].
          - injection E as -> E. apply NoDup_cons in Hn as [Hn _]. exfalso. apply Hn. rewrite <-E. apply elem_of_app. right. left.
          - injection E as <- E. apply NoDup_cons in Hn as [Hn _]. exfalso. apply Hn. apply elem_of_app. right. left.
          - injection E as -> E. f_equal. apply IH; [|done]. by apply NoDup_cons in Hn as [_ Hn]. }
        eapply Huniq; [exact Hnd|]. rewrite <-Eh, <-app_assoc. simpl. done. }
      apply elem_of_app. right. left. }
    unfold cand in Hcy. destruct (tv s y) as [ey|] eqn:Ty; [|done]. destruct (k_eq k (el_key ey) key) eqn:Eky; [|done].
    by rewrite (firm_dead st (me s) ey incl) in Hcy by (by eapply Hd).
  Qed.

  (** ** Keeping an entry *)
  (** [P]: times up to which the entry is kept because of its uses *)
  Definition used (P : Z -> Prop) (el : elem) : Prop := forall B c, P B -> el_cn el = Some c -> (B <= c)%Z.
  Definition timely (m : mem) (el : elem) : Prop := reached (m_wall m) (el_xw el) = false /\ reached (m_steady m) (el_xs el) = false.
  Lemma used_late P B m el : used P el -> timely m el -> P B -> (m_steady m < B)%Z -> late m el = false.
  Proof using.
    intros Hu [H1 H2] HB Hlt. unfold late. rewrite H1, H2. simpl. destruct (el_cn el) as [c|] eqn:E; [|done]. simpl. apply bool_decide_eq_false. specialize (Hu B c HB E). lia.
  Qed.
  Lemma timely_le (m m' : mem) el : (m_wall m <= m_wall m')%Z -> (m_steady m <= m_steady m')%Z -> timely m' el -> timely m el.
  Proof using.
    intros Hw Hs [H1 H2]. split; apply not_true_is_false; intros E; [eapply reached_le in E; [|exact Hw]|eapply reached_le in E; [|exact Hs]]; congruence.
  Qed.
  (** lookups started during the operation are not refreshes of the key *)
  Definition unlinked (n : N) (key : Z) (s : sta) : Prop :=
    forall i c el p o, (n <= i)%N -> m_cbs (me s) !! i = Some c -> tv s (cb_el c) = Some el -> el_map el = MPend p -> o ∈ olds_of (p_cbq p) -> k_eq k (el_key el) key = false.
  Lemma mini_unlinked n key0 κ s s' : (forall key, κ = KRefresh key false -> k_eq k key key0 = false) -> mini k κ s s' -> unlinked n key0 s -> unlinked n key0 s'.
  Proof using.
    intros Hnk HM HN i c' en' q' o Hi Hc' T' Em Ho. destruct (n_cbs _ _ _ _ HM) as (_ & N1 & _).
    assert (tv s (cb_el c') = None \/ exists c, m_cbs (me s) !! i = Some c /\ cb_el c' = cb_el c) as Hcb.
    { destruct (N1 i c' Hc') as [(_ & _ & _ & _ & ?)|(c & ? & ? & _)]; [by left|right; eauto]. }
    destruct (mini_tv k _ _ _ _ _ HM T') as [(en & T & Hd)|(key & cl & mp & _ & _ & -> & _ & E4 & _)].
    2: { destruct (born_facts k (me s) key mp) as (_ & F2 & _). rewrite F2 in Em. subst mp. destruct E4 as [[= ->] _]. by apply not_elem_of_nil in Ho. }
    destruct Hcb as [Hnone|(c & Hc & Ee)]; [congruence|]. rewrite Ee in T.
    destruct Hd as [->|[[Hd _]|[(j & o' & δ & _ & d & _ & -> & _)|[(j & o' & d & p & y & cn & δ & _ & _ & _ & _ & _ & _ & ->)|(j & d & p & _ & _ & _ & _ & _ & ->)]]]].
    - by eapply HN.
    - destruct (chg_facts k _ _ _ _ _ Hd) as (Fk & _ & _ & _ & _ & _ & F7 & _). rewrite Fk. destruct (F7 q' Em) as (q & Eq & Hq).
      destruct (Hq o Ho) as [?|Hne]; [by eapply HN|]. clear -Hd Hnk HN T Em Eq Ho Hi Hc.
      inversion Hd; subst; try (by apply Hnk);
        try (simpl in Em; rewrite Eq in Em; simpl in Em; injection Em as <-; by eapply HN); try (simpl in Em; rewrite Em in Eq; injection Eq as ->; by eapply HN).
      + simpl in Em. rewrite Eq in Em. simpl in Em. unfold p_strengthen in Em. destruct (p_exp q); simpl in Em; injection Em as <-; by eapply HN.
      + simpl in Em. injection Em as <-. simpl in Ho. rewrite olds_app in Ho. destruct Ho as [Ho|Ho]; [by eapply HN|by apply not_elem_of_nil in Ho].
    - simpl in Em. unfold m_mark_expired, m_dead in Em. destruct (el_map en) as [q| | | | |] eqn:Eq; try (by destruct (k_pointer k)).
      injection Em as <-. exact (HN i c en q o Hi Hc T Eq Ho).
    - match type of Em with context [assigned k ?m ?b ?e] => destruct (assigned_facts k m b e) as (_ & F2 & _) end. rewrite F2 in Em. simpl in Em.
      destruct o' as [v|]; [pose proof (settled_not_pend k p v) as X|pose proof (settle_error_not_pend k p y) as X]; rewrite Em in X; done.
    - simpl in Em. injection Em as <-. by apply not_elem_of_nil in Ho.
  Qed.

  Section keep.
    Context (Hq : eq_ok k) (Hta : tame k) (dl idle : Z) (Hrf : k_refresh k = Some (dl, idle)) (Hid : idle <> 0%Z).

    (** what the operation may do *)
    Record mild (A : kind -> Prop) (n : N) (s0 : sta) (key : Z) : Prop := {
      d_fwd κ : A κ -> forward k κ;
      d_clear : ~ A KClear;
      d_evict key' : A (KEvict key' true) -> k_eq k key' key = false;
      d_erase key' : A (KErase key') -> other k key key';
      d_rep key' : A (KRefresh key' true) -> k_eq k key' key = false;
      d_old i v δ key' q : A (KDone i v δ) -> (i < n)%N -> opened s0 i key' q -> k_eq k key' key = false;
      d_new : (forall key', A (KRefresh key' false) -> k_eq k key' key = false) \/ forall i v δ, A (KDone i v δ) -> (i < n)%N
    }.
    Definition tracked (A : kind -> Prop) (n : N) (key : Z) (s0 s : sta) : Prop :=
      J k s /\ keyed n s0 s /\ ((forall key', A (KRefresh key' false) -> k_eq k key' key = false) -> unlinked n key s).
    Lemma mini_tracked (A : kind -> Prop) n key s0 κ s s' : A κ -> mini k κ s s' -> tracked A n key s0 s -> tracked A n key s0 s'.
    Proof using.
      intros HA HM (HJ & HK & HU). split_and!.
      - by eapply mini_J.
      - by eapply mini_keyed.
      - intros Hn. eapply mini_unlinked; [|exact HM|by apply HU]. intros key' ->. by apply Hn.
    Qed.
    Lemma mild_spares (A : kind -> Prop) n s0 s s' key v x el κ : mild A n s0 key -> tracked A n key s0 s -> A κ -> mini k κ s s' -> firm k false s key v x el -> spares k s key x κ.
    Proof using Hq.
      intros HD (HJ & HK & HU) HA HM (T & Em & Ek & _). destruct κ as [| | |key'| | | | |key' [|]|i v' δ| | |]; simpl; try done.
      - intros ->. by eapply d_evict.
      - by eapply d_erase.
      - by eapply d_clear.
      - right. by eapply d_rep.
      - by left.
      - intros c en p Hc Tn Emn Hx.
        assert (k_eq k (el_key en) key = false) as Hne.
        2: { apply olds_iff in Hx as [m Hx]. destruct (j_rs _ _ HJ _ _ _ _ _ _ Tn Emn Hx T) as (_ & Ekk & _). congruence. }
        destruct (decide (n <= i)%N) as [Hni|Hni].
        { destruct (d_new _ _ _ _ HD) as [Hno|Hno]; [by eapply (HU Hno)|]. specialize (Hno i v' δ HA). lia. }
        assert (cb_called c = false) as Hcc.
        { remember (KDone i v' δ) as κ eqn:Eκ. destruct (n_body _ _ _ _ HM) as [κ0 [Hκ|[(? & Hκ)|[(? & Hκ)|(? & Hκ)]]] _ _ _ _|κ0 e0 el0 o0 _ Hch _ _ _ _|e0 key0 cl0 mp0 _ _ _ _ _ _ _ _ _ _|j d e el0 p0 o z cn δ0 Hd Hdc _ _ _ _ _ _ _ _ _ _ _ _|j d e el0 p0 _ _ _ _ _ _ _ _ _ _]; try congruence.
          inversion Hch; subst; congruence. }
        destruct HK as [_ HK]. destruct (HK i c ltac:(lia) Hc Hcc) as (key' & q & q' & O1 & (c2 & en2 & p2 & Hc2 & _ & Tn2 & _ & _ & Ek2)).
        assert (c2 = c) as -> by congruence. assert (en2 = en) as -> by congruence.
        pose proof (d_old _ _ _ _ HD i v' δ key' q' HA ltac:(lia) O1) as Hne. congruence.
    Qed.

    (** an entry stays *)
    Definition kept_as (el el' : elem) : Prop := el_xw el' = el_xw el /\ el_xs el' = el_xs el /\ el_key el' = el_key el.
    Lemma mini_stay (P : Z -> Prop) B κ s s' key v x el : J k s -> mini k κ s s' -> firm k false s key v x el -> timely (me s) el -> P B -> (m_steady (me s) < B)%Z ->
      used P el -> (forall B, P B -> idle <> 0%Z -> (B <= m_steady (me s) + idle)%Z) -> forward k κ -> spares k s key x κ ->
      exists el', firm k false s' key v x el' /\ kept_as el el' /\ used P el'.
    Proof using Hta Hrf.
      intros HJ HM HF Ht HB Hlt Hu HP Hf Hs. destruct (mini_keep k false κ s s' key v x el Hta HJ HM HF) as (el' & HF' & E1 & E2 & E3 & Ec); try done; [by eapply used_late|by right|].
      exists el'. split_and!; try done. intros B' c HB' E. destruct Ec as [Ec|(d & i & key' & Hr & Hi & _ & Ec)]; [by apply (Hu B'); [|congruence]|].
      assert (i = idle) as -> by congruence. specialize (HP B' HB' Hi). assert (c = (m_steady (me s) + idle)%Z) as -> by congruence. done.
    Qed.
    Lemma path_stay (P : Z -> Prop) B (A : kind -> Prop) n s0 s s' key v x el : mild A n s0 key -> path k A s s' -> tracked A n key s0 s -> firm k false s key v x el -> timely (me s') el ->
      P B -> (m_steady (me s') < B)%Z -> used P el -> (forall B, P B -> idle <> 0%Z -> (B <= m_steady (me s) + idle)%Z) ->
      exists el', firm k false s' key v x el' /\ kept_as el el' /\ used P el'.
    Proof using Hta Hrf Hq.
      clear Hid. intros HD HP. revert el. induction HP as [s|s1 s2 s3 (κ & HA & HM) HP IH]; intros el HT HF Ht HB Hlt Hu HPi.
      { exists el. split_and!; done. }
      destruct (path_clk k A s2 s3 (d_fwd _ _ _ _ HD) HP) as [C1 C2].
      destruct (path_clk k A s1 s2 (d_fwd _ _ _ _ HD) (path_one k A κ s1 s2 HA HM)) as [C3 C4].
      destruct (mini_stay P B κ s1 s2 key v x el (proj1 HT) HM HF) as (el1 & HF1 & (E1 & E2 & E3) & Hu1); try done.
      { eapply timely_le; [| |exact Ht]; lia. }
      { lia. }
      { by eapply d_fwd. }
      { by eapply mild_spares. }
      destruct (IH el1) as (el2 & HF2 & (E4 & E5 & E6) & Hu2); try done.
      - by eapply mini_tracked.
      - unfold timely in *. by rewrite E1, E2.
      - intros B' HB' Hi. specialize (HPi B' HB' Hi). lia.
      - exists el2. split_and!; try done. split_and!; congruence.
    Qed.

    (** operations that leave the value alone *)
    Definition calm (s : sta) (key : Z) (o : op) : Prop :=
      (forall i key', touches i o = true -> kof s i = Some key' -> k_eq k key' key = false) /\
      match o with
      | OTick _ =>
          (k_resolver k <> RSync /\ forall i, touches i o = true -> (i < m_ncb (me s))%N) \/
          ((0 < dl)%Z /\ forall x el, x ∈ dues (m_steady (me s)) s -> tv s x = Some el -> k_eq k (el_key el) key = false)
      | _ => True
      end.
    Definition not_refresh (κ : kind) : bool := match κ with KRefresh _ _ => false | _ => true end.
    (** what the operation may do, apart from starting and ending refreshes *)
    Lemma op_mild' (A : kind -> Prop) o s key : fine_op false o = true -> spoils k key o = false -> k_steady k = true \/ sets_back o = false ->
      (forall i key', touches i o = true -> kof s i = Some key' -> k_eq k key' key = false) ->
      (forall κ, A κ -> not_refresh κ = true -> okind k o κ) -> (forall key', A (KRefresh key' true) -> k_eq k key' key = false) ->
      (forall key', A (KRefresh key' false) -> k_eq k key' key = false) \/ (forall i v δ, A (KDone i v δ) -> (i < m_ncb (me s))%N) ->
      mild (fun κ => upto A (m_ncb (me s)) κ /\ sparing k key κ) (m_ncb (me s)) s key.
    Proof using Hq Hrf.
      intros Hf Hsp Hb Hc HA HA1 HA2. split.
      - intros κ [Hκ _]. destruct Hb as [?|Hb]; [by left|right]. destruct (not_refresh κ) eqn:En; [|by destruct κ].
        eapply (top_back k o (m_ncb (me s))); [done| |done]. destruct Hκ as [Hκ|Hκ]; [left; by apply HA|by right].
      - intros [[Hκ%HA|(? & ? & _)] _]; [|done..]. rewrite (top_spoils k key o KClear Hf Hκ) in Hsp; [done|by left].
      - intros key' [_ Hκ]. by apply Hκ.
      - intros key' [[Hκ%HA|(? & ? & _)] _]; [|done..]. apply other_of; [done|]. destruct (k_eq k key' key) eqn:E; [|done]. rewrite (top_spoils k key o _ Hf Hκ) in Hsp; [done|right; eauto].
      - intros key' [[Hκ|(? & ? & _)] _]; [by apply HA1|done].
      - intros i v δ key' q [[Hκ%HA|(? & ? & _)] _] _ Ho; [|done..]. pose proof (top_completes k o (KDone i v δ) i Hf Hκ eq_refl) as Ht. apply opened_kof in Ho. by apply (Hc i key').
      - destruct HA2 as [HA2|HA2]; [left|right].
        + intros key' [[Hκ|(? & ? & _)] _]; [by apply HA2|done].
        + intros i v δ [[Hκ|(? & ? & _)] _]; [by eapply HA2|done].
    Qed.
    Lemma op_mild o s key : fine_op false o = true -> spoils k key o = false -> k_steady k = true \/ sets_back o = false -> calm s key o -> (forall items, o <> OTick items) ->
      mild (fun κ => upto (okind k o) (m_ncb (me s)) κ /\ sparing k key κ) (m_ncb (me s)) s key.
    Proof using Hq Hrf.
      intros Hf Hsp Hb [Hc _] Ho. assert (forall key' b, ~ okind k o (KRefresh key' b)) as Hn.
      { intros key' b. destruct o; try (by apply okind_norefresh); [by edestruct Ho|by intros []]. }
      apply (op_mild' (okind k o) o); try done; [intros key' Hκ|left; intros key' Hκ]; by destruct (Hn _ _ Hκ).
    Qed.
    Lemma step_mild o s s' r key : top s -> m_up (me s) = true -> DQ dl s -> fine_op false o = true -> o <> ODestroy -> spoils k key o = false -> k_steady k = true \/ sets_back o = false -> calm s key o ->
      step k false o s = Ok (s', r) ->
      exists A, path k (upto A (m_ncb (me s))) s s' /\ mild (fun κ => upto A (m_ncb (me s)) κ /\ sparing k key κ) (m_ncb (me s)) s key.
    Proof using Hq Hrf Hk.
      intros T Hup HD Hf Hn Hsp Hb Hc E. destruct (match o with OTick _ => true | _ => false end) eqn:Et.
      2: { exists (okind k o). destruct (top_step k Hk o s T Hf) as (s1 & r1 & E1 & _ & _ & _ & Hu & _). rewrite E in E1. injection E1 as <- <-.
        destruct (Hu Hup Hn) as (_ & P & _). split; [done|]. apply op_mild; try done. by intros items ->. }
      destruct o; try done. destruct (top_facts k s T Hup) as (Hi & Ht & HJ).
      destruct (tick_ends k Hk items g0 s Hf eq_refl eq_refl Hi Hup HJ) as (s1 & E1 & _ & _ & P1 & P2 & _); [by rewrite Hrf|]. rewrite E in E1. injection E1 as <- _.
      destruct Hc as [Hc [[Hr Hnew]|[Hd Hdue]]].
      - exists (fun κ => okind k (OTick items) κ /\ not_refresh κ = true \/ exists key', κ = KRefresh key' false). split.
        + apply P1.
          * intros κ Hκ Hno. left. split; [done|]. destruct κ; try done. by edestruct Hno.
          * intros key'. right. eauto.
          * intros [?|(j & v & δ & Hκ & Hle)]; [done|]. pose proof (top_completes k (OTick items) (KDone j v δ) j Hf Hκ eq_refl) as Hto. specialize (Hnew _ Hto). lia.
        + apply (op_mild' _ (OTick items)); try done.
          * intros κ [[? _]|(? & ->)] ?; done.
          * intros key' [[_ ?]|(? & ?)]; done.
          * right. intros i v δ [[Hκ _]|(? & ?)]; [|done]. apply Hnew. by apply (top_completes k (OTick items) (KDone i v δ) i Hf Hκ eq_refl).
      - exists (fun κ => okind k (OTick items) κ /\ not_refresh κ = true \/ exists key' b, κ = KRefresh key' b /\ k_eq k key' key = false). split.
        + apply (P2 dl idle (fun key' => k_eq k key' key = false)); try done.
          * intros κ Hκ Hno. left. split; [done|]. destruct κ; try done. by edestruct Hno.
          * intros key' b Hk'. right. eauto.
        + apply (op_mild' _ (OTick items)); try done.
          * intros κ [[? _]|(? & ? & -> & _)] ?; done.
          * intros key' [[_ ?]|(? & ? & [= <- <-] & ?)]; done.
          * left. intros key' [[_ ?]|(? & ? & [= <- <-] & ?)]; done.
    Qed.
    Lemma start_tracked A key s : top s -> m_up (me s) = true -> tracked A (m_ncb (me s)) key s s.
    Proof using.
      intros T Hup. destruct (top_facts k s T Hup) as (Hi & Ht & HJ). split_and!; [done|by eapply keyed_refl|].
      intros _ i c el p o Hni Hc. pose proof (i_ncb _ _ _ Hi i ltac:(eauto)). lia.
    Qed.
    Lemma path_tracked (A : kind -> Prop) n key s0 s s' : path k A s s' -> tracked A n key s0 s -> tracked A n key s0 s'.
    Proof using. intros P. apply (path_inv k A (tracked A n key s0)); [|done]. intros. by eapply mini_tracked. Qed.

    (** ** Using the entry *)
    Lemma hitq_clk (s : sta) e : m_wall (me (f_hitq k s e)) = m_wall (me s) /\ m_steady (me (f_hitq k s e)) = m_steady (me s).
    Proof using. unfold f_hitq. destruct (has_queue k); [|done]. unfold f_strengthen, p_upd. simpl. by destruct (m_els (me s) !! e). Qed.
    Lemma free_firm s s' key v x el : path k (fun κ => κ = KFree) s s' -> J k s -> firm k false s key v x el -> late (me s) el = false ->
      exists el', firm k false s' key v x el' /\ dls el el' /\ el_key el' = el_key el.
    Proof using Hta.
      intros HP. revert el. induction HP as [s|s1 s2 s3 (κ & -> & HM) HP IH]; intros el HJ HF Hl.
      { exists el. by split_and!. }
      destruct (mini_keep k false KFree s1 s2 key v x el Hta HJ HM HF Hl) as (el1 & HF1 & E1 & E2 & E3 & Ec); [by right; right|done|].
      destruct Ec as [Ec|(? & ? & ? & _ & _ & ? & _)]; [|done].
      assert (dls el el1) as D1 by done. destruct (n_clk _ _ _ _ HM) as (_ & _ & Hst). destruct (Hst eq_refl) as (W1 & W2 & _).
      destruct (IH el1) as (el2 & HF2 & (D4 & D5 & D6) & E4); [by eapply mini_J|done| |].
      - rewrite (dls_late _ _ _ D1). unfold late in *. by rewrite W1, W2.
      - exists el2. split_and!; try done; [|congruence]. split_and!; congruence.
    Qed.
    Lemma get_firm g s key key' v x el incl (P : Z -> Prop) : inv k g s -> a_torn (cs s) = None -> J k s -> firm k false s key v x el -> late (me s) el = false -> k_eq k key' key = true ->
      (forall B, P B -> (B <= m_steady (me s) + idle)%Z) ->
      exists el', firm k false (f_get k s key' incl).1 key v x el' /\ kept_as el el' /\ used P el'.
    Proof using Hta Hq Hrf Hid.
      intros Hi Ht HJ HF Hl Ek' HP.
      assert (firm k false s key' v x el) as HF'.
      { destruct HF as (T & Em & Ek & l1 & l2 & Eh & Hd). destruct Hq as (_ & Q2 & Q3 & Q4).
        split_and!; try done; [apply (Q3 _ key); [done|by apply Q2]|]. exists l1, l2. rewrite (Q4 _ _ Ek'). split; [done|].
        intros y ey Hy Ty Eky. apply (Hd y ey Hy Ty). by apply (Q3 _ key'). }
      pose proof (find_firm g false s key' v x el incl Hta Hi Ht HJ HF' Hl) as Ef.
      pose proof (find_path k (fun κ => κ = KFree) g s key' incl eq_refl Hi Ht) as Pf.
      assert (exists el1, firm k false (f_find k s key' incl).1 key v x el1 /\ el_xw el1 = el_xw el /\ el_xs el1 = el_xs el /\ el_key el1 = el_key el /\ late (me (f_find k s key' incl).1) el1 = false) as (el1 & HF1 & D1 & D2 & D3 & Hl1).
      { destruct (free_firm s _ key v x el Pf HJ HF Hl) as (el1 & HF1 & D & ?). pose proof D as (? & ? & _). exists el1. split_and!; try done. rewrite (dls_late _ _ _ D).
        unfold late in *. destruct (env_find k s key' incl) as [_ _ _ _ -> ->]. done. }
      assert (m_steady (me (f_find k s key' incl).1) = m_steady (me s)) as Hst by (by destruct (env_find k s key' incl)).
      unfold f_get. destruct (f_find k s key' incl) as [s1 r1]. simpl in Ef, Pf, HF1, Hst, Hl1 |- *. subst r1. simpl.
      unfold f_hit. rewrite Hrf, bool_decide_false by done. simpl.
      assert (exists el2, firm k false (f_hitq k s1 x) key v x el2 /\ el_xw el2 = el_xw el /\ el_xs el2 = el_xs el /\ el_key el2 = el_key el /\ late (me (f_hitq k s1 x)) el2 = false) as (el2 & HF2 & D1' & D2' & D3' & Hl2).
      { pose proof HF1 as (T & _). apply tv_elim in T as (Htab & _). assert (J k s1) as HJ1 by (by eapply path_J).
        destruct (free_firm s1 _ key v x el1 (hitq_path k (fun κ => κ = KFree) s1 x eq_refl Htab) HJ1 HF1 Hl1) as (el2 & HF2 & D & ?). pose proof D as (? & ? & _). exists el2. split_and!; try congruence. rewrite (dls_late _ _ _ D).
        unfold late in *. destruct (hitq_clk s1 x) as [-> ->]. done. }
      destruct (hitq_clk s1 x) as [_ Hst']. rewrite <-Hst' in Hst. clear Hst' Pf. revert HF2 Hl2 Hst. generalize (f_hitq k s1 x). clear HF1 Hl1 D1 D2 D3. rename D1' into D1, D2' into D2, D3' into D3. clear el1 s1. intros s1 HF1 Hl1 Hst. 
      destruct HF1 as (T & Em & Ek & l1 & l2 & Eh & Hd).
      pose proof T as T0. apply tv_elim in T0 as (Htab & el0 & Hel0 & ->). simpl in *. unfold holds_value. rewrite Hel0, Em. simpl.
      exists (with_rc (with_cn (with_rc el0 0) (Some (m_steady (me s1) + idle)%Z)) 0). split; [split; [|split; [done|split; [done|]]]|split; [done|]].
      - apply (tv_upd_self s1 x (fun el1 => with_cn el1 (Some (m_steady (me s1) + idle)%Z)) _ T). intros a b E. unfold eqrc in *. destruct a, b. unfold with_rc, with_cn in *. simpl in *. congruence.
      - exists l1, l2. unfold hseq, tab. rewrite p_upd_cs. split; [exact Eh|].
        intros y ey Hy Ty Eky. assert (y <> x) as Hne.
        { intros ->. destruct (Hd x _ Hy T Ek) as [Hh|(_ & _ & Hh)]; [simpl in Hh; by rewrite Em in Hh|congruence]. }
        rewrite tv_upd in Ty by done. destruct (Hd y ey Hy Ty Eky) as [?|(? & ? & Hl')]; [by left|right]. split_and!; try done.
        rewrite <-Hl'. unfold late. unfold p_upd. by rewrite Hel0.
      - intros B c HB [= <-]. rewrite Hst. by apply HP.
    Qed.
    (** an operation that looks the key up *)
    Lemma hit_get o s s' r key v x el : ready k s -> m_up (me s) = true -> fine_op false o = true -> uses k key o = true ->
      (forall key' v', o = OGetOrEmplace key' v' -> holds k s v' = true) ->
      firm k false s key v x el -> late (me s) el = false -> step k false o s = Ok (s', r) ->
      exists key' incl, k_eq k key' key = true /\ path k (upto (okind k o) (m_ncb (me s))) s (f_get k s key' incl).1 /\ path k (upto (okind k o) (m_ncb (me s))) (f_get k s key' incl).1 s'.
    Proof using Hta Hq Hk.
      intros R Hup Hf Hus Hhold HF Hl E. destruct (ready_facts k s R Hup) as (Hi & Ht & HJ & Hu).
      assert (forall key', k_eq k key' key = true -> firm k false s key' v x el) as HF'.
      { intros key' Ek'. destruct HF as (T & Em & Ek & l1 & l2 & Eh & Hd). destruct Hq as (_ & Q2 & Q3 & Q4).
        split; [done|split; [done|split]]; [apply (Q3 _ key); [done|by apply Q2]|]. exists l1, l2. rewrite (Q4 _ _ Ek'). split; [done|].
        intros y ey Hy Ty Eky. apply (Hd y ey Hy Ty). by apply (Q3 _ key'). }
      destruct o as [| |key' script out|w key' script keep throw imm| | |key' v'| | | | | | | | | | | |]; try done; simpl in Hus.
      - assert (k_resolver k <> RAsync /\ k_eq k key' key = true) as [Hr Ek] by (by destruct (k_resolver k)).
        pose proof (firm_look k false s key' v x el false (HF' key' Ek) Hl) as El.
        rewrite (get_hit k Hta s key' script out v R Hup Hr El) in E. injection E as <- <-. exists key', false. split; [done|].
        assert (forall κ, κ = KFree \/ κ = KHit key' -> upto (okind k (OGet key' script out)) (m_ncb (me s)) κ) as HA.
        { intros κ Hκ. left. simpl. destruct (k_resolver k); [..|done]; tauto. }
        split; [apply (get_path k _ g0); auto|apply give_path; auto].
      - assert (k_resolver k = RAsync /\ k_eq k key' key = true) as [Hr Ek] by (by destruct (k_resolver k)).
        pose proof (firm_look k false s key' v x el true (HF' key' Ek) Hl) as El.
        rewrite (step_aget k s w key' script keep throw imm Hup Hr) in E. exists key', true. split; [done|].
        set (A := upto (okind k (OAGet w key' script keep throw imm)) (m_ncb (me s))).
        assert (forall κ, κ = KFree \/ κ = KHit key' \/ kinds k imm κ -> A κ) as HA. { intros κ Hκ. left. simpl. split; [done|]. unfold kinds in Hκ. tauto. }
        assert (path k A s (f_get k s key' true).1) as P1 by (apply (get_path k _ g0); auto). split; [done|].
        pose proof (get_answer k g0 s key' true Hta Hi Ht HJ) as Ha. rewrite El, <-(get_result k) in Ha. destruct Ha as [e Ha].
        destruct (get_ends k g0 s key' true Hi Ht) as (Eg & I1 & X1 & T1 & _). pose proof (v_ncb _ _ (env_get k s key' true)) as Hncb.
        unfold async_get in E. rewrite Eg in E. destruct (f_get k s key' true) as [s1 r1]. simpl in Ha, I1, X1, T1, P1, Hncb. subst r1. simpl rbind in E.
        set (s2 := give k (s_log s1 (EvCall w v 0 true)) v) in *.
        assert (J k s1) as HJ1 by (by eapply path_J).
        assert (path k A s1 s2) as P2 by (eapply path_trans; [apply (log_path k _ s1 (EvCall w v 0 true)); auto|apply give_path; auto]).
        simpl in Hf. rewrite !andb_true_iff in Hf.
        assert (forallb (fine_op true) imm = true) as Hfi by tauto.
        destruct (safe_all k Hk imm Hfi g0 s2) as (s3 & E3 & I3 & X3 & P3); try done.
        { unfold s2, give. destruct (k_pointer k); simpl; by rewrite (x_up _ _ _ _ _ X1). }
        { apply inv_give. by apply inv_log. }
        { by eapply path_J. }
        unfold async_finish in E. fold s2 in E. rewrite E3 in E. simpl rbind in E. injection E as <- <-.
        eapply path_trans; [exact P2|]. eapply path_weaken; [|exact P3]. intros κ [Hκ|(i & -> & Hle)]; [by apply HA; auto|]. right. exists i. split; [done|].
        etrans; [|exact Hle]. pose proof (path_ncb k _ _ _ P2). lia.
      - pose proof (firm_look k false s key' v x el true (HF' key' Hus) Hl) as El. pose proof (find_firm g0 false s key' v x el true Hta Hi Ht HJ (HF' key' Hus) Hl) as Ef.
        rewrite (step_goe k s key' v' (proj1 R) Hup (Hhold key' v' eq_refl)) in E. exists key', true. split; [done|].
        assert (forall κ, κ = KFree \/ κ = KHit key' -> upto (okind k (OGetOrEmplace key' v')) (m_ncb (me s)) κ) as HA. { intros κ Hκ. left. simpl. tauto. }
        assert (f_goe k s key' v' = (f_maint k (f_get k s key' true).1, RV v)) as Eg.
        { unfold f_goe, f_get. destruct (f_find k s key' true) as [s1 r1]. simpl in Ef. subst r1. done. }
        rewrite Eg in E. simpl in E. unfold ret_value in E. injection E as <- <-.
        split; [apply (get_path k _ g0); auto|]. destruct (get_ends k g0 s key' true Hi Ht) as (_ & I1 & _ & T1 & _).
        eapply path_trans; [apply (maint_path k _ g0); try done; [by apply HA; left|intros key0 b; left; simpl; tauto]|apply give_path; auto].
    Qed.
    (** ** Histories *)
    Lemma op_clk o s s' r : top s -> m_up (me s) = true -> fine_op false o = true -> o <> ODestroy -> k_steady k = true \/ sets_back o = false -> step k false o s = Ok (s', r) ->
      top s' /\ m_up (me s') = true /\ (m_wall (me s) <= m_wall (me s'))%Z /\ (m_steady (me s) <= m_steady (me s'))%Z /\ path k (upto (okind k o) (m_ncb (me s))) s s'.
    Proof using Hk.
      intros T Hup Hf Hn Hb E. destruct (top_step k Hk o s T Hf) as (s1 & r1 & E1 & T1 & _ & _ & Hu & _). rewrite E in E1. injection E1 as <- <-.
      destruct (Hu Hup Hn) as (U1 & P1 & _). split; [done|]. split; [done|]. destruct (path_clk k (upto (okind k o) (m_ncb (me s))) s s') as [C1 C2]; [|done|by split_and!].
      intros κ HA. destruct Hb as [?|Hb]; [by left|right]. by eapply top_back.
    Qed.
    Lemma run_clk l : forall s s', top s -> m_up (me s) = true -> fine l -> ODestroy ∉ l -> k_steady k = true \/ existsb sets_back l = false -> run k l s = Ok s' ->
      m_up (me s') = true /\ (m_wall (me s) <= m_wall (me s'))%Z /\ (m_steady (me s) <= m_steady (me s'))%Z.
    Proof using Hk.
      induction l as [|o l IH]; intros s s' T Hup Hf Hd Hb R; [injection R as <-; split; [done|lia]|].
      rewrite run_cons in R. unfold fine in Hf. simpl in Hf, Hb. apply andb_true_iff in Hf as [Hf1 Hf2]. rewrite orb_false_iff in Hb.
      destruct (top_step k Hk o s T Hf1) as (s1 & r1 & E1 & _). rewrite E1 in R. unfold rbind in R.
      destruct (op_clk o s s1 r1) as (T1 & U1 & C1 & C2 & _); try done; [intros ->; apply Hd; left|tauto|].
      destruct (IH s1 s') as (U2 & C3 & C4); try done; [intros ?; apply Hd; by right|tauto|]. split; [done|lia].
    Qed.
    Lemma stay_run key v x B l : forall s s' el, top s -> m_up (me s) = true -> DQ dl s -> fine l -> ODestroy ∉ l -> existsb (spoils k key) l = false -> k_steady k = true \/ existsb sets_back l = false ->
      (forall l1 o l2 s1, l = l1 ++ o :: l2 -> run k l1 s = Ok s1 -> m_up (me s1) = true -> calm s1 key o) -> run k l s = Ok s' -> unevicted k s s' key ->
      firm k false s key v x el -> timely (me s') el -> (m_steady (me s') < B)%Z -> used (fun z => z = B) el -> (idle <> 0%Z -> (B <= m_steady (me s) + idle)%Z) ->
      exists el', firm k false s' key v x el' /\ kept_as el el' /\ used (fun z => z = B) el'.
    Proof using Hta Hrf Hq Hk.
      clear Hid. induction l as [|o l IH]; intros s s' el T Hup HDQ Hf Hd Hsp Hb Hc R Hev HF Ht Hlt Hu HB.
      { injection R as <-. exists el. split; [done|]. split; done. }
      rewrite run_cons in R. unfold fine in Hf. simpl in Hf, Hb, Hsp. apply andb_true_iff in Hf as [Hf1 Hf2]. rewrite orb_false_iff in Hb. apply orb_false_iff in Hsp as [Hsp1 Hsp2].
      destruct (top_step k Hk o s T Hf1) as (s1 & r1 & E1 & _). rewrite E1 in R. unfold rbind in R.
      destruct (op_clk o s s1 r1) as (T1 & U1 & C1 & C2 & P1); try done; [intros ->; apply Hd; left|tauto|].
      assert (ODestroy ∉ l) as Hd2 by (intros ?; apply Hd; by right).
      destruct (run_clk l s1 s') as (U2 & C3 & C4); try done; [tauto|].
      destruct (unevicted_split k Hk s s1 s' key l T1 Hf2 R (path_nevict k _ _ _ key P1) Hev) as [Hev1 Hev2].
      destruct (step_mild o s s1 r1 key T Hup HDQ Hf1 ltac:(by intros ->; apply Hd; left) Hsp1 ltac:(tauto) (Hc [] o l s eq_refl eq_refl Hup) E1) as (A & P1' & HM).
      destruct (path_stay (fun z => z = B) B _ (m_ncb (me s)) s s s1 key v x el HM) as (el1 & HF1 & K1 & Hu1); try done.
      - by apply path_unevicted.
      - by apply start_tracked.
      - by eapply timely_le.
      - lia.
      - by intros ? ->.
      - destruct (IH s1 s' el1) as (el2 & HF2 & K2 & Hu2); try done.
        + by eapply (path_DQ k dl idle Hrf).
        + tauto.
        + intros l1 o' l2 s2 -> R2 Hup2. apply (Hc (o :: l1) o' l2); [done| |done]. by rewrite run_cons, E1.
        + destruct K1 as (K1 & K2 & K3). unfold timely in *. by rewrite K1, K2.
        + intros Hi. specialize (HB Hi). lia.
        + exists el2. split; [done|]. split; [|done]. destruct K1 as (? & ? & ?), K2 as (? & ? & ?). split_and!; congruence.
    Qed.
    Lemma stays_end key v x el B (s : sta) sc : srel s sc -> top s -> m_up (me s) = true -> firm k false s key v x el -> timely (me s) el -> (m_steady (me s) < B)%Z -> used (fun z => z = B) el ->
      peek k sc key = Some v.
    Proof using Hta.
      intros S T U HF Ht Hlt Hu. rewrite (peek_look k Hta s sc key S T), (look_up s sc S), U.
      by rewrite (firm_look k false s key v x el false HF (used_late _ B _ _ Hu Ht eq_refl Hlt)).
    Qed.
    Lemma from_DQ l s : fine l -> run k l st_init = Ok s -> m_up (me s) = true -> DQ dl s.
    Proof using Hk Hrf. intros Hf R Hup. eapply (run_DQ k Hk dl idle Hrf); [apply top_init|exact Hf|exact R| |done]. intros _. apply DQ_init. Qed.
    Lemma calm_run l1 l2 key (sa : sta) : fine (l1 ++ l2) -> run k l1 st_init = Ok sa ->
      (forall l' o' l'' s, l2 = l' ++ o' :: l'' -> after k (l1 ++ l') s -> undisturbed k s key o') ->
      forall l' o' l'' s, l2 = l' ++ o' :: l'' -> run k l' sa = Ok s -> m_up (me s) = true -> calm s key o'.
    Proof using Hk Hrf.
      intros Hf R H l' o' l'' s El R' Hup. assert (run k (l1 ++ l') st_init = Ok s) as R2 by (by rewrite run_app, R).
      destruct (run_c k _ st_init s st_init (h_init _ _ _ comp_ptr_sim) R2) as (sc & C & S). specialize (H l' o' l'' sc El C).
      assert (fine (l1 ++ l')) as Hf'. { rewrite El, app_assoc in Hf. by apply fine_app in Hf as [? _]. }
      destruct (top_run k Hk (l1 ++ l') st_init (top_init k) Hf') as (s2 & E2 & T & _). rewrite R2 in E2. injection E2 as <-. destruct (top_facts k s T Hup) as (Hi & Ht & HJ).
      assert (DQ dl s) as HD. { by eapply from_DQ. }
      destruct H as [H1 H2]. split; [unfold kof, key_of in *; by rewrite (srel_me _ _ S)|]. destruct o'; try done. destruct H2 as [[H2 H3]|[(d & i & Hr & Hd) H3]].
      - left. split; [done|]. by rewrite (srel_me _ _ S).
      - right. assert (d = dl) as -> by congruence. split; [done|]. intros x el Hx Tx. rewrite (srel_me _ _ S), <-(dues_obs dl s sc _ S Ht HD) in Hx.
        apply tv_elim in Tx as (_ & el0 & Hel & ->). rewrite (srel_me _ _ S) in Hel. simpl. by eapply H3.
    Qed.
    Lemma stamped_timely m m' el d : k_max_age k = Some d -> stamped k m el -> (m_wall m' < m_wall m + d)%Z -> (k_steady k = false -> m_steady m' < m_steady m + d)%Z -> timely m' el.
    Proof using.
      intros Hd Hs Hw Hst. destruct (Hs d Hd) as [E1 E2]. unfold timely. rewrite E1, E2. simpl. rewrite bool_decide_false by lia. split; [done|].
      destruct (k_steady k); [done|]. simpl. apply bool_decide_eq_false. specialize (Hst eq_refl). lia.
    Qed.
    Lemma hit_stays l1 o l2 sc1 sc3 key v : fine (l1 ++ o :: l2) -> after k l1 sc1 -> after k (l1 ++ o :: l2) sc3 ->
      peek k sc1 key = Some v -> uses k key o = true -> (forall key' v', o = OGetOrEmplace key' v' -> k_pointer k = true -> v' ∉ m_dropped (me sc1)) ->
      ODestroy ∉ l2 -> existsb (spoils k key) (o :: l2) = false -> spared k sc1 sc3 key -> k_steady k = true \/ existsb sets_back (o :: l2) = false ->
      (forall l' o' l'' s, o :: l2 = l' ++ o' :: l'' -> after k (l1 ++ l') s -> undisturbed k s key o') ->
      (forall d, k_max_age k = Some d -> forall la oa lb sa, l1 = la ++ oa :: lb -> after k la sa -> supplies k (key_of sa) (m_ncb (me sa)) false key v oa = true ->
        (k_steady k = true \/ sets_back oa = false) /\ (m_wall (me sc3) < m_wall (me sa) + d)%Z /\ (k_steady k = false -> (m_steady (me sc3) < m_steady (me sa) + d)%Z)) ->
      (m_steady (me sc3) < m_steady (me sc1) + idle)%Z -> peek k sc3 key = Some v.
    Proof using Hta Hrf Hq Hk Hid.
      intros Hf Ha1 Ha3 Hp Hus Hh Hd Hsp Hev Hb Hc Hage Hlt.
      assert (fine l1 /\ fine_op false o = true /\ fine l2) as (Hf1 & Hfo & Hf2). { apply fine_app in Hf as [? Hf]. by apply andb_true_iff in Hf as [? ?]. }
      destruct (after_abs k Hk l1 sc1 Hf1 Ha1) as (sa1 & R1 & S1 & T1 & _). destruct (after_abs k Hk _ sc3 Hf Ha3) as (sa3 & R3 & S3 & T3 & _).
      destruct (peek_entry k sa1 sc1 key v S1 T1 Hp) as (U1 & _).
      assert (ready k sa1) as Rd1. { apply (ready_run k Hk Hta Hq l1 st_init); [apply ready_init|done|done]. }
      destruct (ready_facts k sa1 Rd1 U1) as (I1 & Tn1 & J1 & Hua).
      assert (looki k sa1 key false = RV v) as El. { rewrite (peek_look k Hta sa1 sc1 key S1 T1), (look_up sa1 sc1 S1), U1 in Hp. unfold val in Hp. by destruct (looki k sa1 key false); try done; injection Hp as ->. }
      destruct (look_firm k sa1 key v false Hta Hq J1 El Hua) as (x & el & HF & Hnl).
      rewrite run_app, R1 in R3. unfold rbind in R3. change (run k (o :: l2) sa1 = Ok sa3) in R3.
      pose proof (calm_run l1 (o :: l2) key sa1 Hf R1 Hc) as Hcalm.
      assert (ODestroy ∉ o :: l2) as Hd' by (intros [E|?]%elem_of_cons; [by subst o|done]).
      assert (fine (o :: l2)) as Hf' by (by apply andb_true_iff).
      destruct (run_clk (o :: l2) sa1 sa3 T1 U1 Hf' Hd' Hb R3) as (U3 & W13 & St13).
      assert (timely (me sa3) el) as Htm.
      { pose proof HF as (TF & Em & Ek & _). destruct (k_max_age k) as [d|] eqn:Hda.
        2: { destruct (j_val _ _ J1 x el Hda TF) as [E1 E2]; [by rewrite Em|]. unfold timely. by rewrite E1, E2. }
        destruct (run_origin k Hk l1 sa1 Hf1 R1 U1 x el v key TF) as (la & oa & lb & sb1 & sb2 & sx & Ela & Rb1 & Rb2 & Hsup & P1 & _ & Hst & _); [by rewrite Em|done|].
        destruct (run_c k _ st_init sb1 st_init (h_init _ _ _ comp_ptr_sim) Rb1) as (sb & Cb & Sb).
        destruct (Hage d eq_refl la oa lb sb Ela Cb) as (Hoa & Y1 & Y2). { rewrite <-Hsup. unfold kof, key_of. by rewrite (srel_me _ _ Sb). }
        rewrite <-(srel_me _ _ S3), <-(srel_me _ _ Sb) in Y1, Y2.
        assert (fine_op false oa = true) as Hfa. { rewrite Ela in Hf1. apply fine_app in Hf1 as [_ Hf1]. by apply andb_true_iff in Hf1 as [? _]. }
        destruct (path_clk k (upto (okind k oa) (m_ncb (me sb1))) sb1 sx) as [C1 C2]; [|done|].
        { intros κ HA. destruct Hoa as [?|Hoa]; [by left|right]. by eapply top_back. }
        apply (stamped_timely (me sx) (me sa3) el d Hda Hst); [lia|]. intros Hks. specialize (Y2 Hks). lia. }
      rewrite <-(srel_me _ _ S3), <-(srel_me _ _ S1) in Hlt. set (B := (m_steady (me sa1) + idle)%Z) in *.
      rewrite run_cons in R3. destruct (top_step k Hk o sa1 T1 Hfo) as (s2 & r2 & E2 & _). rewrite E2 in R3. unfold rbind in R3.
      simpl in Hsp, Hb. apply orb_false_iff in Hsp as [Hsp1 Hsp2]. rewrite orb_false_iff in Hb.
      destruct (op_clk o sa1 s2 r2) as (T2 & U2 & C1 & C2 & P2); try done; [by intros ->|tauto|].
      destruct (run_clk l2 s2 sa3) as (_ & C3 & C4); try done; [tauto|].
      apply (spared_un k _ _ _ _ key S1 S3) in Hev.
      assert (forall key' v', o = OGetOrEmplace key' v' -> holds k sa1 v' = true) as Hhold.
      { intros key' v' Eo. unfold holds. destruct (k_pointer k) eqn:Hpt; [|done]. simpl. apply bool_decide_eq_true. rewrite (srel_me _ _ S1). by apply (Hh key' v'). }
      destruct (hit_get o sa1 s2 r2 key v x el Rd1 U1 Hfo Hus Hhold HF Hnl E2) as (key' & incl & Ek' & Pg & Pr).
      destruct (get_firm g0 sa1 key key' v x el incl (fun z => z = B) I1 Tn1 J1 HF Hnl Ek') as (el1 & HF1 & K1 & Hu1). { intros ? ->. unfold B. lia. }
      pose proof (v_steady _ _ (env_get k sa1 key' incl)) as Hsg.
      pose proof (op_mild o sa1 key Hfo Hsp1 ltac:(tauto) (Hcalm [] o l2 sa1 eq_refl eq_refl U1) ltac:(by intros items ->)) as HM.
      destruct (unevicted_split k Hk sa1 s2 sa3 key l2 T2 Hf2 R3 (path_nevict k _ _ _ key P2) Hev) as [Hev1 Hev2].
      assert (unevicted k sa1 (f_get k sa1 key' incl).1 key /\ unevicted k (f_get k sa1 key' incl).1 s2 key) as [Hg1 Hg2].
      { pose proof (path_nevict k _ _ _ key Pg). pose proof (path_nevict k _ _ _ key Pr). destruct Hev1 as [?|?]; split; first [by left|right; lia]. }
      assert (forall el', kept_as el el' -> timely (me sa3) el') as Htm'. { intros el' (Q1 & Q2 & _). unfold timely in *. by rewrite Q1, Q2. }
      destruct (path_stay (fun z => z = B) B _ (m_ncb (me sa1)) sa1 (f_get k sa1 key' incl).1 s2 key v x el1 HM) as (el2 & HF2 & K2 & Hu2); try done.
      { by apply path_unevicted. }
      { eapply path_tracked; [by apply path_unevicted; [exact Pg|]|]. by apply start_tracked. }
      { eapply timely_le; [exact C3|exact C4|]. by apply Htm'. }
      { lia. }
      { intros ? ->. unfold B. lia. }
      assert (kept_as el el2) as K2'. { destruct K1 as (? & ? & ?), K2 as (? & ? & ?). split_and!; congruence. }
      destruct (stay_run key v x B l2 s2 sa3 el2) as (el3 & HF3 & K3 & Hu3); try done.
      { eapply (path_DQ k dl idle Hrf); [exact P2|]. by apply (from_DQ l1). }
      { tauto. }
      { intros l' o' l'' s' -> R' U'. apply (Hcalm (o :: l') o' l''); [done| |done]. by rewrite run_cons, E2. }
      { by apply Htm'. }
      { unfold B. lia. }
      apply (stays_end key v x el3 B sa3 sc3); try done. destruct K2' as (Q1 & Q2 & _), K3 as (Q3 & Q4 & _). unfold timely in *. by rewrite Q3, Q4, Q1, Q2.
    Qed.
    Lemma born_cn m key v : el_cn (born k m key (MVal v)) = Some (m_steady m + idle)%Z.
    Proof using Hrf Hid.
      unfold born, assigned. simpl. rewrite Hrf, bool_decide_false by done. simpl. destruct (k_max_age k), (k_err_age k); done.
    Qed.
    Lemma emplace_stays l1 key' l2 sc1 sc3 key v : fine (l1 ++ OEmplace key' v :: l2) -> after k l1 sc1 -> after k (l1 ++ OEmplace key' v :: l2) sc3 ->
      m_up (me sc1) = true -> k_eq k key' key = true -> (k_pointer k = true -> v ∉ m_dropped (me sc1)) ->
      ODestroy ∉ l2 -> existsb (spoils k key) l2 = false -> spared k sc1 sc3 key -> k_steady k = true \/ existsb sets_back l2 = false ->
      (forall l' o' l'' s, l2 = l' ++ o' :: l'' -> after k (l1 ++ OEmplace key' v :: l') s -> undisturbed k s key o') ->
      (forall d, k_max_age k = Some d -> (m_wall (me sc3) < m_wall (me sc1) + d)%Z /\ (k_steady k = false -> (m_steady (me sc3) < m_steady (me sc1) + d)%Z)) ->
      (m_steady (me sc3) < m_steady (me sc1) + idle)%Z -> peek k sc3 key = Some v.
    Proof using Hta Hrf Hq Hk Hid.
      intros Hf Ha1 Ha3 Hup Ek Hh Hd Hsp Hev Hb Hc Hage Hlt.
      assert (fine l1 /\ fine_op false (OEmplace key' v) = true /\ fine l2) as (Hf1 & Hfo & Hf2). { apply fine_app in Hf as [? Hf]. by apply andb_true_iff in Hf as [? ?]. }
      destruct (after_abs k Hk l1 sc1 Hf1 Ha1) as (sa1 & R1 & S1 & T1 & _). destruct (after_abs k Hk _ sc3 Hf Ha3) as (sa3 & R3 & S3 & T3 & _).
      assert (m_up (me sa1) = true) as U1 by (by rewrite (srel_me _ _ S1)).
      destruct (top_facts k sa1 T1 U1) as (I1 & Tn1 & J1).
      assert (holds k sa1 v = true) as Hhold. { unfold holds. destruct (k_pointer k) eqn:Hpt; [|done]. simpl. apply bool_decide_eq_true. rewrite (srel_me _ _ S1). by apply Hh. }
      pose proof (step_emplace k sa1 key' v T1 U1 Hhold) as E2.
      assert (run k (l1 ++ [OEmplace key' v]) st_init = Ok (f_emplace k sa1 key' v)) as R2 by (by rewrite run_app, R1; unfold rbind; rewrite run_cons, E2).
      rewrite run_app, R1 in R3. unfold rbind in R3. change (run k (OEmplace key' v :: l2) sa1 = Ok sa3) in R3.
      rewrite run_cons, E2 in R3. unfold rbind in R3.
      destruct (op_clk (OEmplace key' v) sa1 (f_emplace k sa1 key' v) RetNone) as (T2 & U2 & C1 & C2 & _); try done; [by right|].
      assert (forall l' o' l'' s, l2 = l' ++ o' :: l'' -> run k l' (f_emplace k sa1 key' v) = Ok s -> m_up (me s) = true -> calm s key o') as Hcalm.
      { apply (calm_run (l1 ++ [OEmplace key' v]) l2 key); [by rewrite <-app_assoc|exact R2|]. intros l' o' l'' s El C. rewrite <-app_assoc in C. by apply (Hc l' o' l''). }
      destruct (run_clk l2 (f_emplace k sa1 key' v) sa3) as (U3 & C3 & C4); try done.
      destruct (top_facts k _ T2 U2) as (I2 & Tn2 & J2).
      rewrite <-(srel_me _ _ S3), <-(srel_me _ _ S1) in Hlt, Hage.
      destruct (expire_ends k g0 sa1 key' I1 Tn1) as ((_ & Ie & Xe) & Te).
      assert (path k (fun κ => κ = KFree \/ κ = KErase key') sa1 (f_expire k sa1 key')) as Pe by (eapply expire_path; eauto).
      assert (nohope k (f_expire k sa1 key') key') as Hno by (by eapply expire_nohope).
      destruct (insert_enter k g0 (f_expire k sa1 key') key' v HClean) as (s2 & Pi & M); try done.
      destruct (path_clk k (fun κ => κ = KFree \/ κ = KErase key') sa1 s2) as [D1 D2]; [by intros ? [-> | ->]; right| |].
      { eapply path_trans; [exact Pe|]. eapply path_weaken; [|exact Pi]. by left. }
      assert (k_hash k key' = k_hash k key) as Ehh by (by apply Hq).
      destruct (enter_firm k false _ s2 (f_insert k (f_expire k sa1 key') key' v) key' HClean v key M eq_refl Ek Ehh) as (x & HF).
      { intros y ey Hy Ty Eky. left.
        destruct (hopeful (el_map ey)) eqn:Hhp; [|done]. exfalso.
        assert (nohope k s2 key') as Hno2 by (by eapply free_nohope).
        assert (k_eq k (el_key ey) key' = true) as Hek. { destruct Hq as (_ & Q2 & Q3 & Q4). apply (Q3 _ key); [done|by apply Q2]. }
        rewrite (Hno2 y ey Ty) in Hhp; [done|]. split; [|done]. by apply Hq. }
      set (el := born k (me s2) key' (MVal v)) in *. set (B := (m_steady (me sa1) + idle)%Z) in *.
      set (s3 := f_insert k (f_expire k sa1 key') key' v) in *.
      assert (path k (fun κ => κ = KFree \/ κ = KErase key' \/ κ = KEnter key' HClean (Some v)) sa1 s3) as P3.
      { eapply path_trans; [eapply path_weaken; [|exact Pe]; intros ? [?|?]; tauto|]. eapply path_trans; [eapply path_weaken; [|exact Pi]; simpl; intros; tauto|]. eapply path_one; [|exact M]. tauto. }
      assert (J k s3) as J3 by (by eapply path_J).
      destruct (insert_ends k g0 (f_expire k sa1 key') key' v Ie Te) as [Ii Ti]. fold s3 in Ii, Ti.
      assert (path k (fun κ => κ = KFree \/ evicting κ) s3 (f_emplace k sa1 key' v)) as P4 by (eapply maint_path; try done; intros; simpl; tauto).
      apply (spared_un k _ _ _ _ key S1 S3) in Hev.
      assert (nevict k (m_log (me sa1)) key <= nevict k (m_log (me (f_emplace k sa1 key' v))) key) as Hn14.
      { etrans; [exact (path_nevict k _ _ _ key P3)|exact (path_nevict k _ _ _ key P4)]. }
      destruct (unevicted_split k Hk sa1 (f_emplace k sa1 key' v) sa3 key l2 T2 Hf2 R3 Hn14 Hev) as [Hev1 Hev2].
      assert (unevicted k s3 (f_emplace k sa1 key' v) key) as Hev3. { pose proof (path_nevict k _ _ _ key P3). destruct Hev1 as [?|?]; [by left|right; lia]. }
      assert (forall κ, κ = KFree \/ evicting κ -> forward k κ) as Hfw4 by (intros κ [-> |He]; right; [done|by destruct κ]).
      destruct (path_clk k _ s3 (f_emplace k sa1 key' v) Hfw4 P4) as [C5 C6].
      assert (forall κ, κ = KFree \/ κ = KErase key' \/ κ = KEnter key' HClean (Some v) -> forward k κ) as Hfw3 by (by intros κ [-> |[-> | ->]]; right).
      destruct (path_clk k _ sa1 s3 Hfw3 P3) as [C7 C8].
      assert (m_up (me s3) = true) as U3'. { rewrite <-U1. clear -P3. induction P3 as [|y1 y2 y3 (κ & _ & HM) _ IH]; [done|]. by rewrite IH, (n_up _ _ _ _ HM). }
      assert (timely (me sa3) el) as Htm.
      { pose proof HF as (TF & Em & _ & _). destruct (k_max_age k) as [d|] eqn:Hda.
        2: { destruct (j_val _ _ J3 x el Hda TF) as [E1' E2']; [by rewrite Em|]. unfold timely. by rewrite E1', E2'. }
        destruct (Hage d eq_refl) as [Y1 Y2].
        apply (stamped_timely (me s2) (me sa3) el d Hda); [|lia|].
        - unfold el, born. simpl. by apply assigned_stamped.
        - intros Hks. specialize (Y2 Hks). lia. }
      assert (used (fun z => z = B) el) as Hu. { intros ? c -> Ec. unfold el in Ec. rewrite born_cn in Ec. injection Ec as <-. unfold B. lia. }
      destruct (path_stay (fun z => z = B) B (fun κ => (κ = KFree \/ evicting κ) /\ sparing k key κ) (m_ncb (me s3)) s3 s3 (f_emplace k sa1 key' v) key v x el) as (el1 & HF1 & K1 & Hu1); try done.
      { split; unfold not; try (by intros; destruct_and?; repeat match goal with H : _ \/ _ |- _ => destruct H end).
        - intros κ [HA _]. by apply Hfw4.
        - intros key0 [_ HA]. by apply HA.
        - left. by intros key0 [[?|?] _]. }
      { by apply path_unevicted. }
      { split_and!; [done|by apply (keyed_refl k g0)|]. intros _ i c el0 p o Hni Hcb. pose proof (i_ncb _ _ _ Ii i ltac:(eauto)). lia. }
      { by eapply timely_le. }
      { lia. }
      { intros ? ->. unfold B. lia. }
      assert (timely (me sa3) el1) as Htm1. { destruct K1 as (Q1 & Q2 & _). unfold timely in *. by rewrite Q1, Q2. }
      destruct (stay_run key v x B l2 (f_emplace k sa1 key' v) sa3 el1) as (el3 & HF3 & K3 & Hu3); try done.
      { apply (from_DQ (l1 ++ [OEmplace key' v])); [|exact R2|done]. apply fine_app. split; [done|]. by apply fine_one. }
      { unfold B. lia. }
      apply (stays_end key v x el3 B sa3 sc3); try done. destruct K3 as (Q3 & Q4 & _). unfold timely in *. by rewrite Q3, Q4.
    Qed.
  End keep.
End idle.

(** with everything explicit *)
Lemma used_stays k dl idle l1 o l2 sc1 sc3 key v : fine_cfg k -> eq_ok k -> tame k -> k_refresh k = Some (dl, idle) -> idle <> 0%Z ->
  fine (l1 ++ o :: l2) -> after k l1 sc1 -> after k (l1 ++ o :: l2) sc3 ->
  peek k sc1 key = Some v -> uses k key o = true -> (forall key' v', o = OGetOrEmplace key' v' -> k_pointer k = true -> v' ∉ m_dropped (me sc1)) ->
  ODestroy ∉ l2 -> existsb (spoils k key) (o :: l2) = false -> spared k sc1 sc3 key -> k_steady k = true \/ existsb sets_back (o :: l2) = false ->
  (forall l' o' l'' s, o :: l2 = l' ++ o' :: l'' -> after k (l1 ++ l') s -> undisturbed k s key o') ->
  (forall d, k_max_age k = Some d -> forall la oa lb sa, l1 = la ++ oa :: lb -> after k la sa -> supplies k (key_of sa) (m_ncb (me sa)) false key v oa = true ->
    (k_steady k = true \/ sets_back oa = false) /\ (m_wall (me sc3) < m_wall (me sa) + d)%Z /\ (k_steady k = false -> (m_steady (me sc3) < m_steady (me sa) + d)%Z)) ->
  (m_steady (me sc3) < m_steady (me sc1) + idle)%Z -> peek k sc3 key = Some v.
Proof. intros Hk Hq Hta Hrf Hid. exact (hit_stays k Hk Hq Hta dl idle Hrf Hid l1 o l2 sc1 sc3 key v). Qed.
Lemma emplaced_stays k dl idle l1 key' l2 sc1 sc3 key v : fine_cfg k -> eq_ok k -> tame k -> k_refresh k = Some (dl, idle) -> idle <> 0%Z ->
  fine (l1 ++ OEmplace key' v :: l2) -> after k l1 sc1 -> after k (l1 ++ OEmplace key' v :: l2) sc3 ->
  m_up (me sc1) = true -> k_eq k key' key = true -> (k_pointer k = true -> v ∉ m_dropped (me sc1)) ->
  ODestroy ∉ l2 -> existsb (spoils k key) l2 = false -> spared k sc1 sc3 key -> k_steady k = true \/ existsb sets_back l2 = false ->
  (forall l' o' l'' s, l2 = l' ++ o' :: l'' -> after k (l1 ++ OEmplace key' v :: l') s -> undisturbed k s key o') ->
  (forall d, k_max_age k = Some d -> (m_wall (me sc3) < m_wall (me sc1) + d)%Z /\ (k_steady k = false -> (m_steady (me sc3) < m_steady (me sc1) + d)%Z)) ->
  (m_steady (me sc3) < m_steady (me sc1) + idle)%Z -> peek k sc3 key = Some v.
Proof. intros Hk Hq Hta Hrf Hid. exact (emplace_stays k Hk Hq Hta dl idle Hrf Hid l1 key' l2 sc1 sc3 key v). Qed.
