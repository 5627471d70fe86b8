(** What was looked up recently is not evicted (lemmas for PropertiesEvict.v). *)
From Verif Require Import Base AQueue ATable BasicHashtable QueueProofs BasicHashtableProofs ContainersProofs Mapped Cache CachePtr CacheAbs CompSim CacheSim AbsInv AbsPrim AbsPrim2 AbsSweep AbsOps AbsComp Trace AbsTrace TraceInv Delay AbsTraceCb Histories AbsResolve AbsStep AbsLook Effects Observe Transfer Lookups Calls Origins Rounds Bound Waiters Entries Evict.

(** ** what precedes an element *)
Fixpoint fr (e : N) (l : list N) : list N :=
  match l with [] => [] | y :: l => if decide (y = e) then [] else y :: fr e l end.
Lemma fr_sub e l x : x ∈ fr e l -> x ∈ l.
Proof. induction l as [|y l IH]; simpl; [done|]. destruct (decide (y = e)); [by intros ?%elem_of_nil|]. rewrite !elem_of_cons. naive_solver. Qed.
Lemma fr_nodup e l : NoDup l -> NoDup (fr e l).
Proof.
  induction l as [|y l IH]; simpl; [constructor|]. rewrite NoDup_cons. intros [H1 H2]. destruct (decide (y = e)); [constructor|].
  constructor; [|by apply IH]. by intros ?%fr_sub.
Qed.
Lemma fr_split e l1 l2 : e ∉ l1 -> fr e (l1 ++ e :: l2) = l1.
Proof.
  induction l1 as [|y l1 IH]; simpl; [by rewrite decide_True|]. rewrite not_elem_of_cons. intros [H1 H2].
  rewrite decide_False by done. by rewrite IH.
Qed.
Lemma fr_app e l1 l2 : e ∉ l1 -> fr e (l1 ++ l2) = l1 ++ fr e l2.
Proof.
  induction l1 as [|y l1 IH]; simpl; [done|]. rewrite not_elem_of_cons. intros [H1 H2].
  rewrite decide_False by done. by rewrite IH.
Qed.
Lemma fr_app_in e l1 l2 : e ∈ l1 -> fr e (l1 ++ l2) = fr e l1.
Proof.
  induction l1 as [|y l1 IH]; simpl; [by intros ?%elem_of_nil|]. rewrite elem_of_cons. intros H.
  destruct (decide (y = e)); [done|]. rewrite IH; [done|]. destruct H; [by subst|done].
Qed.
Lemma sublist_in (l l' : list N) x : sublist l' l -> x ∈ l' -> x ∈ l.
Proof. intros H Hx. eapply elem_of_submseteq; [exact Hx|by apply sublist_submseteq]. Qed.
Lemma fr_sublist e l l' x : sublist l' l -> e ∈ l' -> NoDup l -> x ∈ fr e l' -> x ∈ fr e l.
Proof.
  intros H. induction H as [|y l' l H IH|y l' l H IH]; simpl; [done|..]; rewrite ?NoDup_cons.
  - intros He [_ Hn]. destruct (decide (y = e)); [done|]. rewrite elem_of_cons in He. destruct He as [->|He]; [done|].
    rewrite !elem_of_cons. intros [->|Hx]; [by left|right; auto].
  - intros He [Hy Hn] Hx. rewrite decide_False; [right; by apply IH|]. intros ->. apply Hy. by eapply sublist_in.
Qed.
Lemma fr_insert e v l1 l2 x : v <> e -> x ∈ fr e (l1 ++ v :: l2) -> x = v \/ x ∈ fr e (l1 ++ l2).
Proof.
  intros Hv. destruct (decide (e ∈ l1)) as [H|H].
  - rewrite !fr_app_in by done. by right.
  - rewrite !fr_app by done. simpl. rewrite decide_False by done. rewrite !elem_of_app, elem_of_cons. naive_solver.
Qed.
Lemma rm_sublist v l : sublist (rm v l) l.
Proof. unfold rm. induction l as [|y l IH]; [constructor|]. rewrite filter_cons. destruct (decide (y <> v)); by constructor. Qed.
Lemma fr_hit e v l x : NoDup l -> e ∈ l -> x ∈ fr e (v :: rm v l) -> (x = v /\ v <> e) \/ x ∈ fr e l.
Proof.
  intros Hn He. simpl. destruct (decide (v = e)); [by intros ?%elem_of_nil|]. rewrite elem_of_cons. intros [->|Hx]; [by left|right].
  eapply fr_sublist; [apply rm_sublist| |done|exact Hx]. apply elem_of_list_filter. split; [congruence|done].
Qed.
Lemma fr_shorter e x l : NoDup l -> e ∈ l -> x ∈ fr e l -> length (fr x l) < length (fr e l).
Proof.
  intros Hn He Hx. apply elem_of_list_split in He as (l1 & l2 & ->). pose proof Hn as (H1 & Hd & H2)%NoDup_app.
  assert (e ∉ l1) as Hel. { intros H. eapply Hd; [exact H|]. left. }
  rewrite (fr_split e) in * by done. apply elem_of_list_split in Hx as (l3 & l4 & ->).
  rewrite <-app_assoc. simpl. rewrite fr_split; [rewrite app_length; simpl; lia|]. apply NoDup_app in H1 as (_ & Hd1 & _). intros H. eapply Hd1; [exact H|left].
Qed.

(** ** the order of the queue *)
Lemma rm_notin v l : v ∉ l -> rm v l = l.
Proof.
  intros H. unfold rm. induction l as [|y l IH]; [done|]. rewrite not_elem_of_cons in H. destruct H as [H1 H2].
  rewrite filter_cons_True by congruence. by rewrite IH.
Qed.
Lemma rm_app v l1 l2 : rm v (l1 ++ l2) = rm v l1 ++ rm v l2.
Proof. apply filter_app. Qed.
Lemma unlink_order q v : NoDup (aq_elems q) -> aq_elems (aq_unlink q v) = rm v (aq_elems q).
Proof.
  destruct q as [H C]. unfold aq_elems, aq_unlink. simpl. intros (H1 & Hd & H2)%NoDup_app. rewrite rm_app.
  case_bool_decide as Hv.
  - rewrite (rm_notin v C) by (by apply Hd). destruct (aq_odd (H, C)); [|done]. destruct C as [|c C]; [done|]. simpl. by rewrite <-app_assoc.
  - rewrite (rm_notin v H) by done. destruct (aq_odd (H, C)); [done|]. destruct (last H) as [x|] eqn:El; [|done].
    apply last_Some in El as [l ->]. rewrite removelast_snoc. simpl. by rewrite <-app_assoc.
Qed.
Lemma hit_order q v : NoDup (aq_elems q) -> v ∈ aq_elems q -> aq_elems (aq_hit q v) = v :: rm v (aq_elems q).
Proof.
  destruct q as [H C]. unfold aq_elems, aq_hit. simpl. intros (H1 & Hd & H2)%NoDup_app Hv. rewrite rm_app.
  case_bool_decide as Hi.
  - by rewrite (rm_notin v C) by (by apply Hd).
  - rewrite (rm_notin v H) by done. destruct (last H) as [x|] eqn:El.
    + apply last_Some in El as [l ->]. rewrite removelast_snoc. simpl. by rewrite <-app_assoc.
    + apply last_None in El as ->. done.
Qed.
Lemma create_order q v : exists l1 l2, aq_elems q = l1 ++ l2 /\ aq_elems (aq_create q v).1 = l1 ++ v :: l2.
Proof.
  destruct q as [H C]. unfold aq_elems, aq_create. simpl. destruct (aq_odd (H, C)).
  - destruct C as [|c C]; simpl.
    + exists H, []. done.
    + exists (H ++ [c]), C. by rewrite <-app_assoc.
  - by exists H, C.
Qed.
(** Whatever is evicted is preceded by as many entries as the limit allows. *)
Lemma victims_order q n m x : NoDup (aq_elems q) -> n + m <= length (aq_elems q) -> x ∈ aq_victims q m -> n <= length (fr x (aq_elems q)).
Proof.
  destruct q as [H C]. unfold aq_elems, aq_victims. simpl. intros Hnd Hl Hx.
  assert (exists c1 c2, C = c1 ++ x :: c2 /\ length c2 < m) as (c1 & c2 & -> & Hc).
  { apply elem_of_take in Hx as (i & Hi & Hm). apply reverse_lookup_Some in Hi as [Hi Hlt].
    pose proof (take_drop_middle _ _ _ Hi) as E. eexists _, _. split; [symmetry; exact E|]. rewrite drop_length. lia. }
  rewrite app_assoc. rewrite fr_split.
  - rewrite !app_length in *. simpl in *. lia.
  - rewrite app_assoc in Hnd. apply NoDup_app in Hnd as (_ & Hd & _). intros Hin. eapply Hd; [exact Hin|left].
Qed.

Lemma pigeon (R : N -> Z -> Prop) (l : list N) : forall ks : list Z, NoDup l -> (forall x, x ∈ l -> exists y, y ∈ ks /\ R x y) ->
  (forall x x' y, x ∈ l -> x' ∈ l -> R x y -> R x' y -> x = x') -> length l <= length ks.
Proof.
  induction l as [|x l IH]; intros ks Hn H1 H2; simpl; [lia|]. apply NoDup_cons in Hn as [Hx Hn].
  destruct (H1 x) as (y & Hy & Rx); [left|]. apply elem_of_list_split in Hy as (k1 & k2 & ->).
  assert (length l <= length (k1 ++ k2)) as Hlen; [|rewrite !app_length in *; simpl; lia].
  apply IH; [done| |].
  - intros x' Hx'. destruct (H1 x') as (y' & Hy' & Rx'); [by right|]. exists y'. split; [|done].
    rewrite elem_of_app, elem_of_cons in Hy'. rewrite elem_of_app. destruct Hy' as [?|[->|?]]; [by left| |by right].
    assert (x = x') as <-; [|done]. eapply H2; [left|by right|exact Rx|exact Rx'].
  - intros a b c Ha Hb. apply H2; by right.
Qed.

Notation Q s := (aq_elems (a_q (cs s))).
Definition kv (s : sta) (x : N) : option (Z * mapped) := (fun el => (el_key el, el_map el)) <$> m_els (me s) !! x.
(** entries were removed, nothing else changed *)
Definition qt (s s' : sta) : Prop := sublist (Q s') (Q s) /\ forall x, x ∈ Q s' -> kv s' x = kv s x.
Lemma qt_refl s : qt s s.
Proof. by split. Qed.
Lemma qt_trans s1 s2 s3 : qt s1 s2 -> qt s2 s3 -> qt s1 s3.
Proof. intros [A1 A2] [B1 B2]. split; [by etrans|]. intros x Hx. rewrite B2 by done. apply A2. by eapply sublist_in. Qed.

Section lru.
  Context (k : cfg) (n : nat) (Hs : k_max_size k = Some n) (Hp : k_pointer k = false) (Hrf : k_refresh k = None).
  Lemma queued : has_queue k = true.
  Proof using Hs. unfold has_queue. rewrite Hs. by apply bool_decide_true. Qed.
  Lemma rem_qt g s e el : inv k g s -> m_els (me s) !! e = Some el -> ~ is_pend el -> Q (f_rem k s e) = rm e (Q s) /\ qt s (f_rem k s e).
  Proof using Hs.
    intros Hi Hel Hnp. unfold f_rem, f_disp. set (s1 := with_cs s _).
    assert (f_cancel s1 e = s1) as ->. { unfold f_cancel. change (m_els (me s1)) with (m_els (me s)). rewrite Hel. unfold is_pend, el_pending in Hnp. by destruct (el_map el). }
    assert (Q (f_dec (with_cs s1 (unq k (cs s1) e)) e) = rm e (Q s)) as E.
    { destruct (f_dec_cs (with_cs s1 (unq k (cs s1) e)) e) as (_ & _ & -> & _). simpl. rewrite queued. apply unlink_order. by eapply q_nodup. }
    split; [done|]. split; [rewrite E; apply rm_sublist|]. intros x. rewrite E. intros [Hx _]%elem_of_list_filter.
    unfold kv. by rewrite f_dec_els.
  Qed.
  Lemma fsw_qt g vs va M : (forall s e, pends s e = false -> vs s e = s) -> forall s, inv k g s -> a_torn (cs s) = None -> NoDup M ->
    (forall e, e ∈ M -> e ∈ tab s) -> (forall e, e ∈ M -> pends s e = false) ->
    inv k g (fsw k vs va M s).1 /\ a_torn (cs (fsw k vs va M s).1) = None /\ qt s (fsw k vs va M s).1.
  Proof using Hs.
    intros Hvs. induction M as [|e M IH]; intros s Hi Ht Hn Hm Hpd; simpl; [split_and!; [done|done|apply qt_refl]|].
    apply NoDup_cons in Hn as [He Hn]. rewrite Hvs by (apply Hpd; left).
    assert (e ∈ tab s) as Het by (apply Hm; left).
    destruct (va s e); simpl.
    - apply IH; try done; intros x Hx; [apply Hm|apply Hpd]; by right.
    - assert (is_Some (m_els (me s) !! e)) as [el Hel]. { apply (i_tab _ _ _ Hi). by apply tab_LT. }
      assert (~ is_pend el) as Hnp. { specialize (Hpd e ltac:(left)). unfold pends in Hpd. rewrite Hel in Hpd. unfold is_pend. congruence. }
      destruct (rem_ends k g s e el Hi Ht Het Hel Hnp) as (_ & I1 & _). destruct (rem_qt g s e el Hi Hel Hnp) as [E1 Q1].
      destruct (f_rem_tab k s e) as [B1 T1].
      destruct (IH (f_rem k s e)) as (I2 & T2 & Q2); try done.
      + by rewrite T1.
      + intros x Hx. assert (x <> e) by congruence. unfold tab. rewrite B1. rewrite at_unlink_elems. apply elem_of_list_filter. split; [done|apply Hm; by right].
      + intros x Hx. assert (x <> e) as Hne by congruence. rewrite <-(Hpd x) by (by right). unfold pends. 
        unfold f_rem, f_disp. set (s1 := with_cs s _).
        assert (f_cancel s1 e = s1) as ->. { unfold f_cancel. change (m_els (me s1)) with (m_els (me s)). rewrite Hel. unfold is_pend, el_pending in Hnp. by destruct (el_map el). }
        by rewrite f_dec_els.
      + split_and!; try done. by eapply qt_trans.
    - split_and!; [done|done|apply qt_refl].
  Qed.

  Definition np (s : sta) : Prop := forall e, e ∈ tab s -> pends s e = false.
  Lemma find_qt g s key incl : inv k g s -> a_torn (cs s) = None -> np s -> qt s (f_find k s key incl).1.
  Proof using Hs.
    intros Hi Ht Hn. apply (fsw_qt g); try done; [by eapply bucket_nodup|intros e; apply bucket_in|]. intros e He. apply Hn. by eapply bucket_in.
  Qed.
  Lemma expire_qt g s key : inv k g s -> a_torn (cs s) = None -> np s -> qt s (f_expire k s key).
  Proof using Hs.
    intros Hi Ht Hn. apply (fsw_qt g); try done; [|by eapply bucket_nodup|intros e; apply bucket_in|].
    - intros s1 e E. unfold vs_exp. by rewrite E, andb_false_r.
    - intros e He. apply Hn. by eapply bucket_in.
  Qed.
  Lemma expire_all_qt g s : inv k g s -> a_torn (cs s) = None -> np s -> qt s (f_expire_all k s).
  Proof using Hs.
    intros Hi Ht Hn. apply (fsw_qt g); try done; [|by eapply tab_nodup].
    intros s1 e E. unfold vs_all. by rewrite E.
  Qed.
  Lemma ue_qt g s : inv k g s -> a_torn (cs s) = None -> np s -> qt s (f_ue k s).
  Proof using Hs. intros Hi Ht Hn. apply (fsw_qt g); try done. by eapply tab_nodup. Qed.
  Lemma mrehash_qt g s : inv k g s -> a_torn (cs s) = None -> np s -> qt s (f_mrehash k s).
  Proof using Hs.
    intros Hi Ht Hn. unfold f_mrehash. set (s1 := if k_over k _ _ then f_ue k s else s).
    assert (qt s s1) as Q1. { unfold s1. destruct (k_over k _ _); [by eapply ue_qt|apply qt_refl]. }
    destruct (_ || _); [|done]. eapply qt_trans; [exact Q1|by split].
  Qed.
  Lemma reserve_qt g s m : inv k g s -> a_torn (cs s) = None -> np s -> qt s (f_reserve k s m).
  Proof using Hs.
    intros Hi Ht Hn. unfold f_reserve. set (s1 := if bool_decide (length (a_bs (cs s)) < Nat.min (k_req k m) (k_mbc k)) then f_ue k s else s).
    assert (qt s s1) as Q1. { unfold s1. destruct (bool_decide _); [by eapply ue_qt|apply qt_refl]. }
    destruct (bool_decide (length (a_bs (cs s1)) < _)); [|done]. eapply qt_trans; [exact Q1|by split].
  Qed.
  Lemma kv_pends s s' x : kv s' x = kv s x -> pends s' x = pends s x.
  Proof. unfold kv, pends. destruct (m_els (me s') !! x) as [a|], (m_els (me s) !! x) as [b|]; simpl; try done. intros [= _ E]. unfold el_pending. by rewrite E. Qed.
  Lemma strengthen_kv g s0 s e x : inv k g s0 -> m_els (me s) = m_els (me s0) -> pends s e = false -> kv (f_strengthen k s e) x = kv s x.
  Proof using Hp.
    intros Hi Es Hn. unfold kv, f_strengthen. rewrite p_upd_lookup. destruct (decide (x = e)) as [->|]; [|done]. unfold pends in Hn.
    destruct (m_els (me s) !! e) as [el|] eqn:E; [|done]. simpl. f_equal. f_equal. rewrite Es in E. destruct (i_mode _ _ _ Hi _ _ E) as [_ Hw].
    unfold el_pending in Hn. destruct (el_map el) as [p|v|o|y| |]; simpl in *; try done. by destruct (Hw Hp o).
  Qed.
  Lemma hit_qt g s e : inv k g s -> a_torn (cs s) = None -> g_xs g = [] -> np s -> e ∈ tab s -> Q (f_hit k s e) = e :: rm e (Q s) /\ forall x, kv (f_hit k s e) x = kv s x.
  Proof using Hs Hp Hrf.
    intros Hi Ht Hx Hn He. unfold f_hit. rewrite Hrf. unfold f_hitq. rewrite queued.
    assert (e ∈ Q s) as HeQ. { pose proof (i_q _ _ _ Hi) as HQ. rewrite queued in HQ. rewrite HQ. by apply tab_LT. }
    split.
    - unfold f_strengthen. rewrite p_upd_cs. simpl. apply hit_order; [by eapply q_nodup|done].
    - intros x. rewrite (strengthen_kv g s); [done|done|done|]. by apply (Hn e).
  Qed.
  Lemma assign_kv s e b x : kv (f_assign k s e b) x = kv s x.
  Proof using Hrf.
    unfold f_assign. rewrite Hrf. assert (forall s d, kv (f_age k s e d) x = kv s x) as H.
    { intros s1 d. unfold kv, f_age. rewrite p_upd_lookup. destruct (decide (x = e)) as [->|]; [|done]. by destruct (m_els (me s1) !! e). }
    destruct (k_max_age k), (k_err_age k), b; by rewrite ?H.
  Qed.
  Lemma link_qt g s h e : inv k g s -> a_torn (cs s) = None -> np s -> e ∉ Q s -> e ∉ tab s -> g_xs g = [] ->
    exists l1 l2, sublist (l1 ++ l2) (Q s) /\ Q (f_link k s h e) = l1 ++ e :: l2 /\ forall x, x ∈ Q (f_link k s h e) -> kv (f_link k s h e) x = kv s x.
  Proof using Hs Hp Hrf.
    intros Hi Ht Hn HeQ Het Hx. destruct (mrehash_ends k g s Hi Ht) as ((_ & I1 & _) & T1 & _). destruct (mrehash_qt g s Hi Ht Hn) as [Q1 K1].
    set (s1 := f_mrehash k s) in *. assert (kv s1 e = kv s e) as Ke. { unfold kv, s1. by rewrite f_mrehash_els. }
    assert (forall s x, Q (if pends s e then s else f_assign k s e (holds_value s e)) = Q s /\ kv (if pends s e then s else f_assign k s e (holds_value s e)) x = kv s x) as Ha.
    { intros s2 x. destruct (pends s2 e); [done|]. split; [|apply assign_kv]. unfold f_assign. rewrite Hrf.
      assert (forall s d, cs (f_age k s e d) = cs s) as H by (intros; apply f_age_cs). by destruct (k_max_age k), (k_err_age k), (holds_value s2 e); rewrite ?H. }
    destruct (create_order (a_q (cs s1)) e) as (l1 & l2 & E1 & E2). exists l1, l2.
    assert (Q (f_create k s1 h e) = l1 ++ e :: l2) as E3. { rewrite f_create_cs. simpl. by rewrite queued. }
    assert (Q (f_link k s h e) = l1 ++ e :: l2) as E4. { unfold f_link. fold s1. destruct (Ha (f_create k s1 h e) e) as [-> _]. done. }
    split_and!; [by rewrite <-E1|done|]. intros x. rewrite E4. intros Hin. unfold f_link. fold s1. destruct (Ha (f_create k s1 h e) x) as [_ ->].
    assert (kv (f_create k s1 h e) x = kv s1 x) as ->.
    { unfold f_create. rewrite queued. destruct (aq_create (a_q (cs s1)) e).2 as [y|] eqn:Ey; [|done].
      apply aq_create_promoted in Ey. rewrite (strengthen_kv g s1); [done|done|done|]. rewrite <-(Hn y); [|eapply q_tab; [exact Hi|done|done|apply queued|by eapply sublist_in]].
      apply kv_pends. by apply K1. }
    rewrite elem_of_app, elem_of_cons in Hin. assert (x = e \/ x ∈ Q s1) as [->|Hq]; [|done|by apply K1].
    rewrite E1, elem_of_app. naive_solver.
  Qed.
End lru.

Section recent.
  Context (k : cfg) (Hk : fine_cfg k) (Hq : eq_ok k) (Hr : k_resolver k = RNone) (Hm : k_max_age k = None) (Hrf : k_refresh k = None) (Hp : k_pointer k = false).
  Context (n : nat) (Hs : k_max_size k = Some n).
  Notation inv := (inv k).
  Notation firm := (firm k true).
  Notation nlog s key := (nevict k (m_log (me s)) key).
  Lemma Hta : tame k.
  Proof using Hp. by left. Qed.
  Lemma Hra : k_resolver k <> RAsync.
  Proof using Hr. by rewrite Hr. Qed.

  (** the entry stays in place *)
  Lemma path_stay (A : kind -> Prop) s s' key v x : (forall κ, A κ -> spares0 k key κ) -> path k A s s' -> J k s ->
    (exists el, firm s key v x el) -> exists el, firm s' key v x el.
  Proof using Hm Hrf Hp.
    intros HA P. induction P as [|s s1 s' (κ & Aκ & M) P IH]; intros HJ HF; [done|]. apply IH; [by eapply mini_J|].
    destruct HF as (el & HF). destruct (mini_keep0 k true κ s s1 key v x el Hta HJ Hrf M HF) as (el' & HF' & _).
    - destruct HF as (Tx & Em & _). destruct (j_val _ _ HJ x el Hm Tx) as [E1 E2]; [by rewrite Em|]. destruct (j_cn _ _ HJ x el Hrf Tx) as [E3 _].
      unfold late. by rewrite E1, E2, E3.
    - by left.
    - by apply HA.
    - eauto.
  Qed.
  Lemma firm_in g s key v x : inv g s -> a_torn (cs s) = None -> (exists el, firm s key v x el) -> x ∈ Q s.
  Proof using Hs.
    intros Hi Ht (el & Tx & _). apply tv_in in Tx. pose proof (i_q _ _ _ Hi) as HQ. rewrite (queued k n Hs) in HQ. rewrite HQ. by apply tab_LT.
  Qed.
  Lemma firm_kv s key v x : (exists el, firm s key v x el) -> exists kx, kv s x = Some (kx, MVal v) /\ k_eq k kx key = true.
  Proof using.
    intros (el & Tx & Em & Ek & _). apply tv_elim in Tx as (_ & el0 & E0 & ->). exists (el_key el0). unfold kv. rewrite E0. simpl in *. by rewrite Em.
  Qed.
  Lemma kv_tv s x kx m : x ∈ tab s -> kv s x = Some (kx, m) -> exists el, tv s x = Some el /\ el_key el = kx /\ el_map el = m.
  Proof using.
    intros Hx E. unfold kv in E. destruct (m_els (me s) !! x) as [el|] eqn:Ex; [|done]. injection E as <- <-.
    exists (with_rc el 0). split; [by apply tv_some|done].
  Qed.
  Lemma J_np s : J k s -> np s.
  Proof using Hr.
    intros HJ e He. unfold pends. destruct (m_els (me s) !! e) as [el|] eqn:E; [|done]. pose proof (tv_some s e el He E) as T.
    exact (no_pending k Hra s e _ HJ T).
  Qed.

  (** the entries before [e] are values of the keys [ks] *)
  Definition near (ks : list Z) (s : sta) (e : N) : Prop :=
    forall x, x ∈ fr e (Q s) -> exists kx w key, kv s x = Some (kx, MVal w) /\ key ∈ ks /\ k_eq k kx key = true.
  Lemma near_qt ks (s s' : sta) e : NoDup (Q s) -> qt s s' -> e ∈ Q s' -> near ks s e -> near ks s' e.
  Proof using.
    intros Hn [Q1 K1] He H x Hx. rewrite K1 by (by eapply fr_sub). apply H. by eapply fr_sublist.
  Qed.
  Lemma same_value g s x y kx ky mx my : inv g s -> a_torn (cs s) = None -> g_xs g = [] -> J k s -> uq k none s -> x ∈ Q s -> y ∈ Q s ->
    kv s x = Some (kx, mx) -> kv s y = Some (ky, my) -> hopeful mx = true -> hopeful my = true -> k_eq k kx ky = true -> x = y.
  Proof using Hr Hs.
    intros Hi Ht Hx HJ Hu Hxq Hyq Kx Ky Lx Ly Ek. destruct (decide (x = y)) as [|Hne]; [done|].
    assert (forall z, z ∈ Q s -> z ∈ tab s) as Hqt. { intros z. eapply q_tab; try done. by eapply queued. }
    destruct (kv_tv s x _ _ (Hqt x Hxq) Kx) as (ex & Tx & <- & <-). destruct (kv_tv s y _ _ (Hqt y Hyq) Ky) as (ey & Ty & <- & <-).
    destruct (Hu x y ex ey Tx Ty Hne Ek Lx Ly) as [H|[H|[H|H]]]; try done; by apply (unlinked k Hra) in H.
  Qed.
  Lemma front_short g ks s e : inv g s -> a_torn (cs s) = None -> g_xs g = [] -> J k s -> uq k none s -> near ks s e -> length (fr e (Q s)) <= length ks.
  Proof using Hq Hr Hs.
    intros Hi Ht Hx HJ Hu Hn. apply (pigeon (fun x key => exists kx w, kv s x = Some (kx, MVal w) /\ k_eq k kx key = true)).
    - apply fr_nodup. by eapply q_nodup.
    - intros x Hin. destruct (Hn x Hin) as (kx & w & key & H1 & H2 & H3). exists key. eauto.
    - intros x y key Hxi Hyi (kx & wx & Kx & Ex) (ky & wy & Ky & Ey). destruct Hq as (_ & Hsym & Htr & _).
      eapply same_value; try done; try (by eapply fr_sub). eapply Htr; [exact Ex|]. by apply Hsym.
  Qed.

  (** ** eviction *)
  Lemma evict_kv s x y : y <> x -> kv (f_evict k s x) y = kv s y.
  Proof using.
    intros Hne. unfold kv, f_evict, f_weaken, f_mark. rewrite <-(f_note_els s x). destruct (k_weaken k); by rewrite p_upd_lookup, decide_False.
  Qed.
  Lemma evict_kv_self s x kx m : kv (f_evict k s x) x = Some (kx, m) -> m_live m = true -> exists m0, kv s x = Some (kx, m0) /\ m_live m0 = true.
  Proof using Hp.
    unfold kv, f_evict, f_weaken, f_mark. rewrite <-(f_note_els s x).
    destruct (k_weaken k); rewrite p_upd_lookup, decide_True by done; destruct (m_els (me (f_note s x)) !! x) as [el|]; simpl; try done; intros [= <- <-] L; eexists; split; try done;
      destruct (el_map el) as [p|v|[o|]|y| |]; simpl in *; try done; try (by destruct (k_pointer k)).
  Qed.
  Lemma evict_nlog s x key : (forall kx m, kv s x = Some (kx, m) -> m_live m = true -> k_eq k kx key = false) -> nlog (f_evict k s x) key = nlog s key.
  Proof using.
    intros H. assert (m_log (me (f_evict k s x)) = m_log (me (f_note s x))) as ->. { unfold f_evict, f_weaken, f_mark. destruct (k_weaken k); apply p_upd_me. }
    unfold f_note. unfold kv in H. destruct (m_els (me s) !! x) as [el|]; [|done]. destruct (m_live (el_map el)) eqn:L; [|done].
    unfold nevict. simpl. by rewrite (H _ _ eq_refl L).
  Qed.
  Lemma evicts_spare key l : forall s, (forall x kx m, x ∈ l -> kv s x = Some (kx, m) -> m_live m = true -> k_eq k kx key = false) ->
    nlog (f_evicts k s l) key = nlog s key /\ forall y, y ∉ l -> kv (f_evicts k s l) y = kv s y.
  Proof using Hp.
    induction l as [|x l IH]; intros s H; [done|]. unfold f_evicts in *. simpl. destruct (IH (f_evict k s x)) as [E1 E2].
    - intros y ky m Hy Ky L. destruct (decide (y = x)) as [->|Hne].
      + destruct (evict_kv_self s x ky m Ky L) as (m0 & K0 & L0). eapply H; [left|exact K0|done].
      + rewrite evict_kv in Ky by done. eapply H; [by right|exact Ky|done].
    - rewrite E1. split; [apply evict_nlog; intros kx m; apply H; left|]. intros y [Hne Hy]%not_elem_of_cons. by rewrite E2, evict_kv.
  Qed.
  Lemma live_hopeful m : m_live m = true -> hopeful m = true.
  Proof using. by destruct m. Qed.
  Lemma maint_near g ks s key v e : inv g s -> a_torn (cs s) = None -> g_xs g = [] -> J k s -> uq k none s -> length ks < n ->
    (exists el, firm s key v e el) -> near ks s e -> nlog (f_maint k s) key = nlog s key /\ near ks (f_maint k s) e.
  Proof using Hq Hr Hs Hp.
    intros Hi Ht Hx HJ Hu Hl HF Hn. pose proof (front_short g ks s e Hi Ht Hx HJ Hu Hn) as Hsh. pose proof (q_nodup k g s Hi) as Hnd.
    pose proof (firm_in g s key v e Hi Ht HF) as Heq. destruct (firm_kv s key v e HF) as (ke & Ke & Eke).
    assert (forall x, x ∈ victims k s -> n <= length (fr x (Q s))) as Hvic.
    { intros x. unfold victims. rewrite Hs.
      assert (length (Q s) = length (concat (a_bs (cs s)))) as El.
      { pose proof (i_q _ _ _ Hi) as HQ. rewrite (queued k n Hs) in HQ. rewrite HQ. unfold LT. rewrite Hx, a_tab_None by done. done. }
      case_bool_decide; [apply victims_order; [done|lia]|]. unfold aq_victims. simpl. by intros ?%elem_of_nil. }
    destruct (evicts_spare key (victims k s) s) as [E1 E2].
    { intros x kx m Hxv Kx L. destruct (k_eq k kx key) eqn:Ek; [|done]. assert (x = e) as ->; [|specialize (Hvic _ Hxv); lia].
      destruct Hq as (_ & Hsym & Htr & _). eapply (same_value g s); try done; [|by apply live_hopeful|eapply Htr; [exact Ek|by apply Hsym]].
      unfold victims in Hxv. rewrite Hs in Hxv. by eapply aq_victims_elems. }
    split; [exact E1|]. intros x Hin. unfold f_maint in *. rewrite f_evicts_cs in Hin. rewrite E2; [by apply Hn|].
    intros Hxv%Hvic. pose proof (fr_shorter e x (Q s) Hnd Heq Hin). lia.
  Qed.

  (** ** the operations *)
  Notation top := (top k).
  Definition recent (ks : list Z) (s : sta) (key v : Z) (e : N) : Prop := (exists el, firm s key v e el) /\ near ks s e.
  Definition inset (ks : list Z) (key key' : Z) : Prop := k_eq k key' key = true \/ exists x, x ∈ ks /\ k_eq k key' x = true.
  Lemma step_quiet (s s' : sta) ks e : Q s' = Q s -> m_els (me s') = m_els (me s) -> near ks s e -> near ks s' e.
  Proof using. intros E1 E2 H x. rewrite E1. unfold kv. rewrite E2. apply H. Qed.
  Lemma hit_found g s x r key0 incl : inv g s -> a_torn (cs s) = None -> g_xs g = [] -> J k s -> uq k none s -> (f_find k s key0 incl).2 = Some (x, r) ->
    let s1 := (f_find k s key0 incl).1 in
    inv g s1 /\ a_torn (cs s1) = None /\ J k s1 /\ uq k none s1 /\ qt s s1 /\ Q (f_hit k s1 x) = x :: rm x (Q s1) /\ (forall y, kv (f_hit k s1 x) y = kv s1 y) /\
    x ∈ Q s1 /\ exists kx w, kv s1 x = Some (kx, MVal w) /\ k_eq k kx key0 = true.
  Proof using Hp Hq Hr Hrf Hs.
    intros Hi Ht Hx HJ Hu Ef s1. destruct (find_ends k g s key0 incl Hi Ht) as (_ & I1 & _ & T1).
    pose proof (find_qt k n Hs g s key0 incl Hi Ht (J_np s HJ)) as Q1.
    assert (path k (fun κ => κ = KFree) s (f_find k s key0 incl).1) as P1 by (by eapply find_path).
    pose proof (f_find_spec k (bucket s (k_hash k key0)) g (k_hash k key0) key0 incl s Hi Ht (bucket_nodup _ _ _ _ Hi Ht) (bucket_in _ _) x r) as Hsp.
    fold (f_find k s key0 incl) in Hsp. specialize (Hsp Ef). destruct Hsp as (_ & Hxt & Er & Hr0 & _). fold s1 in I1, T1, Q1, P1, Hxt, Er.
    assert (J k s1) as HJ1 by (by eapply path_J). assert (uq k none s1) as Hu1. { eapply (path_uq k none _ s s1 Hq); [|exact P1|done]. by intros κ ->. }
    destruct (hit_qt k n Hs Hp Hrf g s1 x I1 T1 Hx (J_np s1 HJ1) Hxt) as [EQ EK]. split_and!; try done.
    - pose proof (i_q _ _ _ I1) as HQ. rewrite (queued k n Hs) in HQ. rewrite HQ. by apply tab_LT.
    - unfold ans in Er. destruct (a_hash (cs s1) !! x) as [h|]; [|done]. destruct (m_els (me s1) !! x) as [el|] eqn:Ex; [|done].
      destruct (bool_decide (h = k_hash k key0)); [|done]. destruct (k_eq k (el_key el) key0) eqn:Ek; [|done]. simpl in Er. destruct (el_expired k (me s1) el) eqn:Eexp; [done|]. simpl in Er.
      exists (el_key el). pose proof (no_pending k Hra s1 x _ HJ1 (tv_some s1 x el Hxt Ex)) as Hnp. destruct (i_mode _ _ _ I1 _ _ Ex) as [_ Hw].
      unfold kv. rewrite Ex. simpl. unfold el_pending in Hnp. simpl in Hnp. destruct (el_map el) as [p|u|o|y| |] eqn:Em; simpl in *; try done; [by exists u|by destruct (Hw Hp o)|..].
      unfold el_expired, neg_is_base in Eexp. rewrite Em in Eexp. simpl in Eexp. done.
  Qed.
  Lemma hit_same g s key v e x key0 kx w : inv g s -> a_torn (cs s) = None -> g_xs g = [] -> J k s -> uq k none s -> (exists el, firm s key v e el) -> k_eq k key0 key = true ->
    x ∈ Q s -> kv s x = Some (kx, MVal w) -> k_eq k kx key0 = true -> x = e.
  Proof using Hq Hr Hs.
    intros Hi Ht Hx HJ Hu HF Hk0 Hxq Kx Ekx. pose proof (firm_in g s key v e Hi Ht HF) as He. destruct (firm_kv s key v e HF) as (ke & Ke & Eke).
    destruct Hq as (_ & Hsym & Htr & _). eapply (same_value g s); try done. eapply Htr; [exact Ekx|]. eapply Htr; [exact Hk0|by apply Hsym].
  Qed.
  Lemma hit_near g s ks key v e x r key0 incl : inv g s -> a_torn (cs s) = None -> g_xs g = [] -> J k s -> uq k none s -> recent ks s key v e ->
    inset ks key key0 -> (f_find k s key0 incl).2 = Some (x, r) -> (exists el, firm (f_find k s key0 incl).1 key v e el) -> near ks (f_hit k (f_find k s key0 incl).1 x) e.
  Proof using Hp Hq Hr Hrf Hs.
    intros Hi Ht Hx HJ Hu [HF Hn] Hin Ef HF1. destruct (hit_found g s x r key0 incl Hi Ht Hx HJ Hu Ef) as (I1 & T1 & HJ1 & Hu1 & Q1 & EQ & EK & Hxq & kx & w & Kx & Ekx).
    set (s1 := (f_find k s key0 incl).1) in *. pose proof (firm_in g s1 key v e I1 T1 HF1) as He1.
    intros y. rewrite EQ. intros Hy. apply fr_hit in Hy as [[-> Hne]|Hy]; [| |by eapply q_nodup|done].
    - exists kx, w. rewrite EK. destruct Hin as [Hk0|(z & Hz & Ez)].
      + exfalso. apply Hne. by eapply (hit_same g s1).
      + exists z. split_and!; try done. destruct Hq as (_ & _ & Htr & _). by eapply Htr.
    - rewrite EK. assert (near ks s1 e) as Hn1 by (eapply (near_qt ks s s1 e); [by eapply q_nodup|exact Q1|done|done]). by apply Hn1.
  Qed.
  Lemma link_near g s ks e y h key0 w z : inv g s -> a_torn (cs s) = None -> g_xs g = [] -> np s -> y ∉ Q s -> y ∉ tab s -> e ∈ Q s -> e ∈ Q (f_link k s h y) ->
    near ks s e -> kv s y = Some (key0, MVal w) -> z ∈ ks -> k_eq k key0 z = true -> near ks (f_link k s h y) e.
  Proof using Hs Hp Hrf.
    intros Hi Ht Hx Hnp Hy Hyt He He' Hn Ky Hz Ez. destruct (link_qt k n Hs Hp Hrf g s h y Hi Ht Hnp Hy Hyt Hx) as (l1 & l2 & S1 & EQ & EK).
    assert (y <> e) as Hne by congruence. intros x Hxf. rewrite EK by (by eapply fr_sub). rewrite EQ in Hxf, He'.
    destruct (fr_insert e y l1 l2 x Hne Hxf) as [-> |Hxf2]; [by exists key0, w, z|]. apply Hn. eapply fr_sublist; [exact S1| |by eapply q_nodup|exact Hxf2].
    rewrite elem_of_app, elem_of_cons in He'. rewrite elem_of_app. naive_solver.
  Qed.
  Lemma alloc_near g s ks e key0 w : inv g s -> near ks s e -> near ks (f_alloc s key0 (MVal w)) e.
  Proof using Hs.
    intros Hi Hn x Hx. change (Q (f_alloc s key0 (MVal w))) with (Q s) in Hx. assert (x <> m_nxt (me s)) as Hne.
    { intros ->. apply fr_sub in Hx. pose proof (i_q _ _ _ Hi) as HQ. rewrite (queued k n Hs) in HQ. rewrite HQ in Hx. revert Hx. by apply (nxt_not_LT k g s). }
    unfold kv. simpl. rewrite lookup_insert_ne by done. by apply Hn.
  Qed.
  Lemma alloc_kv s key0 w : kv (f_alloc s key0 (MVal w)) (m_nxt (me s)) = Some (key0, MVal w).
  Proof using. unfold kv. by rewrite f_alloc_self. Qed.
  Lemma alloc_np g s key0 w : inv g s -> a_torn (cs s) = None -> np s -> np (f_alloc s key0 (MVal w)).
  Proof using.
    intros Hi Ht Hn x Hx. change (tab (f_alloc s key0 (MVal w))) with (tab s) in Hx. rewrite <-(Hn x Hx). unfold pends. simpl. rewrite lookup_insert_ne; [done|].
    intros <-. eapply (nxt_not_LT k g s Hi). by apply tab_LT.
  Qed.
  Lemma inc_kv s y x : kv (p_inc s y) x = kv s x.
  Proof using. unfold kv, p_inc. rewrite p_upd_lookup. destruct (decide (x = y)) as [->|]; [|done]. by destruct (m_els (me s) !! y). Qed.
  Lemma dec_near s ks e y : near ks s e -> (forall x, x ∈ Q (f_dec s y) -> is_Some (m_els (me (f_dec s y)) !! x)) -> near ks (f_dec s y) e.
  Proof using.
    intros Hn Hd x Hx. specialize (Hd x ltac:(by eapply fr_sub)). revert Hx. destruct (f_dec_cs s y) as (_ & _ & -> & _). intros Hx.
    destruct (Hn x Hx) as (kx & w & z & E & H). exists kx, w, z. split; [|done].
    rewrite <-E. unfold kv. destruct (decide (x = y)) as [->|Hne]; [|by rewrite f_dec_els].
    revert Hd. unfold f_dec. destruct (m_els (me s) !! y) as [el|] eqn:Ey; [|by rewrite Ey]. 
    destruct (el_rc el) as [|[|m]]; simpl; rewrite ?lookup_insert, ?lookup_delete; try done; by intros [? ?].
  Qed.
  Lemma q_els g s x : inv g s -> a_torn (cs s) = None -> g_xs g = [] -> x ∈ Q s -> is_Some (m_els (me s) !! x).
  Proof using Hs.
    intros Hi Ht Hx Hin. pose proof (i_q _ _ _ Hi) as HQ. rewrite (queued k n Hs) in HQ. rewrite HQ in Hin. by apply (i_tab _ _ _ Hi).
  Qed.
  Lemma get_near g s ks key v e key0 incl : inv g s -> a_torn (cs s) = None -> g_xs g = [] -> J k s -> uq k none s -> recent ks s key v e -> inset ks key key0 -> recent ks (f_get k s key0 incl).1 key v e.
  Proof using Hm Hp Hq Hr Hrf Hs.
    intros Hi Ht Hx HJ Hu HF Hin. destruct (find_ends k g s key0 incl Hi Ht) as (_ & I1 & _ & T1).
    assert (exists el, firm (f_find k s key0 incl).1 key v e el) as HF1.
    { eapply (path_stay (fun κ => κ = KFree)); [by intros κ ->|by eapply find_path|done|apply HF]. }
    split.
    - eapply (path_stay (fun κ => κ = KFree \/ κ = KHit key0)); [by intros κ [-> | ->]| |done|apply HF]. eapply get_path; try done; tauto.
    - pose proof (hit_near g s ks key v e) as Hh. unfold f_get. destruct (f_find k s key0 incl) as [s1 [[x r]|]] eqn:Ef.
      + simpl in *. specialize (Hh x r key0 incl Hi Ht Hx HJ Hu HF Hin). rewrite Ef in Hh. by apply Hh.
      + simpl in *. eapply (near_qt ks s s1 e); [by eapply q_nodup| |by eapply firm_in|apply HF]. 
        pose proof (find_qt k n Hs g s key0 incl Hi Ht (J_np s HJ)) as Q1. by rewrite Ef in Q1.
  Qed.
  Lemma step_near o (s s' : sta) r ks key v e : top s -> uq k none s -> m_up (me s) = true -> fine_op false o = true -> o <> ODestroy -> step k false o s = Ok (s', r) ->
    spoils k key o = false -> (forall key0, raises o = Some key0 -> inset ks key key0) -> length ks < n -> recent ks s key v e -> recent ks s' key v e.
  Proof using Hk Hq Hr Hm Hrf Hp Hs.
    intros T Hu Hup Hf Hn E Hsp Hri Hlen [HF Hnear]. destruct (top_facts k s T Hup) as (Hi & Ht & HJ).
    assert (inv g0 s' /\ a_torn (cs s') = None) as [Hi' Ht'].
    { destruct (top_step k Hk o s T Hf) as (s1 & r1 & E1 & T1 & _ & _ & Hu1 & _). rewrite E in E1. injection E1 as <- <-. destruct (top_facts k s' T1) as (? & ? & _); [by apply Hu1|done]. }
    assert (nlog s' key <= nlog s key -> exists el, firm s' key v e el) as Hfirm.
    { intros Hle. apply (path_stay (fun κ => upto (okind k o) (m_ncb (me s)) κ /\ sparing k key κ) s s'); [|apply path_unevicted; [by eapply up_path|by right]|done|done].
      intros κ [HA He]. by eapply (okind_spares k Hq Hrf). }
    destruct (puts o) eqn:Hins.
    2: { assert (exists el, firm s' key v e el) as HF'.
      { apply Hfirm. rewrite !nevict_evicted. apply Nat.eq_le_incl. do 2 f_equal. eapply path_logged; [|by eapply up_path]. intros κ [Hκ|(i & -> & _)] He; [|done].
        by rewrite (okind_puts k Hra Hr Hrf o κ Hκ He) in Hins. }
      split; [done|]. pose proof (firm_in g0 s' key v e Hi' Ht' HF') as HeQ. pose proof (q_nodup k g0 s Hi) as Hnd.
      assert (m_cbs (me s) = ∅) as Hcb. { by destruct (j_sync _ _ HJ) as [?|[? _]]; [rewrite Hr in *|]. }
      assert (forall w, give k s w = s) as Hgive by (intros; by rewrite (map_give k Hp)).
      destruct o; try done.
      - rewrite step_eq in E. unfold step_with in E. rewrite Hup in E. simpl in E. destruct (get_if_exists k s key0) as [r0| | |]; try done. simpl in E.
        assert (s' = s) as -> by (destruct r0; unfold ret_value in E; rewrite ?Hgive in E; congruence). done.
      - rewrite (step_count k s T Hup) in E. by injection E as <- <-.
      - rewrite step_eq in E. unfold step_with in E. rewrite Hup in E. simpl in E. rewrite Hr in E. unfold get in E. rewrite Hr in E.
        destruct (get_ends k g0 s key0 false Hi Ht) as (Eg & _). rewrite Eg in E. destruct (get_near g0 s ks key v e key0 false) as [_ Hg]; try done; [by apply Hri|].
        destruct (f_get k s key0 false) as [s1 [[x [|w|y|]]|]]; simpl in *; unfold ret_value in E; rewrite ?(map_give k Hp) in E; injection E as <- <-; done.
      - rewrite step_eq in E. unfold step_with in E. rewrite Hup in E. simpl in E. rewrite Hr in E. by injection E as <- <-.
      - rewrite (step_emplace_throw k s key0 T Hup) in E. injection E as <- <-. eapply (near_qt ks s); try done. eapply expire_qt; try done. by apply J_np.
      - rewrite (step_erase k s key0 T Hup) in E. injection E as <- <-. eapply (near_qt ks s); try done. eapply expire_qt; try done. by apply J_np.
      - rewrite step_eq in E. unfold step_with in E. rewrite Hup in E. simpl in E. rewrite (proj1 (proj1 (reserve_ends k g0 s n0 Hi Ht))) in E. simpl in E. injection E as <- <-.
        eapply (near_qt ks s); try done. eapply reserve_qt; try done. by apply J_np.
      - rewrite step_eq in E. unfold step_with in E. rewrite Hup in E. simpl in E. unfold cb_assign in E. rewrite Hcb, lookup_empty in E. by injection E as <- <-.
      - rewrite step_eq in E. unfold step_with in E. rewrite Hup in E. simpl in E. unfold cb_fail in E. rewrite Hcb, lookup_empty in E. by injection E as <- <-.
      - rewrite step_eq in E. unfold step_with in E. rewrite Hup in E. simpl in E. rewrite Hcb, lookup_empty in E. by injection E as <- <-.
      - rewrite step_eq in E. unfold step_with in E. rewrite Hup in E. simpl in E. rewrite Hcb, lookup_empty in E. by injection E as <- <-.
      - rewrite step_eq in E. unfold step_with in E. rewrite Hup in E. simpl in E. by injection E as <- <-.
      - rewrite step_eq in E. unfold step_with in E. rewrite Hup in E. simpl in E. by injection E as <- <-.
      - rewrite step_eq in E. unfold step_with in E. rewrite Hup in E. simpl in E. rewrite Hrf in E. by injection E as <- <-. }
    destruct o; try done.
    - rewrite (step_emplace k s key0 v0 T Hup (map_holds k Hp s v0)) in E. injection E as <- <-. simpl in Hsp.
      destruct (Hri key0 eq_refl) as [?|(z & Hz & Ez)]; [congruence|].
      destruct (expire_ends k g0 s key0 Hi Ht) as ((_ & I1 & _) & T1). destruct (insert_ends k g0 (f_expire k s key0) key0 v0 I1 T1) as [I3 T3].
      destruct (insert_enter k g0 (f_expire k s key0) key0 v0 HClean I1 T1 eq_refl) as (s2 & P2 & M); [by eapply expire_nohope|].
      assert (path k (fun κ => κ = KFree \/ κ = KErase key0) s (f_expire k s key0)) as P1 by (eapply expire_path; try done; tauto).
      set (s1 := f_expire k s key0) in *. unfold f_emplace in *. fold s1 in Hi', Ht', Hfirm |- *.
      assert (path k (fun κ => κ = KFree \/ κ = KErase key0 \/ κ = KEnter key0 HClean (Some v0)) s (f_insert k s1 key0 v0)) as P3.
      { eapply path_trans; [eapply path_weaken; [|exact P1]; intros κ [-> | ->]; tauto|]. eapply path_trans; [eapply path_weaken; [|exact P2]; intros κ ->; tauto|]. eapply path_one; [|exact M]. tauto. }
      assert (exists el, firm s1 key v e el) as HF1 by (eapply path_stay; [|exact P1|done|done]; intros κ [-> | ->]; [done|by apply other_of]).
      assert (exists el, firm (f_insert k s1 key0 v0) key v e el) as HF3 by (eapply path_stay; [|exact P3|done|done]; intros κ [-> |[-> | ->]]; [done|by apply other_of|done]).
      assert (J k s1) as HJ1 by (by eapply path_J). assert (J k (f_insert k s1 key0 v0)) as HJ3 by (by eapply path_J).
      assert (uq k none (f_insert k s1 key0 v0)) as Hu3 by (eapply (path_uq k none _ s _ Hq); [|exact P3|done]; by intros κ [-> |[-> | ->]]).
      assert (near ks s1 e) as N1. { eapply (near_qt ks s); [by eapply q_nodup| |by eapply firm_in|done]. eapply expire_qt; try done. by apply J_np. }
      destruct (alloc_pin k g0 s1 key0 (MVal v0)) as (_ & I2 & _); [done|done|apply mode_val|].
      assert (m_nxt (me s1) ∉ Q s1) as Hnq. { pose proof (i_q _ _ _ I1) as HQ. rewrite (queued k n Hs) in HQ. rewrite HQ. by apply (nxt_not_LT k g0 s1). }
      assert (near ks (f_insert k s1 key0 v0) e) as N3.
      { unfold f_insert. eapply (link_near _ (f_alloc s1 key0 (MVal v0)) ks e (m_nxt (me s1)) (k_hash k key0) key0 v0 z I2); try done.
        - eapply alloc_np; try done. by apply J_np.
        - intros Hin. eapply (nxt_not_LT k g0 s1 I1). by apply tab_LT.
        - change (e ∈ Q s1). by eapply firm_in.
        - change (e ∈ Q (f_insert k s1 key0 v0)). by eapply firm_in.
        - by eapply alloc_near.
        - apply alloc_kv. }
      destruct (maint_near g0 ks (f_insert k s1 key0 v0) key v e) as [El N4]; try done. split; [|done]. apply Hfirm. rewrite El, !nevict_evicted. apply Nat.eq_le_incl. do 2 f_equal.
      eapply path_logged; [|exact P3]. intros κ [-> |[-> | ->]]; simpl; tauto.
    - rewrite (step_goe k s key0 v0 T Hup (map_holds k Hp s v0)) in E.
      assert (s' = (f_goe k s key0 v0).1) as ->. { destruct (f_goe k s key0 v0).2; unfold ret_value in E; rewrite ?(map_give k Hp) in E; congruence. }
      clear E. specialize (Hri key0 eq_refl). destruct (f_find k s key0 true).2 as [[x r0]|] eqn:Ef.
      + destruct (get_ends k g0 s key0 true Hi Ht) as (_ & I1 & X1 & T1 & _). destruct (get_near g0 s ks key v e key0 true) as [HF1 N1]; try done.
        assert (path k (fun κ => κ = KFree \/ κ = KHit key0) s (f_get k s key0 true).1) as P1 by (apply (get_path k _ g0); try done; tauto).
        assert ((f_goe k s key0 v0).1 = f_maint k (f_get k s key0 true).1) as Eg. { unfold f_goe, f_get. destruct (f_find k s key0 true) as [s0 [[e' r']|]]; done. }
        rewrite Eg in *. set (s1 := (f_get k s key0 true).1) in *.
        assert (J k s1) as HJ1 by (by eapply path_J). 
        assert (uq k none s1) as Hu1 by (eapply (path_uq k none _ s _ Hq); [|exact P1|done]; by intros κ [-> | ->]).
        destruct (maint_near g0 ks s1 key v e) as [El N4]; try done. split; [|done]. apply Hfirm. rewrite El, !nevict_evicted. apply Nat.eq_le_incl. do 2 f_equal.
        eapply path_logged; [|exact P1]. intros κ [-> | ->]; simpl; tauto.
      + destruct (goe_enter k g0 s key0 v0 Hi Ht eq_refl HJ Ef) as (s2 & s3 & P2 & _ & M & P4 & g' & y & I3 & T3 & Eg & Hx' & Ey & Es3).
        destruct (find_ends k g0 s key0 true Hi Ht) as (_ & I1 & _ & T1).
        assert (path k (fun κ => κ = KFree) s (f_find k s key0 true).1) as P1 by (by eapply find_path).
        pose proof (find_nohope k g0 s key0 true Hi Ht HJ Ef (or_introl eq_refl)) as Hno.
        pose proof (find_qt k n Hs g0 s key0 true Hi Ht (J_np s HJ)) as Q1. set (s1 := (f_find k s key0 true).1) in *.
        assert (exists el, firm s1 key v e el) as HF1 by (eapply path_stay; [|exact P1|done|done]; by intros κ ->).
        destruct Hri as [Hsame|(z & Hz & Ez)].
        { exfalso. destruct HF1 as (el & Tx & Em & Ek & _). assert (hopeful (el_map el) = false) as Hh; [|by rewrite Em in Hh].
          eapply Hno; [exact Tx|]. destruct Hq as (_ & Hsym & Htr & Hh). assert (k_eq k (el_key el) key0 = true) as E0 by (eapply Htr; [exact Ek|by apply Hsym]). split; [by apply Hh|done]. }
        assert (J k s1) as HJ1 by (by eapply path_J).
        assert (path k (fun κ => κ = KFree \/ κ = KEnter key0 HClean (Some v0)) s s3) as P3.
        { eapply path_trans; [eapply path_weaken; [|exact P2]; intros κ ->; tauto|]. eapply path_one; [|exact M]. tauto. }
        assert (exists el, firm s3 key v e el) as HF3 by (eapply path_stay; [|exact P3|done|done]; by intros κ [-> | ->]).
        assert (J k s3) as HJ3 by (by eapply path_J).
        assert (uq k none s3) as Hu3 by (eapply (path_uq k none _ s _ Hq); [|exact P3|done]; by intros κ [-> | ->]).
        assert (near ks s1 e) as N1. { eapply (near_qt ks s); [by eapply q_nodup|done|by eapply firm_in|done]. }
        destruct (alloc_pin k g0 s1 key0 (MVal v0)) as (_ & I2 & _); [done|done|apply mode_val|]. rewrite <-Ey in I2.
        destruct (inc_ends k (pin y g0) (f_alloc s1 key0 (MVal v0)) y I2) as (_ & I2' & _); [subst y; rewrite f_alloc_self; eauto|].
        assert (y ∉ Q s1) as Hnq. { pose proof (i_q _ _ _ I1) as HQ. rewrite (queued k n Hs) in HQ. rewrite HQ, Ey. by apply (nxt_not_LT k g0 s1). }
        assert (cs (p_inc (f_alloc s1 key0 (MVal v0)) y) = cs (f_alloc s1 key0 (MVal v0))) as Ec by apply p_upd_cs.
        assert (near ks s3 e) as N3.
        { rewrite Es3. eapply (link_near _ (p_inc (f_alloc s1 key0 (MVal v0)) y) ks e y (k_hash k key0) key0 v0 z I2'); try done.
          - by rewrite Ec.
          - intros x Hx. unfold tab in Hx. rewrite Ec in Hx. rewrite <-(alloc_np g0 s1 key0 v0 I1 T1 (J_np s1 HJ1) x Hx). apply kv_pends, inc_kv.
          - by rewrite Ec.
          - unfold tab. rewrite Ec. intros Hin. eapply (nxt_not_LT k g0 s1 I1). rewrite <-Ey. by apply tab_LT.
          - rewrite Ec. change (e ∈ Q s1). by eapply firm_in.
          - rewrite <-Es3. by eapply firm_in.
          - intros x. rewrite Ec, inc_kv. by eapply alloc_near.
          - rewrite inc_kv, Ey. apply alloc_kv. }
        destruct (maint_near g' ks s3 key v e) as [El N4]; try done. split.
        * apply Hfirm. rewrite Eg. assert (m_log (me (f_dec (f_maint k s3) y)) = m_log (me (f_maint k s3))) as ->.
          { unfold f_dec. destruct (m_els (me (f_maint k s3)) !! y) as [el|]; [|done]. by destruct (el_rc el) as [|[|?]]. }
          rewrite El, !nevict_evicted. apply Nat.eq_le_incl. do 2 f_equal. eapply path_logged; [|exact P3]. intros κ [-> | ->]; simpl; tauto.
        * rewrite Eg. apply dec_near; [done|]. rewrite <-Eg. intros x. by eapply q_els.
  Qed.

  (** an operation that finds the value puts its entry in front *)
  Lemma look_steady (s : sta) key v : J k s -> looki k s key false = RV v -> exists e, exists el, firm s key v e el.
  Proof using Hq Hr Hm Hrf Hp.
    intros HJ Hl. destruct (look_firm k s key v false Hta Hq HJ Hl) as (x & el & HF & _); [by rewrite Hr|]. exists x, el.
    destruct HF as (Tx & Em & Ek & l1 & l2 & El & Hd). split_and!; try done. exists l1, l2. split; [done|]. intros y ey Hy Ty Eky.
    destruct (Hd y ey Hy Ty Eky) as [?|[_ Hlate]]; [by left|].
    left. destruct (hopeful (el_map ey)) eqn:Hh; [|done]. destruct Hlate as [Hpe Hlate].
    destruct (j_val _ _ HJ y ey Hm Ty) as [E1 E2]; [unfold el_pending in Hpe; by destruct (el_map ey)|]. destruct (j_cn _ _ HJ y ey Hrf Ty) as [E3 _].
    unfold late in Hlate. by rewrite E1, E2, E3 in Hlate.
  Qed.
  Lemma get_first g s key v e key0 incl : inv g s -> a_torn (cs s) = None -> g_xs g = [] -> J k s -> uq k none s -> (exists el, firm s key v e el) -> k_eq k key0 key = true ->
    recent [] (f_get k s key0 incl).1 key v e /\ is_Some (f_find k s key0 incl).2.
  Proof using Hm Hp Hq Hr Hrf Hs.
    intros Hi Ht Hx HJ Hu HF Hk0. 
    assert (exists el, firm (f_find k s key0 incl).1 key v e el) as HF1.
    { eapply (path_stay (fun κ => κ = KFree)); [by intros κ ->|by eapply find_path|done|apply HF]. }
    destruct (f_find k s key0 incl).2 as [[x r]|] eqn:Ef.
    2: { exfalso. pose proof (find_nohope k g s key0 incl Hi Ht HJ Ef (or_intror Hra)) as Hno. destruct HF1 as (el & Tx & Em & Ek & _).
      assert (hopeful (el_map el) = false) as Hh; [|by rewrite Em in Hh]. destruct Hq as (_ & Hsym & Htr & Hh).
      assert (k_eq k (el_key el) key0 = true) as E0 by (eapply Htr; [exact Ek|by apply Hsym]). eapply Hno; [exact Tx|]. split; [by apply Hh|done]. }
    split; [|eauto]. split.
    - eapply (path_stay (fun κ => κ = KFree \/ κ = KHit key0)); [by intros κ [-> | ->]| |done|apply HF]. eapply get_path; try done; tauto.
    - destruct (hit_found g s x r key0 incl Hi Ht Hx HJ Hu Ef) as (I1 & T1 & HJ1 & Hu1 & Q1 & EQ & EK & Hxq & kx & w & Kx & Ekx).
      assert (x = e) as -> by (by eapply (hit_same g (f_find k s key0 incl).1)).
      unfold f_get. destruct (f_find k s key0 incl) as [s1 [[x' r']|]]; [|done]. simpl in *. injection Ef as -> ->.
      intros y. rewrite EQ. simpl. rewrite decide_True by done. intros Hy. by apply elem_of_nil in Hy.
  Qed.
  (** an operation that finds the value puts its entry in front *)
  Lemma used_first o (s s' : sta) r key v : top s -> uq k none s -> m_up (me s) = true -> fine_op false o = true -> step k false o s = Ok (s', r) ->
    uses k key o = true -> 0 < n -> looki k s key false = RV v -> exists e, recent [] s' key v e.
  Proof using Hk Hq Hr Hm Hrf Hp Hs.
    intros T Hu Hup Hf E Huse Hn0 Hl. destruct (top_facts k s T Hup) as (Hi & Ht & HJ). destruct (look_steady s key v HJ Hl) as (e & HF). exists e.
    destruct o; simpl in Huse; rewrite ?Hr in Huse; try done.
    - destruct (get_first g0 s key v e key0 false) as [HR _]; try done.
      rewrite step_eq in E. unfold step_with in E. rewrite Hup in E. simpl in E. rewrite Hr in E. unfold get in E. rewrite Hr in E.
      destruct (get_ends k g0 s key0 false Hi Ht) as (Eg & _). rewrite Eg in E. 
      destruct (f_get k s key0 false) as [s1 [[x [|w|y|]]|]]; simpl in *; unfold ret_value in E; rewrite ?(map_give k Hp) in E; injection E as <- <-; done.
    - destruct (get_first g0 s key v e key0 true) as [[HF1 N1] [[x r0] Ef]]; try done.
      assert (path k (upto (okind k (OGetOrEmplace key0 v0)) (m_ncb (me s))) s s') as P by (by eapply up_path).
      rewrite (step_goe k s key0 v0 T Hup (map_holds k Hp s v0)) in E.
      assert (s' = (f_goe k s key0 v0).1) as ->. { destruct (f_goe k s key0 v0).2; unfold ret_value in E; rewrite ?(map_give k Hp) in E; congruence. }
      clear E. destruct (get_ends k g0 s key0 true Hi Ht) as (_ & I1 & X1 & T1 & _). 
      assert (path k (fun κ => κ = KFree \/ κ = KHit key0) s (f_get k s key0 true).1) as P1 by (apply (get_path k _ g0); try done; tauto).
      assert ((f_goe k s key0 v0).1 = f_maint k (f_get k s key0 true).1) as Eg. { unfold f_goe, f_get. destruct (f_find k s key0 true) as [s0 [[e' r']|]]; done. }
      rewrite Eg in *. set (s1 := (f_get k s key0 true).1) in *. assert (J k s1) as HJ1 by (by eapply path_J). 
      assert (uq k none s1) as Hu1 by (eapply (path_uq k none _ s _ Hq); [|exact P1|done]; by intros κ [-> | ->]).
      destruct (maint_near g0 [] s1 key v e) as [El N4]; try done. split; [|done].
      apply (path_stay (fun κ => upto (okind k (OGetOrEmplace key0 v0)) (m_ncb (me s)) κ /\ sparing k key κ) s); [|apply path_unevicted; [done|right]|done|done].
      + intros κ [HA He]. by eapply (okind_spares k Hq Hrf).
      + rewrite El, !nevict_evicted. apply Nat.eq_le_incl. do 2 f_equal. eapply path_logged; [|exact P1]. intros κ [-> | ->]; simpl; tauto.
  Qed.
  Lemma near_weaken ks ks' (s : sta) key v e : (forall z, z ∈ ks -> z ∈ ks') -> recent ks s key v e -> recent ks' s key v e.
  Proof using. intros H [? Hn]. split; [done|]. intros x Hx. destruct (Hn x Hx) as (kx & w & z & ? & ? & ?). exists kx, w, z. auto. Qed.
  Lemma run_near ks key v e l : length ks < n -> forall s s' : sta, top s -> uq k none s -> m_up (me s) = true -> fine l -> ODestroy ∉ l -> run k l s = Ok s' -> existsb (spoils k key) l = false ->
    (forall o key0, o ∈ l -> raises o = Some key0 -> inset ks key key0) -> recent ks s key v e -> top s' /\ m_up (me s') = true /\ recent ks s' key v e.
  Proof using Hk Hq Hr Hm Hrf Hp Hs.
    intros Hlen. induction l as [|o l IH]; intros s s' T Hu Hup Hf Hd R Hsp Hri HR.
    { by injection R as <-. }
    rewrite run_cons in R. unfold fine in Hf. simpl in Hf, Hsp. apply andb_true_iff in Hf as [Hf1 Hf2]. apply orb_false_iff in Hsp as [Hsp1 Hsp2].
    assert (o <> ODestroy) as Hn by (intros ->; apply Hd; left).
    destruct (top_step k Hk o s T Hf1) as (s1 & r1 & E1 & T1 & _ & _ & Hu1 & _). destruct (Hu1 Hup Hn) as (U1 & P1 & _). rewrite E1 in R. cbn [rbind] in R.
    assert (run k [o] s = Ok s1) as R1 by (by rewrite run_cons, E1).
    apply (IH s1 s'); try done.
    - eapply (run_unique k Hk Hq [o] s s1); try done; [unfold fine; simpl; by rewrite Hf1|]. simpl. assert (plain_op k o = true) as ->; [|done]. destruct o; simpl; by rewrite Hr.
    - intros ?. apply Hd. by right.
    - intros o' key0 Ho'. apply Hri. by right.
    - eapply (step_near o s s1 r1); try done. intros key0. apply Hri. left.
  Qed.
  Lemma stays_recent l1 o l2 key ks v sc sc' : fine (l1 ++ o :: l2) -> after k l1 sc -> after k (l1 ++ o :: l2) sc' -> peek k sc key = Some v -> uses k key o = true ->
    ODestroy ∉ l2 -> existsb (spoils k key) l2 = false -> (forall o' key', o' ∈ l2 -> raises o' = Some key' -> inset ks key key') -> length ks < n -> peek k sc' key = Some v.
  Proof using Hk Hq Hr Hm Hrf Hp Hs.
    intros Hf Ha Ha' Hpk Huse Hd Hsp Hri Hlen. pose proof Hf as [Hf1 Hf2]%fine_app. unfold fine in Hf2. simpl in Hf2. apply andb_true_iff in Hf2 as [Hfo Hf2].
    destruct (after_abs k Hk l1 sc Hf1 Ha) as (sa & R & S & T & _). destruct (after_abs k Hk _ sc' Hf Ha') as (sa' & R' & S' & T' & _).
    assert (run k (o :: l2) sa = Ok sa') as R2. { rewrite run_app, R in R'. exact R'. }
    rewrite (peek_look k Hta _ _ key S T) in Hpk. destruct (m_up (me sc)) eqn:Hupc; [|done]. assert (m_up (me sa) = true) as Hup by (by rewrite (srel_me _ _ S)).
    assert (forallb (plain_op k) l1 = true) as Hpl. { apply forallb_forall. intros x _. destruct x; simpl; by rewrite Hr. }
    assert (uq k none sa) as Hu. { eapply (run_unique k Hk Hq l1 st_init sa); [apply top_init|exact Hf1|exact Hpl|exact R| |done]. intros _. apply uq_init. }
    assert (o <> ODestroy) as Hn by (by intros ->).
    destruct (top_step k Hk o sa T Hfo) as (s1 & r1 & E1 & T1 & _ & _ & Hu1 & _). destruct (Hu1 Hup Hn) as (U1 & P1 & Hc & _). rewrite run_cons, E1 in R2. cbn [rbind] in R2.
    destruct (top_facts k sa T Hup) as (Hi & Ht & HJ).
    destruct (used_first o sa s1 r1 key v T Hu Hup Hfo E1 Huse) as (e & HR); [lia| |].
    { by destruct (looki k sa key false); simpl in Hpk; simplify_eq. }
    assert (uq k none s1) as Hu2.
    { eapply (run_unique k Hk Hq [o] sa s1); try done; [unfold fine; simpl; by rewrite Hfo| |by rewrite run_cons, E1]. simpl. assert (plain_op k o = true) as ->; [|done]. destruct o; simpl; by rewrite Hr. }
    destruct (run_near ks key v e l2 Hlen s1 sa' T1 Hu2 U1) as (_ & U' & (el & HF) & _); try done; [eapply near_weaken; [|exact HR]; intros z Hz; by apply elem_of_nil in Hz|].
    rewrite (peek_look k Hta _ _ key S' T'), <-(srel_me _ _ S'), U'. destruct (top_facts k sa' T' U') as (Hi' & Ht' & HJ').
    erewrite firm_look; [done|exact HF|].
    destruct HF as (Tx & Em & _). destruct (j_val _ _ HJ' e el Hm Tx) as [E3 E4]; [by rewrite Em|]. destruct (j_cn _ _ HJ' e el Hrf Tx) as [E5 _].
    unfold late. by rewrite E3, E4, E5.
  Qed.
End recent.
Lemma lru_keeps k : fine_cfg k -> eq_ok k -> k_resolver k = RNone -> k_max_age k = None -> k_refresh k = None -> k_pointer k = false -> forall n, k_max_size k = Some n ->
  forall l1 o l2 key ks v s s', fine (l1 ++ o :: l2) -> after k l1 s -> after k (l1 ++ o :: l2) s' -> peek k s key = Some v -> uses k key o = true ->
  ODestroy ∉ l2 -> existsb (spoils k key) l2 = false ->
  (forall o' key', o' ∈ l2 -> raises o' = Some key' -> k_eq k key' key = true \/ exists x, x ∈ ks /\ k_eq k key' x = true) -> length ks < n -> peek k s' key = Some v.
Proof. intros. by eapply stays_recent. Qed.
