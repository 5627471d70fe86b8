(** The helper functions of the cache as sequences of elementary changes (Trace.v). *)
From Verif Require Import Base AQueue ATable BasicHashtable QueueProofs BasicHashtableProofs ContainersProofs Mapped Cache CacheAbs AbsInv AbsPrim AbsPrim2 AbsSweep AbsOps AbsComp Trace Histories.

Lemma filter_ext_in {A} (P Q : A -> Prop) `{forall x, Decision (P x), forall x, Decision (Q x)} (l : list A) :
  (forall x, x ∈ l -> P x <-> Q x) -> filter P l = filter Q l.
Proof.
  induction l as [|x l IH]; intros Hx; [done|]. rewrite !filter_cons.
  rewrite IH by (intros y Hy; apply Hx; by right). pose proof (Hx x ltac:(left)).
  destruct (decide (P x)), (decide (Q x)); tauto.
Qed.
Lemma filter_none {A} (P : A -> Prop) `{forall x, Decision (P x)} (l : list A) :
  (forall x, x ∈ l -> ~ P x) -> filter P l = [].
Proof.
  induction l as [|x l IH]; intros Hx; [done|]. rewrite filter_cons, decide_False by (apply Hx; left).
  apply IH. intros y Hy. apply Hx. by right.
Qed.
Lemma filter_comm {A} (P Q : A -> Prop) `{forall x, Decision (P x), forall x, Decision (Q x)} (l : list A) :
  filter P (filter Q l) = filter Q (filter P l).
Proof.
  induction l as [|x l IH]; [done|]. rewrite !filter_cons.
  destruct (decide (Q x)) eqn:E1, (decide (P x)) eqn:E2; rewrite ?filter_cons, ?E1, ?E2, ?IH; done.
Qed.
Lemma concat_unlink Bs e : concat (at_unlink Bs e) = rm e (concat Bs).
Proof. induction Bs as [|B Bs IH]; [done|]. simpl. by rewrite IH, rm_app. Qed.
Lemma sublist_rm e l : sublist (rm e l) l.
Proof.
  induction l as [|x l IH]; [constructor|]. unfold rm. rewrite filter_cons. destruct (decide (x <> e)); by constructor.
Qed.

(** ** Entries *)
Lemma tv_in s x el : tv s x = Some el -> x ∈ tab s.
Proof. unfold tv. by case_decide. Qed.
Lemma tv_none s x : x ∉ tab s -> tv s x = None.
Proof. intros H. unfold tv. by rewrite decide_False. Qed.
Lemma tv_some s x el : x ∈ tab s -> m_els (me s) !! x = Some el -> tv s x = Some (with_rc el 0).
Proof. intros H E. unfold tv. rewrite decide_True by done. by rewrite E. Qed.
Lemma tv_elim s x el : tv s x = Some el -> x ∈ tab s /\ exists el0, m_els (me s) !! x = Some el0 /\ el = with_rc el0 0.
Proof.
  unfold tv. case_decide; [|done]. intros E. split; [done|]. apply fmap_Some in E as (el0 & E & ->). eauto.
Qed.
Lemma tv_ext s s' x : (x ∈ tab s' <-> x ∈ tab s) ->
  (x ∈ tab s -> (fun el => with_rc el 0) <$> m_els (me s') !! x = (fun el => with_rc el 0) <$> m_els (me s) !! x) -> tv s' x = tv s x.
Proof. intros H1 H2. unfold tv. case_decide as D1; case_decide as D2; [by apply H2| | |done]; tauto. Qed.
Lemma hseq_ext (s s' : sta) h : tab s' = tab s -> (forall x, x ∈ tab s -> a_hash (cs s') !! x = a_hash (cs s) !! x) ->
  hseq s' h = hseq s h.
Proof. intros H1 H2. unfold hseq. rewrite H1. apply filter_ext_in. intros x Hx. by rewrite H2. Qed.
Lemma hseq_tab s h x : x ∈ hseq s h -> x ∈ tab s.
Proof. unfold hseq. rewrite elem_of_list_filter. tauto. Qed.

Section trace.
  Context (k : cfg).
  Notation inv := (inv k).
  Notation mini := (mini k).
  Notation path := (path k).
  Notation free := (fun κ => κ = KFree).

  (** everything but the containers, the elements and the log *)
  Record rest (s s' : sta) : Prop := {
    e_up : m_up (me s') = m_up (me s);
    e_log : exists l, m_log (me s') = l ++ m_log (me s);
    e_wall : m_wall (me s') = m_wall (me s);
    e_steady : m_steady (me s') = m_steady (me s);
    e_dropped : m_dropped (me s') ⊆ m_dropped (me s);
    e_cbs : m_cbs (me s') = m_cbs (me s);
    e_ncb : m_ncb (me s') = m_ncb (me s);
    e_evict : evicted (m_log (me s')) = evicted (m_log (me s))
  }.
  Lemma rest_refl s : rest s s.
  Proof. split; try done. by exists []. Qed.
  Lemma rest_trans s1 s2 s3 : rest s1 s2 -> rest s2 s3 -> rest s1 s3.
  Proof.
    intros [A1 [l1 A2] A3 A4 A5 A6 A7 A8] [B1 [l2 B2] B3 B4 B5 B6 B7 B8]. split; try congruence.
    - exists (l2 ++ l1). by rewrite B2, A2, app_assoc.
    - by etrans.
  Qed.
  Lemma rest_upd s e f : rest s (p_upd s e f).
  Proof. destruct (p_upd_me s e f) as (?&?&E&?&?&?&?&Ed). split; try done; [by exists []; rewrite E|by rewrite Ed|by rewrite E]. Qed.
  Lemma rest_cs s c : rest s (with_cs s c).
  Proof. split; try done. by exists []. Qed.
  Lemma rest_dec s o : rest s (f_dec s o).
  Proof. destruct (f_dec_me s o) as (?&?&E&?&?&?&?&Ed). split; try done; [by exists []; rewrite E|by rewrite Ed|by rewrite E]. Qed.
  Lemma cbs_ok_same κ (s s' : sta) : m_cbs (me s') = m_cbs (me s) -> m_ncb (me s') = m_ncb (me s) -> cbs_ok k κ s s'.
  Proof.
    intros E1 E2. unfold cbs_ok. rewrite E1, E2. split; [done|]. split.
    - intros i c H. right. exists c. split_and!; try done. by left.
    - intros i c H1 H2. congruence.
  Qed.
  Lemma keep_ok_same κ (s s' : sta) : m_cbs (me s') = m_cbs (me s) -> keep_ok κ s s'.
  Proof. intros E. unfold keep_ok. rewrite E. split; [|congruence]. intros i c c' H1 H2. left. congruence. Qed.
  Definition unlogged (κ : kind) : Prop := match κ with KEvict _ true => False | _ => True end.
  Lemma mini_of κ s s' : unlogged κ -> rest s s' -> body k s s' κ -> mini κ s s'.
  Proof.
    intros HN [A1 A2 A3 A4 A5 A6 A7 A8] B. split; try done; [by apply clk_eq|by apply cbs_ok_same| |by apply keep_ok_same]. rewrite A8. destruct κ; try done. simpl in HN. by destruct live.
  Qed.
  Lemma mini_free s s' : rest s s' -> (forall x, tv s' x = tv s x) -> (forall h, hseq s' h = hseq s h) ->
    a_dq (cs s') = a_dq (cs s) -> mini KFree s s'.
  Proof. intros R T H D. apply mini_of; [done|done|]. apply b_same; auto. done. Qed.
  Lemma path_free (A : kind -> Prop) s s' : A KFree -> rest s s' -> (forall x, tv s' x = tv s x) -> (forall h, hseq s' h = hseq s h) ->
    a_dq (cs s') = a_dq (cs s) -> path A s s'.
  Proof. intros HA R T H D. eapply path_one; [exact HA|]. by apply mini_free. Qed.

  (** *** changes of a single entry *)
  Lemma tab_upd s e f : tab (p_upd s e f) = tab s.
  Proof. unfold tab. by rewrite p_upd_cs. Qed.
  Lemma tv_upd s e f x : x <> e -> tv (p_upd s e f) x = tv s x.
  Proof.
    intros Hne. apply tv_ext; [by rewrite tab_upd|]. intros _. by rewrite p_upd_lookup, decide_False.
  Qed.
  Lemma tv_upd_self s e f el : tv s e = Some el -> (forall a b, eqrc a b -> eqrc (f a) (f b)) ->
    tv (p_upd s e f) e = Some (with_rc (f el) 0).
  Proof.
    intros H Hf. apply tv_elim in H as (Hi & el0 & E & ->).
    erewrite tv_some; [|by rewrite tab_upd|by rewrite p_upd_lookup, decide_True, E].
    f_equal. by apply Hf.
  Qed.
  Lemma hseq_upd s e f h : hseq (p_upd s e f) h = hseq s h.
  Proof. apply hseq_ext; [apply tab_upd|]. intros x _. by rewrite p_upd_cs. Qed.
  Lemma mini_upd κ s e f el o : unlogged κ -> tv s e = Some el -> (forall a b, eqrc a b -> eqrc (f a) (f b)) ->
    chg k s e el κ (Some o) -> with_rc (f el) 0 = o -> mini κ s (p_upd s e f).
  Proof.
    intros HN H Hf Hc Ho. apply mini_of; [done|apply rest_upd|]. eapply b_one; [exact H|exact Hc| | | |].
    - rewrite (tv_upd_self s e f el); [by rewrite Ho|done|done].
    - intros x Hx. by apply tv_upd.
    - intros h. simpl. by apply hseq_upd.
    - by rewrite p_upd_cs.
  Qed.
  Lemma mini_upd_rc s e f : (forall el, eqrc (f el) el) -> mini KFree s (p_upd s e f).
  Proof.
    intros Hf. apply mini_free; [apply rest_upd| |intros; apply hseq_upd|by rewrite p_upd_cs].
    intros x. apply tv_ext; [by rewrite tab_upd|]. intros _. rewrite p_upd_lookup. case_decide as D; [|done].
    subst. destruct (m_els (me s) !! e); simpl; [|done]. f_equal. apply Hf.
  Qed.
  (** of an element outside the table *)
  Lemma mini_upd_out s e f : e ∉ tab s -> mini KFree s (p_upd s e f).
  Proof.
    intros He. apply mini_free; [apply rest_upd| |intros; apply hseq_upd|by rewrite p_upd_cs].
    intros x. apply tv_ext; [by rewrite tab_upd|]. intros Hx. rewrite p_upd_lookup. by rewrite decide_False by congruence.
  Qed.
  Lemma path_inc (A : kind -> Prop) s e : A KFree -> path A s (p_inc s e).
  Proof. intros HA. eapply path_one; [exact HA|]. apply mini_upd_rc. done. Qed.

  (** *** reference counts *)
  Lemma f_dec_rc2 s e el : m_els (me s) !! e = Some el -> 2 <= el_rc el ->
    f_dec s e = p_upd s e (fun el => with_rc el (pred (el_rc el))).
  Proof. intros E H. unfold f_dec, p_upd. rewrite E. destruct (el_rc el) as [|[|n]] eqn:Er; try lia. done. Qed.
  Lemma f_dec_hash s e x : x <> e -> a_hash (cs (f_dec s e)) !! x = a_hash (cs s) !! x.
  Proof.
    intros H. unfold f_dec. destruct (m_els (me s) !! e); [|done]. destruct (el_rc e0) as [|[|n]]; simpl; [| |done];
    by rewrite lookup_delete_ne.
  Qed.
  Lemma dec_mini g s e : inv (pin e g) s -> a_torn (cs s) = None -> mini KFree s (f_dec s e).
  Proof.
    intros Hi Ht. destruct (decide (e ∈ tab s)) as [He|He].
    - destruct (i_tab _ _ _ Hi e) as [el Hel]; [by apply tab_LT|].
      rewrite (f_dec_rc2 s e el Hel).
      + by apply mini_upd_rc.
      + destruct (i_rc _ _ _ Hi e el Hel) as [Hrc _]. rewrite Hrc.
        assert (0 < cnt e (LT (pin e g) (cs s))) by (apply cnt_pos; by apply tab_LT).
        simpl. rewrite cnt_cons, decide_True by done. lia.
    - destruct (f_dec_cs s e) as (E1 & E2 & E3 & E4).
      apply mini_free; [apply rest_dec| | |by rewrite E4].
      + intros x. apply tv_ext; [unfold tab; by rewrite E1|]. intros Hx. by rewrite f_dec_els by (intros ->; done).
      + intros h. apply hseq_ext; [unfold tab; by rewrite E1|]. intros x Hx. by apply f_dec_hash; intros ->.
  Qed.
  Lemma dec_path (A : kind -> Prop) g s e : A KFree -> inv (pin e g) s -> a_torn (cs s) = None -> path A s (f_dec s e).
  Proof. intros HA Hi Ht. eapply path_one; [exact HA|by eapply dec_mini]. Qed.
  Definition evicts (v : ev) : bool := match v with EvEvict _ => true | _ => false end.
  Lemma log_mini s v : evicts v = false -> mini KFree s (s_log s v).
  Proof. intros Hv. apply mini_free; try done. split; try done; [by exists [v]|]. by destruct v. Qed.
  Lemma log_path (A : kind -> Prop) s v : evicts v = false -> A KFree -> path A s (s_log s v).
  Proof. intros Hv HA. eapply path_one; [exact HA|by apply log_mini]. Qed.
  Lemma give_mini s v : mini KFree s (give k s v).
  Proof.
    unfold give. destruct (k_pointer k); [|apply mini_free; try done; apply rest_refl].
    apply mini_free; try done. split; try done; [by exists []|]. simpl. set_solver.
  Qed.
  Lemma give_path (A : kind -> Prop) s v : A KFree -> path A s (give k s v).
  Proof. intros HA. eapply path_one; [exact HA|apply give_mini]. Qed.
  Lemma drops_path (A : kind -> Prop) ps : A KFree -> forall g s, inv (hold ps g) s -> a_torn (cs s) = None -> path A s (f_drops s ps).
  Proof.
    intros HA. induction ps as [|p ps IH]; intros g s Hi Ht; [apply path_refl|].
    destruct (drops_ends k [p] (hold ps g) s) as (E & I1 & X1).
    { destruct p; exact Hi. }
    simpl in I1. change (f_drops s (p :: ps)) with (f_drops (f_drop s p) ps).
    eapply path_trans; [|eapply IH; [exact I1|]].
    - destruct p as [w|n o]; simpl; [by apply log_path|]. eapply (dec_path A (hold ps g)); [done|exact Hi|done].
    - destruct p as [w|n o]; simpl; [done|]. by rewrite (proj1 (proj2 (f_dec_cs s o))).
  Qed.
  Lemma frees_path (A : kind -> Prop) ps : A KFree -> forall g s, inv (held ps g) s -> a_torn (cs s) = None -> path A s (f_frees s ps).
  Proof.
    intros HA. induction ps as [|p ps IH]; intros g s Hi Ht; [apply path_refl|].
    destruct (frees_ends k [p] (held ps g) s) as (E & I1 & X1).
    { destruct p; exact Hi. }
    simpl in I1. change (f_frees s (p :: ps)) with (f_frees (f_free s p) ps).
    eapply path_trans; [|eapply IH; [exact I1|]].
    - destruct p as [w|n o]; simpl; [apply path_refl|]. eapply (dec_path A (held ps g)); [done|exact Hi|done].
    - destruct p as [w|n o]; simpl; [done|]. by rewrite (proj1 (proj2 (f_dec_cs s o))).
  Qed.

  (** *** allocation *)
  Lemma alloc_mini g s key m : inv g s -> a_torn (cs s) = None -> mini KFree s (f_alloc s key m).
  Proof.
    intros Hi Ht. assert (forall x, x ∈ tab s -> x <> m_nxt (me s)) as Hn.
    { intros x Hx ->. apply (nxt_not_LT k g s Hi). by apply tab_LT. }
    apply mini_free; [| | |done].
    - split; try done. by exists [].
    - intros x. apply tv_ext; [done|]. intros Hx. simpl. by rewrite lookup_insert_ne by (apply not_eq_sym; auto).
    - intros h. apply hseq_ext; [done|]. intros x Hx. simpl. by rewrite lookup_insert_ne by (apply not_eq_sym; auto).
  Qed.

  (** *** removal *)
  Lemma rem_mini κ g s e el : inv g s -> a_torn (cs s) = None -> m_els (me s) !! e = Some el -> e ∈ tab s -> ~ is_pend el ->
    (chg k s e (with_rc el 0) κ None) -> mini κ s (f_rem k s e).
  Proof.
    intros Hi Ht Hel He Hp Hc. rewrite (f_rem_settled k s e el) by done.
    set (s1 := with_cs s (unq k (a_set_bs (cs s) (at_unlink (a_bs (cs s)) e)) e)).
    assert (tab s1 = rm e (tab s)) as Et by apply concat_unlink.
    destruct (f_dec_cs s1 e) as (E1 & E2 & E3 & E4).
    apply mini_of; [by inversion Hc|eapply rest_trans; [apply rest_cs|apply rest_dec]|].
    eapply b_one; [by apply tv_some|exact Hc| | | |].
    - apply tv_none. unfold tab. rewrite E1. fold (tab s1). rewrite Et. unfold rm. rewrite elem_of_list_filter. tauto.
    - intros x Hx. apply tv_ext.
      + unfold tab at 1. rewrite E1. fold (tab s1). rewrite Et. unfold rm. rewrite elem_of_list_filter. tauto.
      + intros _. by rewrite f_dec_els by done.
    - intros h. unfold hseq. unfold tab at 1. rewrite E1. fold (tab s1). rewrite Et. unfold rm.
      rewrite (filter_ext_in _ (fun x => a_hash (cs s) !! x = Some h)); [apply filter_comm|].
      intros x Hx. apply elem_of_list_filter in Hx as [Hx _]. by rewrite f_dec_hash by done.
    - by rewrite E4.
  Qed.
  Lemma gone_tv s e el : m_els (me s) !! e = Some el -> gone k s e = true ->
    el_expired k (me s) (with_rc el 0) = true /\ el_pending (with_rc el 0) = false /\ ~ is_pend el.
  Proof.
    unfold gone. intros ->. intros H. apply andb_true_iff in H as [H1 H2]. apply negb_true_iff in H2.
    split_and!; [done|done|]. unfold is_pend. change (el_pending el) with (el_pending (with_rc el 0)). intros H. 
    unfold el_pending in *. simpl in *. congruence.
  Qed.
  Lemma gone_mini g s e : inv g s -> a_torn (cs s) = None -> e ∈ tab s -> gone k s e = true -> mini KFree s (f_rem k s e).
  Proof.
    intros Hi Ht He Hg. destruct (i_tab _ _ _ Hi e) as [el Hel]; [by apply tab_LT|].
    destruct (gone_tv s e el Hel Hg) as (H1 & H2 & H3).
    eapply rem_mini; try done. by apply c_gone.
  Qed.

  (** *** sweeps *)
  Lemma fsw_path A g vs va :
    (forall s e el, inv g s -> a_torn (cs s) = None -> e ∈ tab s -> m_els (me s) !! e = Some el ->
      inv g (vs s e) /\ same_tab s (vs s e) /\ path A s (vs s e) /\
      (va s e = Drop -> exists el', m_els (me (vs s e)) !! e = Some el' /\ ~ is_pend el' /\ path A (vs s e) (f_rem k (vs s e) e))) ->
    forall M s, inv g s -> a_torn (cs s) = None -> NoDup M -> (forall e, e ∈ M -> e ∈ tab s) -> path A s (fsw k vs va M s).1.
  Proof.
    intros Hv. induction M as [|e M IH]; intros s Hi Ht Hnd HM; [apply path_refl|].
    apply NoDup_cons in Hnd as [HeM Hnd].
    assert (e ∈ tab s) as He by (apply HM; left). destruct (i_tab _ _ _ Hi e) as [el Hel]; [by apply tab_LT|].
    destruct (Hv s e el Hi Ht He Hel) as (I1 & [T1 T2] & P1 & D1). assert (a_torn (cs (vs s e)) = None) as Ht1 by congruence.
    simpl. destruct (va s e) eqn:Ea.
    - eapply path_trans; [exact P1|]. apply IH; try done. intros x Hx. unfold tab. rewrite T1. apply HM. by right.
    - destruct (D1 eq_refl) as (el' & Hel' & Hp & P2). assert (e ∈ tab (vs s e)) as He1 by (unfold tab; by rewrite T1).
      destruct (rem_ends k g (vs s e) e el' I1 Ht1 He1 Hel' Hp) as (_ & I2 & _).
      destruct (f_rem_tab k (vs s e) e) as [R1 R2].
      eapply path_trans; [exact P1|]. eapply path_trans; [exact P2|]. apply IH; try done; [congruence|].
      intros x Hx. unfold tab. rewrite R1, concat_unlink, T1. unfold rm. rewrite elem_of_list_filter.
      split; [intros ->; done|]. apply HM. by right.
    - exact P1.
  Qed.
  (** the elements visited and kept *)
  Lemma fsw_post g vs va :
    (forall s e el, inv g s -> a_torn (cs s) = None -> e ∈ tab s -> m_els (me s) !! e = Some el ->
      inv g (vs s e) /\ cs (vs s e) = cs s /\ rest s (vs s e) /\ (forall x, x <> e -> m_els (me (vs s e)) !! x = m_els (me s) !! x) /\
      (va s e = Drop -> exists el', m_els (me (vs s e)) !! e = Some el' /\ ~ is_pend el')) ->
    forall M s, inv g s -> a_torn (cs s) = None -> NoDup M -> (forall e, e ∈ M -> e ∈ tab s) ->
    rest s (fsw k vs va M s).1 /\
    (forall x, x ∉ M -> m_els (me (fsw k vs va M s).1) !! x = m_els (me s) !! x) /\
    (forall x, x ∈ tab (fsw k vs va M s).1 -> x ∈ tab s) /\
    (forall x, x ∈ tab (fsw k vs va M s).1 -> a_hash (cs (fsw k vs va M s).1) !! x = a_hash (cs s) !! x) /\
    ((fsw k vs va M s).2 = None -> forall e, e ∈ M -> e ∈ tab (fsw k vs va M s).1 ->
      exists s1, va s1 e = Keep /\ m_els (me s1) !! e = m_els (me s) !! e /\ a_hash (cs s1) !! e = a_hash (cs s) !! e /\
        rest s s1 /\ m_els (me (fsw k vs va M s).1) !! e = m_els (me (vs s1 e)) !! e).
  Proof.
    intros Hv. induction M as [|e M IH]; intros s Hi Ht Hnd HM.
    { simpl. split_and!; try done; [apply rest_refl|]. intros _ x Hx. by apply not_elem_of_nil in Hx. }
    apply NoDup_cons in Hnd as [HeM Hnd].
    assert (e ∈ tab s) as He by (apply HM; left). destruct (i_tab _ _ _ Hi e) as [el Hel]; [by apply tab_LT|].
    destruct (Hv s e el Hi Ht He Hel) as (I1 & T1 & R1 & O1 & D1). assert (a_torn (cs (vs s e)) = None) as Ht1 by congruence.
    assert (tab (vs s e) = tab s) as Tb by (unfold tab; by rewrite T1).
    simpl. destruct (va s e) eqn:Ea.
    - destruct (IH (vs s e)) as (A1 & A2 & A3 & A4 & A5); try done. { intros x Hx. rewrite Tb. apply HM. by right. }
      split_and!.
      + by eapply rest_trans.
      + intros x Hx. rewrite not_elem_of_cons in Hx. rewrite A2 by tauto. apply O1. tauto.
      + intros x Hx. rewrite <-Tb. by apply A3.
      + intros x Hx. rewrite A4 by done. by rewrite T1.
      + intros En x Hx Hxt. apply elem_of_cons in Hx as [->|Hx].
        * exists s. split_and!; try done; [apply rest_refl|]. by apply A2.
        * destruct (A5 En x Hx Hxt) as (s1 & B1 & B2 & B3 & B4 & B5). exists s1. assert (x <> e) by (intros ->; done).
          split_and!; try done; [by rewrite B2, O1|by rewrite B3, T1|by eapply rest_trans].
    - destruct (D1 eq_refl) as (el' & Hel' & Hp). assert (e ∈ tab (vs s e)) as He1 by (by rewrite Tb).
      destruct (rem_ends k g (vs s e) e el' I1 Ht1 He1 Hel' Hp) as (_ & I2 & _).
      destruct (f_rem_tab k (vs s e) e) as [Q1 Q2]. set (s2 := f_rem k (vs s e) e) in *.
      assert (tab s2 = rm e (tab s)) as Tb2. { unfold tab. rewrite Q1, concat_unlink. fold (tab (vs s e)). by rewrite Tb. }
      assert (rest s s2) as R2.
      { eapply rest_trans; [exact R1|]. unfold s2. rewrite (f_rem_settled k _ _ _ Hel' Hp). eapply rest_trans; [apply rest_cs|apply rest_dec]. }
      assert (forall x, x <> e -> m_els (me s2) !! x = m_els (me s) !! x) as O2.
      { intros x Hx. unfold s2. rewrite (f_rem_els k _ _ _ _ Hel' Hp) by done. by apply O1. }
      assert (forall x, x <> e -> a_hash (cs s2) !! x = a_hash (cs s) !! x) as Hh2.
      { intros x Hx. unfold s2. rewrite (f_rem_settled k _ _ _ Hel' Hp). rewrite f_dec_hash by done. simpl. by rewrite T1. }
      assert (a_torn (cs s2) = None) as Ht2 by congruence.
      destruct (IH s2) as (A1 & A2 & A3 & A4 & A5); try done.
      { intros x Hx. rewrite Tb2. unfold rm. apply elem_of_list_filter. split; [intros ->; done|]. apply HM. by right. }
      assert (forall x, x ∈ tab (fsw k vs va M s2).1 -> x <> e) as Hne.
      { intros x Hx ->. apply A3 in Hx. rewrite Tb2 in Hx. unfold rm in Hx. apply elem_of_list_filter in Hx as [? _]. done. }
      split_and!.
      + by eapply rest_trans.
      + intros x Hx. rewrite not_elem_of_cons in Hx. rewrite A2 by tauto. apply O2. tauto.
      + intros x Hx. apply A3 in Hx. rewrite Tb2 in Hx. unfold rm in Hx. apply elem_of_list_filter in Hx as [_ ?]. done.
      + intros x Hx. rewrite A4 by done. apply Hh2. by apply Hne.
      + intros En x Hx Hxt. apply elem_of_cons in Hx as [->|Hx]; [by apply Hne in Hxt|].
        destruct (A5 En x Hx Hxt) as (s1 & B1 & B2 & B3 & B4 & B5). exists s1. pose proof (Hne x Hxt).
        split_and!; try done; [by rewrite B2, O2|by rewrite B3, Hh2|by eapply rest_trans].
    - simpl. split_and!; try done.
      + intros x Hx. rewrite not_elem_of_cons in Hx. apply O1. tauto.
      + intros x Hx. by rewrite <-Tb.
      + intros x Hx. by rewrite T1.
  Qed.

  Lemma fsw_none vs va : (forall s e r, va s e <> Stop r) -> forall M s, (fsw k vs va M s).2 = None.
  Proof.
    intros H. induction M as [|e M IH]; intros s; [done|]. simpl. pose proof (H s e). destruct (va s e); try apply IH. by edestruct H0.
  Qed.

  (** entries are in the bucket of their hash *)
  Lemma in_bucket g s e el h : inv g s -> a_torn (cs s) = None -> e ∈ tab s -> m_els (me s) !! e = Some el -> k_hash k (el_key el) = h ->
    e ∈ bucket s h /\ a_hash (cs s) !! e = Some h.
  Proof.
    intros Hi Ht He Hel <-. split; [|eapply i_hash; [exact Hi|by apply tab_LT|done]].
    destruct (elem_concat_inv _ _ He) as (b & B & Hb & HB). unfold bucket, at_bucket.
    rewrite (i_place _ _ _ Hi b B e el Ht Hb HB Hel), Hb. done.
  Qed.

  (** *** unlink_expired_elements_ *)
  Lemma ue_path (A : kind -> Prop) g s : A KFree -> inv g s -> a_torn (cs s) = None -> path A s (f_ue k s).
  Proof.
    intros HA Hi Ht. unfold f_ue. eapply (fsw_path A g); try done; [|by eapply tab_nodup].
    intros s' e el Hi' Ht' He Hel. split_and!; [done|apply same_tab_refl|apply path_refl|].
    unfold va_ue. destruct (gone k s' e) eqn:Eg; [|done]. intros _. exists el. destruct (gone_tv s' e el Hel Eg) as (?&?&?).
    split_and!; [done|done|]. eapply path_one; [exact HA|]. by eapply gone_mini.
  Qed.

  (** *** get_ *)
  Lemma find_path (A : kind -> Prop) g s key incl : A KFree -> inv g s -> a_torn (cs s) = None -> path A s (f_find k s key incl).1.
  Proof.
    intros HA Hi Ht. unfold f_find. eapply (fsw_path A g); try done; [|by eapply bucket_nodup|intros e; apply bucket_in].
    intros s' e el Hi' Ht' He Hel. split_and!; [done|apply same_tab_refl|apply path_refl|].
    unfold va_get. destruct (gone k s' e) eqn:Eg; [|by destruct (ans _ _ _ _ _ _)]. intros _. exists el. destruct (gone_tv s' e el Hel Eg) as (?&?&?).
    split_and!; [done|done|]. eapply path_one; [exact HA|]. by eapply gone_mini.
  Qed.
  Lemma mini_q s q : mini KFree s (with_cs s (a_set_q (cs s) q)).
  Proof. apply mini_free; try done. apply rest_cs. Qed.
  Lemma strengthen_mini s e : has_queue k = true -> e ∈ tab s -> mini KFree s (f_strengthen k s e).
  Proof.
    intros Hq He. assert (k_max_size k <> None) as Hm.
    { unfold has_queue in Hq. apply bool_decide_eq_true in Hq. destruct (k_max_size k); [done|by destruct Hq]. }
    destruct (m_els (me s) !! e) as [el|] eqn:Hel; unfold f_strengthen.
    - eapply mini_upd; [done|by apply tv_some|by intros [] [] [=]; subst|by apply c_strengthen|done].
    - unfold p_upd. rewrite Hel. apply mini_free; try done. apply rest_refl.
  Qed.
  Lemma hitq_path (A : kind -> Prop) s e : A KFree -> e ∈ tab s -> path A s (f_hitq k s e).
  Proof.
    intros HA He. unfold f_hitq. destruct (has_queue k) eqn:Eq; [|apply path_refl].
    eapply path_trans; (eapply path_one; [exact HA|]); [apply mini_q|by apply strengthen_mini].
  Qed.
  Lemma hit_path (A : kind -> Prop) s e el key : A KFree -> A (KHit key) -> e ∈ tab s -> m_els (me s) !! e = Some el -> k_eq k (el_key el) key = true ->
    el_expired k (me s) el = false -> path A s (f_hit k s e).
  Proof.
    intros HA HB He Hel Hk Hx. unfold f_hit. eapply path_trans; [by apply hitq_path|].
    assert (tab (f_hitq k s e) = tab s) as Et by (unfold tab; by rewrite (proj1 (f_hitq_tab k s e))).
    assert (exists el', m_els (me (f_hitq k s e)) !! e = Some el' /\ el_key el' = el_key el /\ el_xw el' = el_xw el /\ el_xs el' = el_xs el /\ el_cn el' = el_cn el) as (el' & Hel' & Hk' & Hxw & Hxs & Hcn).
    { unfold f_hitq. destruct (has_queue k); [|eauto 6]. unfold f_strengthen. rewrite p_upd_lookup, decide_True by done. simpl. rewrite Hel. eexists. done. }
    assert (m_wall (me (f_hitq k s e)) = m_wall (me s) /\ m_steady (me (f_hitq k s e)) = m_steady (me s)) as [Ew Es].
    { unfold f_hitq. destruct (has_queue k); [|done]. unfold f_strengthen. destruct (p_upd_me (with_cs s (a_set_q (cs s) (aq_hit (a_q (cs s)) e))) e (fun el => with_map el (m_strengthen (k_pointer k) (alive (me (with_cs s (a_set_q (cs s) (aq_hit (a_q (cs s)) e))))) (el_map el)).1)) as (_ & _ & _ & _ & _ & H6 & H7 & _). done. }
    set (s1 := f_hitq k s e) in *. clearbody s1.
    destruct (k_refresh k) as [[d idle]|] eqn:Er; [|apply path_refl].
    destruct (negb _ && holds_value s1 e) eqn:Eb; [|apply path_refl].
    apply andb_true_iff in Eb as [E1 E2]. apply negb_true_iff, bool_decide_eq_false in E1.
    eapply path_one; [exact HB|]. eapply mini_upd; [done|apply tv_some; [by rewrite Et|done]|by intros [] [] [=]; subst| |].
    { unfold holds_value in E2. rewrite Hel' in E2. eapply c_hit; [by simpl; rewrite Hk'|done|done|exact E2|].
      unfold el_expired in *. simpl. rewrite Ew, Es, Hxw, Hxs, Hcn.
      apply orb_false_iff in Hx as [Hx H4]. apply orb_false_iff in Hx as [Hx H3]. apply orb_false_iff in Hx as [_ H2].
      rewrite H2, H3, H4. destruct (el_map el') as [|v|[v|]| | |]; try done; simpl in *. by rewrite E2. }
    done.
  Qed.
  Lemma find_some g s key incl e r : inv g s -> a_torn (cs s) = None -> (f_find k s key incl).2 = Some (e, r) ->
    let s' := (f_find k s key incl).1 in
    e ∈ tab s' /\ exists el, m_els (me s') !! e = Some el /\ same_key k el key /\ r = m_get (alive (me s')) incl (el_map el) /\ r <> R0 /\
      el_expired k (me s') el = false.
  Proof.
    intros Hi Ht E. destruct (find_ends k g s key incl Hi Ht) as (_ & I1 & _ & T1).
    destruct (f_find_spec k (bucket s (k_hash k key)) g (k_hash k key) key incl s Hi Ht) with (e := e) (r := r) as (A1 & A2 & A3 & A4 & A5);
      [by eapply bucket_nodup|intros x; apply bucket_in|done|].
    fold (f_find k s key incl) in *. split; [done|]. rewrite A3 in A4. unfold ans in A3, A4.
    destruct (i_tab _ _ _ I1 e) as [el Hel]; [by apply tab_LT|]. 
    pose proof (i_hash _ _ _ I1 e el ltac:(by apply tab_LT) Hel) as Hh.
    rewrite Hh, Hel in A3, A4. exists el. split; [done|].
    destruct (bool_decide _ && _ && _) eqn:Eb; [|done]. apply andb_true_iff in Eb as [Eb E3]. apply andb_true_iff in Eb as [E1 E2].
    apply bool_decide_eq_true in E1. apply negb_true_iff in E3. split_and!; try done. by rewrite A3.
  Qed.
  Lemma get_path (A : kind -> Prop) g s key incl : A KFree -> A (KHit key) -> inv g s -> a_torn (cs s) = None -> path A s (f_get k s key incl).1.
  Proof.
    intros HA HB Hi Ht. pose proof (find_path A g s key incl HA Hi Ht) as P1. pose proof (find_some g s key incl) as Hs.
    unfold f_get. destruct (f_find k s key incl) as [s1 [[e r]|]]; [|done]. simpl in *.
    eapply path_trans; [exact P1|]. destruct (Hs e r Hi Ht eq_refl) as (He & el & Hel & [_ Hk] & _ & _ & Hx).
    by eapply hit_path.
  Qed.

  (** *** erase *)
  Lemma matches_tv s hash key e el : m_els (me s) !! e = Some el -> matches k s hash key e = true ->
    a_hash (cs s) !! e = Some hash /\ k_eq k (el_key el) key = true.
  Proof.
    unfold matches. intros ->. destruct (a_hash (cs s) !! e) as [h|]; [|done]. intros H. apply andb_true_iff in H as [H1 H2].
    apply bool_decide_eq_true in H1. by subst.
  Qed.
  Lemma mark_mini κ s e el : unlogged κ -> e ∈ tab s -> m_els (me s) !! e = Some el -> chg k s e (with_rc el 0) κ (Some (marked k (with_rc el 0))) ->
    mini κ s (f_mark k s e).
  Proof. intros HN He Hel Hc. unfold f_mark. eapply mini_upd; [done|by apply tv_some|by intros [] [] [=]; subst|exact Hc|done]. Qed.
  Lemma expire_path (A : kind -> Prop) g s key : A KFree -> A (KErase key) -> inv g s -> a_torn (cs s) = None -> path A s (f_expire k s key).
  Proof.
    intros HA HB Hi Ht. unfold f_expire. eapply (fsw_path A g); try done; [|by eapply bucket_nodup|intros e; apply bucket_in].
    intros s' e el Hi' Ht' He Hel. unfold vs_exp, va_exp, pends. rewrite Hel.
    destruct (matches k s' (k_hash k key) key e) eqn:Em; simpl.
    - destruct (matches_tv _ _ _ _ _ Hel Em) as [_ Hk]. destruct (el_pending el) eqn:Ep.
      + destruct (mark_ends k g s' e) as (_ & I1 & _); [done|eauto|eapply LT_not_priv; [done|by apply tab_LT]|].
        split_and!; [done|apply f_mark_tab| |done]. eapply path_one; [exact HB|]. eapply mark_mini; try done. by apply c_erasing.
      + split_and!; [done|apply same_tab_refl|apply path_refl|]. intros _. exists el. split_and!; [done|by unfold is_pend; rewrite Ep|].
        eapply path_one; [exact HB|]. eapply rem_mini; try done; [by unfold is_pend; rewrite Ep|]. by apply c_erase.
    - split_and!; [done|apply same_tab_refl|apply path_refl|]. destruct (gone k s' e) eqn:Eg; [|done]. intros _. exists el.
      destruct (gone_tv s' e el Hel Eg) as (?&?&?). split_and!; [done|done|]. eapply path_one; [exact HA|]. by eapply gone_mini.
  Qed.
  Lemma expire_nohope g s key : inv g s -> a_torn (cs s) = None -> nohope k (f_expire k s key) key.
  Proof.
    intros Hi Ht x el Hx [K1 K2]. apply tv_elim in Hx as (Hx & el0 & Hel0 & ->). simpl in K1, K2 |- *.
    destruct (expire_ends k g s key Hi Ht) as [(_ & I1 & _) T1].
    unfold f_expire in *. set (M := bucket s (k_hash k key)) in *.
    destruct (fsw_post g (vs_exp k (k_hash k key) key) (va_exp k (k_hash k key) key)) with (M := M) (s := s) as (A1 & A2 & A3 & A4 & A5); try done.
    { intros s' e el Hi' Ht' He Hel. unfold vs_exp, va_exp, pends. rewrite Hel.
      destruct (matches k s' (k_hash k key) key e) eqn:Em; simpl.
      - destruct (el_pending el) eqn:Ep.
        + destruct (mark_ends k g s' e) as (_ & I2 & _); [done|eauto|eapply LT_not_priv; [done|by apply tab_LT]|].
          split_and!; [done|apply p_upd_cs|apply rest_upd| |done]. intros y Hy. unfold f_mark. by rewrite p_upd_lookup, decide_False.
        + split_and!; try done; [apply rest_refl|]. intros _. exists el. by unfold is_pend; rewrite Ep.
      - split_and!; try done; [apply rest_refl|]. destruct (gone k s' e) eqn:Eg; [|done]. intros _. exists el.
        by destruct (gone_tv s' e el Hel Eg) as (?&?&?). }
    { by eapply bucket_nodup. } { intros e; apply bucket_in. }
    set (s' := (fsw k _ _ M s).1) in *.
    destruct (in_bucket g s' x el0 (k_hash k key) I1 T1 Hx Hel0 K1) as [_ Hh].
    assert (x ∈ tab s) as Hxs by (by apply A3). destruct (i_tab _ _ _ Hi x) as [el Hel]; [by apply tab_LT|].
    rewrite A4 in Hh by done.
    assert (x ∈ M) as HxM.
    { apply (in_bucket g s x el (k_hash k key) Hi Ht Hxs Hel). pose proof (i_hash _ _ _ Hi x el ltac:(by apply tab_LT) Hel). congruence. }
    destruct (A5) with (e := x) as (s1 & B1 & B2 & B3 & B4 & B5); try done.
    { unfold s'. apply fsw_none. intros t y r. unfold va_exp. by destruct (matches k t _ _ y), (pends t y), (gone k t y). }
    rewrite Hel in B2. rewrite Hh in B3. rewrite B5 in Hel0. unfold va_exp, vs_exp in *.
    assert (el_key el0 = el_key el) as Ek.
    { destruct (matches k s1 _ key x && pends s1 x); [|congruence]. unfold f_mark in Hel0. rewrite p_upd_lookup, decide_True, B2 in Hel0 by done. by injection Hel0 as <-. }
    assert (matches k s1 (k_hash k key) key x = true) as Em.
    { unfold matches. rewrite B2, B3, bool_decide_true by done. simpl. by rewrite <-Ek. }
    rewrite Em in *. destruct (pends s1 x) eqn:Ep; [|done]. simpl in Hel0.
    unfold f_mark in Hel0. rewrite p_upd_lookup, decide_True, B2 in Hel0 by done. injection Hel0 as <-.
    unfold pends in Ep. rewrite B2 in Ep. unfold el_pending in Ep. simpl. by destruct (el_map el).
  Qed.

  (** a lookup that finds nothing *)
  Lemma find_nohope g s key incl : inv g s -> a_torn (cs s) = None -> J k s -> (f_find k s key incl).2 = None ->
    (incl = true \/ k_resolver k <> RAsync) -> nohope k (f_find k s key incl).1 key.
  Proof.
    intros Hi Ht HJ En Hincl x el Hx [K1 K2]. apply tv_elim in Hx as (Hx & el0 & Hel0 & ->). simpl in K1, K2 |- *.
    destruct (find_ends k g s key incl Hi Ht) as (_ & I1 & _ & T1).
    unfold f_find in *. set (M := bucket s (k_hash k key)) in *.
    destruct (fsw_post g (fun s _ => s) (va_get k (k_hash k key) key incl)) with (M := M) (s := s) as (A1 & A2 & A3 & A4 & A5); try done.
    { intros s' e el Hi' Ht' He Hel. split_and!; try done; [apply rest_refl|]. unfold va_get.
      destruct (gone k s' e) eqn:Eg; [|by destruct (ans _ _ _ _ _ _)]. intros _. exists el. by destruct (gone_tv s' e el Hel Eg) as (?&?&?). }
    { by eapply bucket_nodup. } { intros e; apply bucket_in. }
    set (s' := (fsw k _ _ M s).1) in *.
    destruct (in_bucket g s' x el0 (k_hash k key) I1 T1 Hx Hel0 K1) as [_ Hh].
    assert (x ∈ tab s) as Hxs by (by apply A3). destruct (i_tab _ _ _ Hi x) as [el Hel]; [by apply tab_LT|].
    rewrite A4 in Hh by done.
    assert (x ∈ M) as HxM.
    { apply (in_bucket g s x el (k_hash k key) Hi Ht Hxs Hel). pose proof (i_hash _ _ _ Hi x el ltac:(by apply tab_LT) Hel). congruence. }
    destruct (A5 En x HxM Hx) as (s1 & B1 & B2 & B3 & B4 & B5).
    rewrite B5, B2, Hel in Hel0. injection Hel0 as <-. rewrite Hel in B2. rewrite Hh in B3.
    pose proof (tv_some s x el Hxs Hel) as Htv. unfold va_get, gone, ans in B1. rewrite B2, B3, bool_decide_true, K2 in B1 by done. simpl in B1.
    destruct (hopeful (el_map el)) eqn:Eh; [|done]. destruct (el_map el) as [p|v|[v|]|x0| |] eqn:Em; try done; simpl in Eh.
    - destruct (j_pc _ _ HJ x _ Htv) as (F1 & F2 & F3 & F4). { unfold el_pending. simpl. by rewrite Em. } simpl in *.
      apply negb_true_iff in Eh. unfold el_expired, el_pending in B1. rewrite Em, F1, F2, F3 in B1. simpl in B1. rewrite Eh in B1. simpl in B1.
      destruct Hincl as [->|Hn]; [done|]. destruct (j_sync _ _ HJ) as [?|[_ Hs]]; [done|]. specialize (Hs x _ Htv). unfold el_pending in Hs. simpl in Hs. by rewrite Em in Hs.
    - unfold el_pending in B1. rewrite Em in B1. simpl in B1. rewrite andb_true_r in B1. by destruct (el_expired k (me s1) el).
    - unfold el_pending in B1. rewrite Em in B1. simpl in B1. rewrite andb_true_r in B1. destruct (el_expired k (me s1) el) eqn:Ex; [done|]. unfold el_expired in Ex. rewrite Em in Ex. simpl in Ex. simpl in B1. by destruct (alive (me s1) v).
  Qed.

  (** *** clear *)
  Lemma expire_all_path (A : kind -> Prop) g s : A KClear -> inv g s -> a_torn (cs s) = None -> path A s (f_expire_all k s).
  Proof.
    intros HA Hi Ht. unfold f_expire_all. eapply (fsw_path A g); try done; [|by eapply tab_nodup].
    intros s' e el Hi' Ht' He Hel. unfold vs_all, va_all, pends. rewrite Hel. destruct (el_pending el) eqn:Ep.
    - destruct (mark_ends k g s' e) as (_ & I1 & _); [done|eauto|eapply LT_not_priv; [done|by apply tab_LT]|].
      split_and!; [done|apply f_mark_tab| |done]. eapply path_one; [exact HA|]. eapply mark_mini; try done. by apply c_clearing.
    - split_and!; [done|apply same_tab_refl|apply path_refl|]. intros _. exists el. split_and!; [done|by unfold is_pend; rewrite Ep|].
      eapply path_one; [exact HA|]. eapply rem_mini; try done; [by unfold is_pend; rewrite Ep|]. by apply c_clear.
  Qed.
  Lemma expire_all_nohope g s : inv g s -> a_torn (cs s) = None -> forall x el, tv (f_expire_all k s) x = Some el ->
    exists p, el_map el = MPend p /\ p_exp p = true.
  Proof.
    intros Hi Ht x el Hx. apply tv_elim in Hx as (Hx & el0 & Hel0 & ->). simpl.
    unfold f_expire_all in *. set (M := concat (a_bs (cs s))) in *.
    destruct (fsw_post g (vs_all k) va_all) with (M := M) (s := s) as (A1 & A2 & A3 & A4 & A5); try done.
    { intros s' e el Hi' Ht' He Hel. unfold vs_all, va_all, pends. rewrite Hel. destruct (el_pending el) eqn:Ep.
      - destruct (mark_ends k g s' e) as (_ & I2 & _); [done|eauto|eapply LT_not_priv; [done|by apply tab_LT]|].
        split_and!; [done|apply p_upd_cs|apply rest_upd| |done]. intros y Hy. unfold f_mark. by rewrite p_upd_lookup, decide_False.
      - split_and!; try done; [apply rest_refl|]. intros _. exists el. by unfold is_pend; rewrite Ep. }
    { by eapply tab_nodup. }
    assert (x ∈ tab s) as Hxs by (by apply A3). destruct (i_tab _ _ _ Hi x) as [el Hel]; [by apply tab_LT|].
    destruct (A5) with (e := x) as (s1 & B1 & B2 & B3 & B4 & B5); try done.
    { apply fsw_none. intros t y r. unfold va_all. by destruct (pends t y). }
    rewrite Hel in B2. rewrite B5 in Hel0. unfold va_all, vs_all in *. destruct (pends s1 x) eqn:Ep; [|done].
    unfold f_mark in Hel0. rewrite p_upd_lookup, decide_True, B2 in Hel0 by done. injection Hel0 as <-.
    unfold pends in Ep. rewrite B2 in Ep. unfold el_pending in Ep. simpl. destruct (el_map el); try done. eexists. done.
  Qed.

  (** *** rehash *)
  Lemma concat_single (X : list N) b n : b < n -> concat (map (fun i => if decide (i = b) then X else []) (seq 0 n)) = X.
  Proof.
    intros Hb. replace n with (b + S (n - S b)) by lia. rewrite seq_app, map_app, concat_app. simpl.
    assert (forall l, b ∉ l -> concat (map (fun i => if decide (i = b) then X else []) l) = []) as Hz.
    { induction l as [|y l IH]; intros Hl; [done|]. rewrite not_elem_of_cons in Hl. simpl. rewrite decide_False by (intros ->; tauto). apply IH. tauto. }
    rewrite Hz by (rewrite elem_of_seq; lia). rewrite decide_True by lia. rewrite Hz by (rewrite elem_of_seq; lia). by rewrite app_nil_r.
  Qed.
  Lemma filter_concat (P : N -> Prop) `{forall x, Decision (P x)} (Bs : list (list N)) : filter P (concat Bs) = concat (map (filter P) Bs).
  Proof. induction Bs as [|B Bs IH]; [done|]. simpl. by rewrite filter_app, IH. Qed.
  Lemma bidx_lt n h : n <> 0 -> bidx n h < n.
  Proof. intros Hn. unfold bidx. destruct n as [|n]; [done|]. pose proof (N.mod_lt h (N.of_nat (S n))). lia. Qed.
  Lemma hseq_rehash s n h : n <> 0 -> hseq (f_rehash s n) h = hseq s h.
  Proof.
    intros Hn. unfold hseq, tab, f_rehash. simpl. unfold at_rehash. rewrite filter_concat, map_map.
    set (L := concat (a_bs (cs s))). rewrite <-(concat_single (filter (fun x => a_hash (cs s) !! x = Some h) L) (bidx n h) n) by (by apply bidx_lt).
    f_equal. apply map_ext. intros b. case_decide as D.
    - rewrite filter_comm. subst b. induction L as [|y L IH]; [done|]. rewrite filter_cons. case_decide as D2; [|done].
      rewrite filter_cons, decide_True by (by rewrite D2). by rewrite IH.
    - rewrite filter_comm. apply filter_none. intros y Hy Hb. apply elem_of_list_filter in Hy as [Hy _]. rewrite Hy in Hb. simpl in Hb. done.
  Qed.
  Lemma rehash_mini s n : n <> 0 -> mini KFree s (f_rehash s n).
  Proof.
    intros Hn. apply mini_free; [apply rest_cs| |intros; by apply hseq_rehash|done].
    intros x. apply tv_ext; [|done]. unfold tab, f_rehash; simpl. by rewrite at_rehash_perm.
  Qed.
  Lemma mrehash_path (A : kind -> Prop) g s : A KFree -> inv g s -> a_torn (cs s) = None -> path A s (f_mrehash k s).
  Proof.
    intros HA Hi Ht. unfold f_mrehash. set (s1 := if k_over k _ _ then _ else _).
    assert (path A s s1) as P1. { unfold s1. destruct (k_over k _ _); [by eapply ue_path|apply path_refl]. }
    destruct (bool_decide _ || _) eqn:Eb; [|done]. eapply path_trans; [exact P1|]. eapply path_one; [exact HA|]. apply rehash_mini.
    clearbody s1. apply orb_true_iff in Eb. rewrite andb_true_iff, !bool_decide_eq_true in Eb.
    destruct (bool_decide (length (a_bs (cs s1)) = 0)) eqn:E0; [by unfold initial_size|]. apply bool_decide_eq_false in E0.
    destruct (bool_decide _); lia.
  Qed.
  Lemma reserve_path (A : kind -> Prop) g s n : A KFree -> inv g s -> a_torn (cs s) = None -> path A s (f_reserve k s n).
  Proof.
    intros HA Hi Ht. unfold f_reserve. set (s1 := if bool_decide (_ < _) then f_ue k s else s).
    assert (path A s s1) as P1. { unfold s1. case_bool_decide; [by eapply ue_path|apply path_refl]. }
    case_bool_decide; [|done]. eapply path_trans; [exact P1|]. eapply path_one; [exact HA|]. apply rehash_mini. lia.
  Qed.

  (** *** maintenance *)
  Lemma evict_mini s e el : k_max_size k <> None -> e ∈ tab s -> m_els (me s) !! e = Some el -> mini (KEvict (el_key el) (m_live (el_map el))) s (f_evict k s e).
  Proof.
    intros Hm He Hel. set (f := fun el => if k_weaken k then with_map el (m_weaken (k_pointer k) (el_map el)) else marked k el).
    assert (f_evict k s e = p_upd (f_note s e) e f) as ->.
    { unfold f_evict, f_weaken, f_mark, f. by destruct (k_weaken k). }
    assert (exists n, me (p_upd (f_note s e) e f) = set_els (if m_live (el_map el) then add_log (me s) (EvEvict (el_key el)) else me s) n) as [n En].
    { unfold p_upd, f_note. rewrite Hel. destruct (m_live (el_map el)); simpl; rewrite Hel; by eexists. }
    assert (forall x, tv (f_note s e) x = tv s x) as Tn by (intros x; apply tv_ext; [unfold tab; by rewrite f_note_cs|intros _; by rewrite f_note_els]).
    assert (forall a b, eqrc a b -> eqrc (f a) (f b)) as Hf by (unfold f; destruct (k_weaken k); by intros [] [] [=]; subst).
    split.
    - rewrite En. by destruct (m_live (el_map el)).
    - rewrite En. destruct (m_live (el_map el)); [by eexists [_]|by exists []].
    - rewrite En. apply clk_eq; by destruct (m_live (el_map el)).
    - apply cbs_ok_same; rewrite En; by destruct (m_live (el_map el)).
    - eapply (b_one k _ _ _ e (with_rc el 0) (Some (f (with_rc el 0)))).
      + by apply tv_some.
      + unfold f. destruct (k_weaken k) eqn:Ew; [by apply (c_weaken k s e (with_rc el 0))|by apply (c_evict k s e (with_rc el 0))].
      + rewrite (tv_upd_self _ e f (with_rc el 0)); [by unfold f; destruct (k_weaken k)|by rewrite Tn; apply tv_some|done].
      + intros x Hx. rewrite tv_upd by done. apply Tn.
      + intros h. simpl. rewrite hseq_upd. apply hseq_ext; [unfold tab; by rewrite f_note_cs|]. intros x _. by rewrite f_note_cs.
      + by rewrite p_upd_cs, f_note_cs.
    - rewrite En. by destruct (m_live (el_map el)).
    - apply keep_ok_same. rewrite En. by destruct (m_live (el_map el)).
  Qed.
  Lemma evict_path (A : kind -> Prop) s e : A KFree -> (forall key b, A (KEvict key b)) -> k_max_size k <> None -> e ∈ tab s -> path A s (f_evict k s e).
  Proof.
    intros HA HB Hm He. destruct (m_els (me s) !! e) as [el|] eqn:Hel.
    - eapply path_one; [apply HB|by apply evict_mini].
    - unfold f_evict, f_note, f_weaken, f_mark, p_upd. rewrite Hel, Hel. destruct (k_weaken k); apply path_refl.
  Qed.
  Lemma evicts_path (A : kind -> Prop) l : A KFree -> (forall key b, A (KEvict key b)) -> k_max_size k <> None -> forall s, (forall e, e ∈ l -> e ∈ tab s) -> path A s (f_evicts k s l).
  Proof.
    intros HA HB Hm. induction l as [|e l IH]; intros s Hl; [apply path_refl|].
    eapply path_trans; [apply evict_path; [done|done|done|apply Hl; left]|]. apply IH. intros x Hx. unfold tab. rewrite f_evict_cs. apply Hl. by right.
  Qed.
  Lemma q_tab g s e : inv g s -> a_torn (cs s) = None -> g_xs g = [] -> has_queue k = true -> e ∈ aq_elems (a_q (cs s)) -> e ∈ tab s.
  Proof. intros Hi Ht Hx Hq He. pose proof (i_q _ _ _ Hi) as Q. rewrite Hq in Q. rewrite Q in He. unfold LT in He. rewrite Hx, a_tab_None in He by done. done. Qed.
  Lemma maint_path (A : kind -> Prop) g s : A KFree -> (forall key b, A (KEvict key b)) -> inv g s -> a_torn (cs s) = None -> g_xs g = [] -> path A s (f_maint k s).
  Proof.
    intros HA HB Hi Ht Hx. unfold f_maint, victims. destruct (k_max_size k) as [mx|] eqn:Em; [|apply path_refl].
    apply evicts_path; [done|done|by rewrite Em|]. intros e He. eapply q_tab; [done|done|done|by unfold has_queue; rewrite Em|].
    by eapply aq_victims_elems.
  Qed.

  (** *** what is kept by internal changes *)
  Lemma free_tv s s' x el' : mini KFree s s' -> tv s' x = Some el' -> exists el, tv s x = Some el /\ el_key el' = el_key el /\
    (hopeful (el_map el') = true -> hopeful (el_map el) = true) /\ cbq_of (el_map el') = cbq_of (el_map el) /\ el_pending el' = el_pending el.
  Proof.
    intros [_ _ _ _ B _] H. inversion B as [κ Hk T _ _ _|κ e el o H1 H2 H3 H4 _ _| | |]; subst.
    - exists el'. by rewrite <-T.
    - destruct (decide (x = e)) as [->|Hne]; [|exists el'; by rewrite <-H4]. exists el. rewrite H in H2. split; [done|].
      inversion H2; subst; simpl; try done; unfold hopeful, m_mark_expired, m_dead, m_weaken, m_strengthen, el_pending; simpl; unfold m_pending.
      split; [done|]. destruct (el_map el) as [p| |[v|]| | |]; simpl; try done.
        * unfold p_strengthen. destruct (p_exp p) eqn:Ee; simpl; rewrite ?Ee; done.
        * by destruct (alive (me s) v).
  Qed.
  Lemma free_nohope s s' key : path free s s' -> nohope k s key -> nohope k s' key.
  Proof.
    apply (path_inv k free (fun s => nohope k s key)). clear s s'. intros κ s s' -> H HN x el' Hx [K1 K2].
    destruct (free_tv s s' x el' H Hx) as (el & Hx0 & Ek & Hh & _). destruct (hopeful (el_map el')) eqn:E; [|done].
    rewrite <-(HN x el Hx0); [by symmetry; apply Hh|]. split; by rewrite <-Ek.
  Qed.
  Lemma free_only s s' key o : path free s s' -> only k s key o -> only k s' key o.
  Proof.
    apply (path_inv k free (fun s => only k s key o)). clear s s'. intros κ s s' -> H HN x el' Hx [K1 K2] Hh.
    destruct (free_tv s s' x el' H Hx) as (el & Hx0 & Ek & Hh0 & _). apply (HN x el Hx0); [|by apply Hh0]. split; by rewrite <-Ek.
  Qed.
  Lemma free_fits s s' e key cl : path free s s' -> fits k s e key cl -> fits k s' e key cl.
  Proof.
    intros P. destruct cl as [|o l|]; simpl; [|intros [-> H]; split; [done|]|done]; intros.
    - eapply free_nohope; eauto.
    - eapply free_only; eauto.
  Qed.
  Lemma free_noref s s' o : path free s s' -> noref s o -> noref s' o.
  Proof.
    apply (path_inv k free (fun s => noref s o)). clear s s'. intros κ s s' -> H HN n en' q' Hn Em.
    destruct (free_tv s s' n en' H Hn) as (en & Hn0 & _ & _ & Ec & Ep). unfold el_pending in Ep. rewrite Em in Ep, Ec. simpl in Ec, Ep.
    destruct (el_map en) as [q| | | | |] eqn:Eq; try done. simpl in Ec. rewrite Ec. by eapply HN.
  Qed.
  Lemma mini_hseq κ s s' h : mini κ s s' -> hseq s' h = hseq s h \/ (exists e el, tv s e = Some el /\ tv s' e = None /\ hseq s' h = rm e (hseq s h)) \/
    (exists e key cl o, κ = KEnter key cl o /\ tv s e = None /\ (forall h, e ∉ hseq s h) /\ k_hash k key = h /\ hseq s' h = hseq s h ++ [e] /\ (k_resolver k = RAsync -> newest s e)).
  Proof.
    intros [_ _ _ _ B _]. destruct B as [κ _ _ Hh _ _|κ e el o T _ T' _ Hh _|e key cl mp T Hn _ _ _ _ Hh _ Hr _|i c e el p o y cn δ _ _ _ _ _ _ _ _ Hh _ _ _|i c e el p _ _ _ _ _ _ _ Hh _].
    - left. apply Hh.
    - specialize (Hh h). destruct o as [el'|]; [by left|]. right. left. exists e, el. done.
    - specialize (Hh h). case_decide; [|left; by rewrite app_nil_r in Hh]. right. right. exists e, key, cl, (val_of mp). done.
    - left. apply Hh.
    - left. apply Hh.
  Qed.
  Lemma free_newest s s' e : path free s s' -> newest s e -> newest s' e.
  Proof.
    intros P [H1 H2]. split; [by eapply free_noref|]. revert P H2. apply (path_inv k free (fun s => forall h x, x ∈ hseq s h -> (x < e)%N)). clear s s' H1.
    intros κ s s' -> H HN h x Hx. destruct (mini_hseq KFree s s' h H) as [E|[(y & _ & _ & _ & E)|(? & ? & ? & ? & ? & _)]]; [..|done]; rewrite E in Hx.
    - by eapply HN.
    - apply elem_of_rm in Hx as [_ Hx]. by eapply HN.
  Qed.

  Lemma free_has_cb s s' e : path free s s' -> has_cb s e -> has_cb s' e.
  Proof.
    apply (path_inv k free (fun s => has_cb s e)). clear s s'. intros κ s s' -> H (i & c & Hc & Hcc & He). destruct (n_cbs _ _ _ _ H) as (_ & N1 & N2). destruct (m_cbs (me s') !! i) as [c'|] eqn:E.
    - destruct (N1 i c' E) as [(_ & _ & _ & ? & _)|(c0 & E0 & E1 & [E2|[_ E2]])]; [congruence| |done].
      assert (c0 = c) as -> by congruence. exists i, c'. split_and!; congruence.
    - by rewrite (N2 i c Hc E) in Hcc.
  Qed.

  (** *** on_assign_ *)
  Lemma assign_facts s e value : rest s (f_assign k s e value) /\ a_bs (cs (f_assign k s e value)) = a_bs (cs s) /\
    a_hash (cs (f_assign k s e value)) = a_hash (cs s) /\
    (is_Some (m_els (me s) !! e) -> a_dq (cs (f_assign k s e value)) = enq k value e (a_dq (cs s))) /\
    (forall x, m_els (me (f_assign k s e value)) !! x = (if decide (x = e) then assigned k (me s) value else id) <$> m_els (me s) !! x).
  Proof.
    assert (forall t, rest s t -> cs t = cs s -> forall d, rest s (f_age k t e d) /\ cs (f_age k t e d) = cs s /\
      forall x, m_els (me (f_age k t e d)) !! x = (if decide (x = e) then aged k (me s) d else id) <$> m_els (me t) !! x) as Hage.
    { intros t R Ec d. unfold f_age. split_and!; [eapply rest_trans; [exact R|apply rest_upd]|by rewrite p_upd_cs|].
      intros x. rewrite p_upd_lookup. case_decide as D; [subst|by rewrite option_fmap_id].
      unfold aged. by rewrite (e_wall _ _ R), (e_steady _ _ R). }
    rewrite f_assign_eq. assert (rest s (f_assign1 k s e value) /\ cs (f_assign1 k s e value) = cs s /\
      forall x, m_els (me (f_assign1 k s e value)) !! x = (if decide (x = e) then fun el => let el := match k_max_age k with Some d => if value then aged k (me s) d el else el | None => el end in
        match k_err_age k with Some d => if value then el else aged k (me s) d el | None => el end else id) <$> m_els (me s) !! x) as (R1 & C1 & H1).
    { unfold f_assign1. destruct value, (k_max_age k) as [d1|], (k_err_age k) as [d2|]; simpl;
      try (split_and!; [apply rest_refl|done|intros x; case_decide; by rewrite option_fmap_id]);
      apply Hage; try done; apply rest_refl. }
    set (s1 := f_assign1 k s e value) in *. clearbody s1. unfold enq, assigned.
    destruct (k_refresh k) as [[delay idle]|] eqn:Er; [destruct value|]; simpl.
    2-3: split_and!; [done|by rewrite C1|by rewrite C1|intros _; rewrite C1; by destruct value|intros x; rewrite H1; by case_decide].
    unfold f_arefresh. set (s2 := p_upd s1 e _).
    assert (rest s s2) as R2 by (eapply rest_trans; [exact R1|apply rest_upd]).
    assert (cs s2 = cs s) as C2 by (unfold s2; by rewrite p_upd_cs).
    set (s3 := with_cs s2 _). assert (rest s s3) as R3 by (eapply rest_trans; [exact R2|apply rest_cs]).
    case_bool_decide as Di.
    - split_and!; try done; simpl; rewrite ?C2; try done. intros x. unfold s2. rewrite p_upd_lookup.
      case_decide as D; [subst|rewrite H1; by rewrite decide_False]. rewrite H1, decide_True by done.
      destruct (m_els (me s) !! e); [|done]. simpl. by rewrite (e_steady _ _ R1).
    - split_and!; try (rewrite p_upd_cs; simpl; by rewrite C2).
      + eapply rest_trans; [exact R3|apply rest_upd].
      + intros x. rewrite p_upd_lookup. simpl. unfold s2. rewrite !p_upd_lookup.
        case_decide as D; [subst|rewrite H1; by rewrite decide_False]. rewrite decide_True, H1, decide_True by done.
        destruct (m_els (me s) !! e); [|done]. simpl. destruct (p_upd_me s1 e (fun el => with_rf el (m_steady (me s1) + delay)%Z)) as (_&_&_&_&_&_&Es&_).
        rewrite Es. by rewrite (e_steady _ _ R1).
  Qed.

  (** *** link *)
  Lemma assigned_rc m v el r : with_rc (assigned k m v el) r = assigned k m v (with_rc el r).
  Proof.
    unfold assigned, aged. destruct v, (k_max_age k) as [d1|], (k_err_age k) as [d2|], (k_refresh k) as [[de idl]|]; simpl; try done; by case_bool_decide.
  Qed.
  Lemma link_concat Bs h e : Bs <> [] -> exists P B, let Q := concat (drop (S (bidx (length Bs) h)) Bs) in
    concat Bs = P ++ B ++ Q /\ concat (at_link Bs h e) = P ++ (B ++ [e]) ++ Q.
  Proof.
    intros Hn. unfold at_link. set (i := bidx (length Bs) h). assert (i < length Bs) as Hi. { apply bidx_lt. by destruct Bs. }
    destruct (lookup_lt_is_Some_2 Bs i Hi) as [B HB]. exists (concat (take i Bs)), B. simpl.
    assert (length (take i Bs) = i) as Hl by (rewrite take_length_le; lia).
    assert (Bs = take i Bs ++ B :: drop (S i) Bs) as E by (by rewrite take_drop_middle).
    split; [rewrite E at 1; by rewrite concat_app|].
    assert (alter (fun B => B ++ [e]) i Bs = take i Bs ++ (B ++ [e]) :: drop (S i) Bs) as ->; [|by rewrite concat_app].
    rewrite E at 1. generalize (drop (S i) Bs) as Q. revert Hl. generalize (take i Bs) as P. intros P <- Q.
    rewrite <-(Nat.add_0_r (length P)). by rewrite alter_app_r.
  Qed.
  Lemma hseq_link Bs (ha : gmap N N) h e hh : Bs <> [] -> e ∉ concat Bs ->
    (forall b B x hx, Bs !! b = Some B -> x ∈ B -> ha !! x = Some hx -> bidx (length Bs) hx = b) ->
    filter (fun x => <[e := h]> ha !! x = Some hh) (concat (at_link Bs h e)) =
    filter (fun x => ha !! x = Some hh) (concat Bs) ++ (if decide (h = hh) then [e] else []).
  Proof.
    intros Hn He Hp. destruct (link_concat Bs h e Hn) as (P & B & E1 & E2).
    set (i := bidx (length Bs) h) in *. rewrite E2. rewrite E1 in He |- *.
    assert (forall l : list N, e ∉ l -> filter (fun x => <[e := h]> ha !! x = Some hh) l = filter (fun x => ha !! x = Some hh) l) as Hf.
    { intros l Hl. apply filter_ext_in. intros x Hx. rewrite lookup_insert_ne by (intros ->; done). done. }
    rewrite !not_elem_of_app in He. destruct He as (He1 & He2 & He3).
    rewrite !filter_app, (Hf P), (Hf B), (Hf (concat _)) by done. rewrite filter_cons, filter_nil, lookup_insert.
    rewrite <-!app_assoc. f_equal. f_equal. case_decide as D.
    - injection D as ->. rewrite decide_True by done. rewrite (filter_none _ (concat (drop (S i) Bs))); [done|].
      intros x Hx Hh. apply elem_concat_inv in Hx as (b & C & Hb & HC). rewrite lookup_drop in Hb.
      pose proof (Hp _ _ _ _ Hb HC Hh). unfold i in *. lia.
    - rewrite decide_False by congruence. by rewrite app_nil_r.
  Qed.
  Lemma link_enter g s e key mp r cl : inv g s -> a_torn (cs s) = None -> g_xs g = [] ->
    m_els (me s) !! e = Some (with_rc (newborn key mp) r) -> e ∉ LT g (cs s) ->
    match mp with MVal _ => True | MErr _ => k_resolver k = RSync | _ => mp = MPend pend_init /\ k_resolver k = RAsync /\ has_cb s e end ->
    (k_resolver k = RAsync -> newest s e) -> fits k s e key cl ->
    exists s2, path free s s2 /\ mini (KEnter key cl (val_of mp)) s2 (f_link k s (k_hash k key) e).
  Proof.
    intros Hi Ht Hx Hel He Hmp Hr Hc.
    destruct (mrehash_ends k g s Hi Ht) as ((_ & I1 & _) & T1 & N1). pose proof (mrehash_path free g s eq_refl Hi Ht) as P1.
    assert (e ∉ tab s) as Het. { intros H. apply He. by apply tab_LT. }
    unfold f_link. set (s1 := f_mrehash k s) in *.
    assert (m_els (me s1) !! e = Some (with_rc (newborn key mp) r)) as Hel1 by (unfold s1; by rewrite f_mrehash_els).
    assert (e ∉ tab s1) as Het1. { intros H. apply Het. by apply (f_mrehash_sub k). }
    clearbody s1. set (h := k_hash k key).
    set (s2 := if has_queue k then match (aq_create (a_q (cs s1)) e).2 with Some x => f_strengthen k s1 x | None => s1 end else s1).
    assert (path free s s2 /\ cs s2 = cs s1 /\ m_els (me s2) !! e = Some (with_rc (newborn key mp) r) /\ me (f_create k s1 h e) = me s2) as (P2 & C2 & Hel2 & M2).
    { unfold s2, f_create. destruct (has_queue k) eqn:Eq; [|by split_and!]. destruct (aq_create (a_q (cs s1)) e).2 as [x|] eqn:Ex; [|by split_and!].
      assert (x ∈ tab s1) as Hxt. { eapply q_tab; try done. by eapply aq_create_promoted. }
      split_and!; [eapply path_trans; [exact P1|]; eapply path_one; [done|by apply strengthen_mini]|apply p_upd_cs| |].
      - unfold f_strengthen. rewrite p_upd_lookup, decide_False; [done|]. by intros ->.
      - unfold f_strengthen, p_upd. simpl. by destruct (m_els (me s1) !! x). }
    assert (tab s2 = tab s1) as Et2 by (unfold tab; by rewrite C2).
    exists s2. split; [exact P2|].
    set (s3 := f_create k s1 h e) in *. assert (cs s3 = a_enter k (cs s1) h e) as C3 by apply f_create_cs.
    clearbody s3. clearbody s2.
    assert (rest s2 s3) as R3. { split; rewrite ?M2; try done. by exists []. }
    assert (forall x, x ∈ tab s3 <-> x ∈ tab s2 \/ x = e) as Et3.
    { intros x. rewrite Et2. unfold tab. rewrite C3. simpl.
      destruct (link_concat (a_bs (cs s1)) h e N1) as (P & B & -> & ->). rewrite !elem_of_app, elem_of_list_singleton. tauto. }
    assert (forall hh, filter (fun x => a_hash (cs s3) !! x = Some hh) (tab s3) = hseq s2 hh ++ (if decide (k_hash k key = hh) then [e] else [])) as Hseq.
    { intros hh. unfold hseq, tab. rewrite C3, C2. simpl. apply hseq_link; [done|done|].
      intros b B x hx Hb Hxb Hh. assert (x ∈ tab s1) as Hxt by (by eapply elem_concat_lookup).
      destruct (i_tab _ _ _ I1 x) as [elx Hx1]; [by apply tab_LT|].
      pose proof (i_hash _ _ _ I1 x elx ltac:(by apply tab_LT) Hx1) as Hh1. assert (hx = k_hash k (el_key elx)) as -> by congruence.
      by eapply (i_place _ _ _ I1). }
    assert (e ∉ a_dq (cs s2)) as Hdq. { rewrite C2. intros Hd. apply (i_dq _ _ _ I1) in Hd as [Hd _]. apply Het1. unfold LT in Hd. rewrite Hx, a_tab_None in Hd by done. done. }
    assert (pends s3 e = m_pending mp) as Hpe. { unfold pends. by rewrite M2, Hel2. }
    assert (tv s2 e = None) as Tv2. { apply tv_none. by rewrite Et2. }
    assert (forall hh, e ∉ hseq s2 hh) as Hs2. { intros hh H. apply hseq_tab in H. by rewrite Et2 in H. }
    assert (k_resolver k = RAsync -> newest s2 e) as Hr2. { intros E. eapply free_newest; [exact P2|by apply Hr]. }
    assert (fits k s2 e key cl) as Hc2 by (by eapply free_fits).
    rewrite Hpe. destruct (m_pending mp) eqn:Ep.
    - destruct mp as [p| | | | |]; try done. destruct Hmp as (Hmp & Hra & Hcb). injection Hmp as ->.
      assert (has_cb s2 e) as Hcb2 by (by eapply free_has_cb).
      apply mini_of; [done|done|]. eapply (b_enter k s2 s3 e key cl (MPend pend_init)); try done.
      + unfold born; simpl. erewrite tv_some; [| |by rewrite M2, Hel2]; [done|]. apply Et3. by right.
      + intros x Hxe. apply tv_ext; [rewrite Et3; naive_solver|]. intros _. by rewrite M2.
      + simpl. unfold enq; simpl. by rewrite C3, C2.
    - assert (holds_value s3 e = is_val mp) as Hhv. { unfold holds_value. rewrite M2, Hel2. simpl. by destruct mp; naive_solver. }
      rewrite Hhv. destruct (assign_facts s3 e (is_val mp)) as (R4 & B4 & H4 & D4 & E4). set (s4 := f_assign k s3 e (is_val mp)) in *. clearbody s4.
      assert (tab s4 = tab s3) as Et4 by (unfold tab; by rewrite B4).
      apply mini_of; [done|by eapply rest_trans|]. eapply (b_enter k s2 s4 e key cl mp); try done.
      + destruct mp; try done; by destruct Hmp as (? & _).
      + unfold born. rewrite Ep. erewrite tv_some; [| |by rewrite E4, decide_True, M2, Hel2 by done].
        * rewrite assigned_rc. f_equal.
        * rewrite Et4, Et3. by right.
      + intros x Hxe. apply tv_ext; [rewrite Et4, Et3; naive_solver|]. intros _. rewrite E4, decide_False, M2 by done. by rewrite option_fmap_id.
      + intros hh. unfold hseq at 1. rewrite Et4, H4. apply Hseq.
      + rewrite D4 by (rewrite M2, Hel2; eauto). f_equal. by rewrite C3, C2.
  Qed.

  Lemma link_path (A : kind -> Prop) g s e key mp r cl : inv g s -> a_torn (cs s) = None -> g_xs g = [] ->
    m_els (me s) !! e = Some (with_rc (newborn key mp) r) -> e ∉ LT g (cs s) ->
    match mp with MVal _ => True | MErr _ => k_resolver k = RSync | _ => mp = MPend pend_init /\ k_resolver k = RAsync /\ has_cb s e end ->
    A KFree -> A (KEnter key cl (val_of mp)) -> (k_resolver k = RAsync -> newest s e) -> fits k s e key cl ->
    path A s (f_link k s (k_hash k key) e).
  Proof.
    intros Hi Ht Hx Hel He Hmp HA HB Hr Hc. destruct (link_enter g s e key mp r cl) as (s2 & P & M); try done.
    eapply path_trans; [eapply path_weaken; [|exact P]; by intros κ ->|by eapply path_one].
  Qed.

  (** *** emplace, get_or_emplace *)
  Lemma alloc_path (A : kind -> Prop) g s key m : A KFree -> inv g s -> a_torn (cs s) = None -> path A s (f_alloc s key m).
  Proof. intros HA Hi Ht. eapply path_one; [exact HA|by eapply alloc_mini]. Qed.
  Lemma fresh_noref g s : inv g s -> a_torn (cs s) = None -> noref s (m_nxt (me s)).
  Proof.
    intros Hi Ht n en q Hn Em Ho. apply tv_elim in Hn as (_ & en0 & Hn & ->). simpl in Em.
    pose proof (i_rc0 _ _ _ Hi _ (nxt_fresh k g s Hi)) as H0. assert (nold (m_els (me s)) (m_nxt (me s)) = 0) as H1 by lia.
    rewrite nold_zero in H1. eapply H1; [exact Hn|]. unfold el_olds. by rewrite Em.
  Qed.
  Lemma fresh_newest g s : inv g s -> a_torn (cs s) = None -> newest s (m_nxt (me s)).
  Proof.
    intros Hi Ht. split; [by eapply fresh_noref|]. intros h x Hx. apply hseq_tab in Hx.
    apply (i_nxt _ _ _ Hi). apply (i_tab _ _ _ Hi). by apply tab_LT.
  Qed.
  Lemma insert_enter g s key v cl : inv g s -> a_torn (cs s) = None -> g_xs g = [] -> fits k s (m_nxt (me s)) key cl ->
    exists s2, path free s s2 /\ mini (KEnter key cl (Some v)) s2 (f_insert k s key v).
  Proof.
    intros Hi Ht Hx Hc. unfold f_insert. pose proof (alloc_path free g s key (MVal v) eq_refl Hi Ht) as P1.
    destruct (alloc_pin k g s key (MVal v)) as (_ & I1 & _); [done|done|apply mode_val|].
    destruct (link_enter (pin (m_nxt (me s)) g) (f_alloc s key (MVal v)) (m_nxt (me s)) key (MVal v) 1 cl) as (s2 & P2 & M); [exact I1|done|done|by rewrite f_alloc_self| |done| | |].
    - rewrite f_alloc_LT. simpl. by apply (nxt_not_LT k g s).
    - intros _. eapply free_newest; [exact P1|by eapply fresh_newest].
    - by eapply free_fits.
    - exists s2. split; [by eapply path_trans|exact M].
  Qed.
  Lemma insert_path (A : kind -> Prop) g s key v cl : inv g s -> a_torn (cs s) = None -> g_xs g = [] -> A KFree -> A (KEnter key cl (Some v)) ->
    fits k s (m_nxt (me s)) key cl -> path A s (f_insert k s key v).
  Proof.
    intros Hi Ht Hx HA HB Hc. destruct (insert_enter g s key v cl) as (s2 & P & M); try done.
    eapply path_trans; [eapply path_weaken; [|exact P]; by intros κ ->|by eapply path_one].
  Qed.
  Lemma insert_ends g s key v : inv g s -> a_torn (cs s) = None ->
    inv g (f_insert k s key v) /\ a_torn (cs (f_insert k s key v)) = None.
  Proof.
    intros Hi Ht. destruct (alloc_pin k g s key (MVal v)) as (_ & I1 & _); [done|done|apply mode_val|].
    destruct (link_ends k (pin (m_nxt (me s)) g) g (f_alloc s key (MVal v)) (m_nxt (me s)) (fresh_el key (MVal v))) as ((_ & I2 & _) & T2 & _); try done.
    - apply f_alloc_self.
    - rewrite f_alloc_LT. simpl. by apply (nxt_not_LT k g s).
    - eapply handed_pin; [exact I1|by eapply nxt_not_priv].
  Qed.
  Lemma emplace_path (A : kind -> Prop) g s key v : inv g s -> a_torn (cs s) = None -> g_xs g = [] -> A KFree -> (forall key b, A (KEvict key b)) -> A (KErase key) -> A (KEnter key HClean (Some v)) ->
    path A s (f_emplace k s key v).
  Proof.
    intros Hi Ht Hx H1 H0 H2 H3. unfold f_emplace. destruct (expire_ends k g s key Hi Ht) as ((_ & I1 & _) & T1).
    destruct (insert_ends g (f_expire k s key) key v I1 T1) as [I2 T2].
    eapply path_trans; [by eapply expire_path|]. eapply path_trans; [eapply (insert_path A g _ key v HClean); try done|].
    - by eapply expire_nohope.
    - by eapply maint_path.
  Qed.
  Definition maint_kind (κ : kind) : Prop := κ = KFree \/ evicting κ.
  Lemma goe_enter g s key v : inv g s -> a_torn (cs s) = None -> g_xs g = [] -> J k s -> (f_find k s key true).2 = None ->
    exists s2 s3, path free s s2 /\ nohope k s2 key /\ mini (KEnter key HClean (Some v)) s2 s3 /\ path maint_kind s3 (f_goe k s key v).1 /\
      exists g' e, inv g' s3 /\ a_torn (cs s3) = None /\ (f_goe k s key v).1 = f_dec (f_maint k s3) e /\ g_xs g' = [] /\
        e = m_nxt (me (f_find k s key true).1) /\ s3 = f_link k (p_inc (f_alloc (f_find k s key true).1 key (MVal v)) e) (k_hash k key) e.
  Proof.
    intros Hi Ht Hx HJ Hnone. unfold f_goe. destruct (get_ends k g s key true Hi Ht) as (_ & I1 & X1 & T1 & _).
    pose proof (find_path free g s key true eq_refl Hi Ht) as P1. pose proof (find_nohope g s key true Hi Ht HJ) as Hn.
    unfold f_get in *. destruct (f_find k s key true) as [s0 [[e r]|]] eqn:Ef; simpl in *; [done|].
    - set (e := m_nxt (me s0)) in *.
      destruct (alloc_pin k g s0 key (MVal v)) as (_ & I2 & X2); [done|done|apply mode_val|]. fold e in I2, X2.
      pose proof (alloc_path free g s0 key (MVal v) eq_refl I1 T1) as P2. set (s2 := f_alloc s0 key (MVal v)) in *.
      assert (m_els (me s2) !! e = Some (fresh_el key (MVal v))) as Hel2 by apply f_alloc_self.
      destruct (inc_ends k (pin e g) s2 e I2) as (_ & I3 & X3); [eauto|].
      pose proof (path_inc free s2 e eq_refl) as P3.
      assert (a_torn (cs (p_inc s2 e)) = None) as T3 by (unfold p_inc; by rewrite p_upd_cs).
      assert (e ∉ LT (pin e (pin e g)) (cs (p_inc s2 e))) as He3.
      { unfold p_inc. rewrite p_upd_cs. unfold s2. rewrite f_alloc_LT. simpl. by apply (nxt_not_LT k g s0). }
      assert (m_els (me (p_inc s2 e)) !! e = Some (with_rc (newborn key (MVal v)) 2)) as Hel3.
      { unfold p_inc. rewrite p_upd_lookup, decide_True, Hel2 by done. done. }
      pose proof (path_trans _ _ _ _ _ P2 P3) as P23.
      destruct (link_ends k (pin e (pin e g)) (pin e g) (p_inc s2 e) e _ I3 Hel3 T3 He3) as ((_ & I4 & X4) & T4 & _).
      { eapply handed_pin; [exact I3|]. simpl. by eapply nxt_not_priv. }
      simpl in I4, T4. 
      destruct (link_enter (pin e (pin e g)) (p_inc s2 e) e key (MVal v) 2 HClean) as (s4 & P4 & M4); try done.
      + intros _. eapply free_newest; [exact P23|by eapply fresh_newest].
      + eapply free_nohope; [exact P23|by apply Hn; eauto].
      + exists s4. eexists. split_and!; [| |exact M4| |].
        * eapply path_trans; [exact P1|]. by eapply path_trans.
        * eapply free_nohope; [exact P4|]. eapply free_nohope; [exact P23|by apply Hn; eauto].
        * destruct (maint_ends k (pin e g) _ I4) as (_ & I5 & _).
          eapply path_trans; [eapply maint_path; [by left|by right|exact I4|done|done]|]. eapply dec_path; [by left|exact I5|]. by rewrite f_maint_cs.
        * exists (pin e g), e. split_and!; done.
  Qed.
  Lemma goe_path (A : kind -> Prop) g s key v : inv g s -> a_torn (cs s) = None -> g_xs g = [] -> J k s -> A KFree -> (forall key b, A (KEvict key b)) -> A (KHit key) -> A (KEnter key HClean (Some v)) ->
    path A s (f_goe k s key v).1.
  Proof.
    intros Hi Ht Hx HJ H1 H0 H2 H3. destruct (f_find k s key true).2 as [[e r]|] eqn:Ef.
    - destruct (get_ends k g s key true Hi Ht) as (_ & I1 & X1 & T1 & _). pose proof (get_path A g s key true H1 H2 Hi Ht) as P1.
      unfold f_goe. unfold f_get in *. destruct (f_find k s key true) as [s0 [[e' r']|]]; [|done]. simpl in *. eapply path_trans; [exact P1|]. by eapply maint_path.
    - destruct (goe_enter g s key v Hi Ht Hx HJ Ef) as (s2 & s3 & P1 & _ & M & P2 & _).
      eapply path_trans; [eapply path_weaken; [|exact P1]; by intros κ ->|]. eapply path_trans; [eapply path_one; [exact H3|exact M]|].
      eapply path_weaken; [|exact P2]. intros κ [->|H]; [done|by destruct κ].
  Qed.
End trace.
