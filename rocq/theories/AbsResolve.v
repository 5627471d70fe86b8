(** Resolvers, their callbacks, the refresh worker and the destructor: the invariant across them. *)
From stdpp Require Import sorting.
From Verif Require Import Base AQueue ATable BasicHashtable QueueProofs BasicHashtableProofs ContainersProofs Mapped Cache CacheAbs AbsInv AbsPrim AbsPrim2 AbsSweep AbsOps AbsComp Trace AbsTrace TraceInv Delay AbsTraceCb Histories.

Section resolve.
  Context (k : cfg).
  Notation inv := (inv k).
  Notation ends := (ends k).
  Notation quiet := (quiet k).
  Notation mini := (mini k).
  Notation path := (path k).
  Notation J := (J k).

  (** User code: it keeps the invariant and makes at most changes of the kinds [B] (and gives up
      lookups it started itself). *)
  Definition safe (W : list N) (B : kind -> Prop) (u : sta -> res sta) : Prop :=
    forall g s, g_xs g = [] -> g_act g = [] -> m_up (me s) = true -> inv g s -> J s ->
    exists s', u s = Ok s' /\ inv g s' /\ ext W g s g s' /\ path (upto B (m_ncb (me s))) s s'.

  (** ** Resolver callbacks *)
  Lemma cancel_cbs s e : m_cbs (me (f_cancel s e)) = m_cbs (me s).
  Proof.
    assert (forall ps s, m_cbs (me (f_drops s ps)) = m_cbs (me s)) as H.
    { intros ps. induction ps as [|p ps IH]; intros s'; [done|]. simpl. unfold f_drops in IH. rewrite IH. destruct p; [done|].
      simpl. by destruct (f_dec_me s' old) as (_ & ? & _). }
    unfold f_cancel. destruct (m_els (me s) !! e) as [el|] eqn:E; [|done]. destruct (el_map el); try done. rewrite H.
    unfold p_upd. by rewrite E.
  Qed.
  Lemma cb_cancel_ends g s i c : inv g s -> m_cbs (me s) !! i = Some c -> i ∉ g_act g ->
    exists s' b, cb_cancel s i c = Ok (s', b) /\ inv g s' /\ ext [] g s g s' /\
      m_cbs (me s') !! i = Some (Cbk (cb_el c) true (cb_own c) (cb_kept c)) /\ b = negb (cb_called c) /\ same_tab s s' /\
      (m_up (me s) = true -> g_xs g = [] -> path (fun κ => κ = KFree \/ κ = KCancel i) s s').
  Proof.
    intros Hi Hc Ha. unfold cb_cancel. destruct (cb_called c) eqn:Ec.
    - exists s, false. split_and!; try done; [apply ext_refl|]. rewrite Hc. destruct c; simpl in *; by subst.
    - destruct (i_cb _ _ _ Hi i c Hc Ec Ha) as (Hp & el & Hel & Hpe).
      destruct (cancel_ends k g s (cb_el c) Hi) as (E1 & I1 & X1); [eauto|done|]. rewrite E1. simpl.
      eexists _, true. split_and!; [done|..].
      + eapply cb_flags; [done|by rewrite cancel_cbs|..]; done.
      + eapply ext_trans0; [done|exact X1|]. by apply ext_cbs.
      + simpl. by rewrite lookup_insert.
      + done.
      + destruct (f_cancel_cs s (cb_el c)) as (? & ? & _). done.
      + intros Hup Gx. pose proof (i_up _ _ _ Hi Hup) as Ht. pose proof (cancel_cbs s (cb_el c)) as Ecb. rewrite Ecb.
        apply (cancel_path k g s i c); try done; [|eauto].
        destruct (i_pin _ _ _ Hi _ _ Hel Hpe Hup) as [HL|?]; [|done]. unfold LT in HL. rewrite Gx, (a_tab_None _ Ht) in HL. done.
  Qed.
  Lemma cb_holders_ends g g' s i c own kept : inv g s -> m_cbs (me s) !! i = Some c -> i ∉ g_act g ->
    (own || kept = false -> forall e, (i, e) ∉ g_own g') ->
    g_pins g' = g_pins g -> g_xs g' = g_xs g -> g_priv g' = g_priv g -> g_act g' = g_act g -> g_wait g' = g_wait g ->
    (forall j e, (j, e) ∈ g_own g' -> (j, e) ∈ g_own g /\ (j = i -> own = cb_own c)) ->
    (forall j e, (j, e) ∈ g_own g -> j <> i \/ own = true -> (j, e) ∈ g_own g') -> (own = true -> cb_own c = true) ->
    exists s', cb_holders s i own kept = Ok s' /\ inv g' s' /\ ext [] g s g' s' /\ same_tab s s' /\
      (m_up (me s) = true -> g_xs g = [] -> path (fun κ => κ = KFree \/ κ = KCancel i \/ κ = KLet i /\ own = true /\ kept = false) s s').
  Proof.
    intros Hi Hc Ha Hno Gp Gx Gv Ga Gw Ho Ho1 Ho2. unfold cb_holders. rewrite Hc. simpl. destruct (own || kept) eqn:Eok.
    - eexists. split_and!; [done|..].
      + eapply (cb_flags k g g'); [done|done|..]; try done. all: rewrite ?Ga; try done.
      + by apply ext_cbs.
      + done.
      + intros _ _. eapply (path_one k _ (if kept then KFree else KLet i)); [|by apply (cbs_flags k s i c (Cbk (cb_el c) (cb_called c) own kept))].
        destruct kept; [by left|]. right; right. by destruct own.
    - destruct (cb_cancel_ends g s i c Hi Hc Ha) as (s1 & b & E1 & I1 & X1 & Hc1 & _ & ST & P1). rewrite E1. simpl.
      assert (inv (pin (cb_el c) g') (f_cbs s1 (delete i (m_cbs (me s1))))) as I2.
      { apply (cb_del k g g' s1 i _ I1 Hc1 (Hno eq_refl)); try done; [intros j e' Hj; by apply Ho|intros j e' Hj Hne; apply Ho1; [done|by left]]. }
      destruct (drop_ok k _ _ _ I2) as (E3 & I3 & X3). unfold f_cbs in *. rewrite E3.
      eexists. split_and!; [done|done|..].
      + eapply ext_trans0; [exact Hi|exact X1|]. eapply ext_trans0 with (g2 := pin (cb_el c) g'); [exact I1| |exact X3]. by apply ext_cbs.
      + eapply same_tab_trans; [exact ST|]. eapply same_tab_trans; [|apply f_dec_tab]. done.
      + intros Hup Hx. eapply path_trans; [eapply path_weaken; [|by apply P1]; intros κ [-> | ->]; auto|]. eapply path_trans; [eapply path_one; [by left|]; by eapply (cbs_delete k s1 i)|].
        eapply dec_path; [by left|exact I2|]. simpl. destruct ST as [_ ->]. by apply (i_up _ _ _ Hi).
  Qed.

  Lemma with_act_same g : with_act g (g_act g) = g.
  Proof. by destruct g. Qed.
  Lemma act_in g s i : inv g s -> inv (with_act g (i :: g_act g)) s.
  Proof. intros Hi. apply (inv_ghost k g); try done. intros j c Hj _ _ Hn. destruct Hn. by right. Qed.
  Lemma wait_act g l : g_wait (with_act g l) = g_wait g.
  Proof. done. Qed.
  Lemma only_cb g s i c : inv g s -> m_cbs (me s) !! i = Some c ->
    forall j d, m_cbs (me s) !! j = Some d -> cb_el d = cb_el c -> cb_called d = false -> j ∈ i :: g_act g.
  Proof. intros Hi Hc j d Hd He _. rewrite (i_inj _ _ _ Hi j i d c Hd Hc He). by left. Qed.
  (** marking the callback as called *)
  Lemma called_ends g s i c : inv (with_act g (i :: g_act g)) s -> m_cbs (me s) !! i = Some c ->
    let s' := f_cbs s (<[i := Cbk (cb_el c) true (cb_own c) (cb_kept c)]> (m_cbs (me s))) in
    inv g s' /\ ext [] (with_act g (i :: g_act g)) s g s'.
  Proof.
    intros Hi Hc. split.
    - eapply cb_flags; [exact Hi|exact Hc|..]; try done. simpl. intros j [?|?]%elem_of_cons ?; done.
    - by apply ext_cbs.
  Qed.

  Lemma f_assign_log s e ok : m_log (me (f_assign k s e ok)) = m_log (me s).
  Proof.
    rewrite f_assign_eq. unfold f_assign1, f_age, f_arefresh.
    destruct ok, (k_max_age k), (k_err_age k), (k_refresh k) as [[? idle]|]; try case_bool_decide; rewrite ?(proj1 (proj2 (proj2 (p_upd_me _ _ _)))); simpl; rewrite ?(proj1 (proj2 (proj2 (p_upd_me _ _ _)))); done.
  Qed.
  (** what a completion does, and when it does something *)
  Definition told (h : bool) (i : N) (v x : Z) (s s' : sta) (r : ret) : Prop :=
    (forall c, m_cbs (me s) !! i = Some c -> cb_called c = false -> h = true -> r = RetBool true) /\
    (r = RetBool true -> exists c el p, m_cbs (me s) !! i = Some c /\ cb_called c = false /\ m_els (me s) !! cb_el c = Some el /\ el_map el = MPend p /\
       m_log (me s') = calls v x (p_cbq p) ++ m_log (me s) /\
       m_cbs (me s') = <[i := Cbk (cb_el c) true (cb_own c) (cb_kept c)]> (m_cbs (me s))).
  (** the state after [cb_assign], if it has an effect *)
  Lemma cb_assign_ends δ g s i v us : inv g s -> i ∉ g_act g -> g_xs g = [] -> Forall (quiet δ) us ->
    exists s' r, cb_assign k s i v us = Ok (s', r) /\ inv g s' /\ ext [] g s g s' /\ (m_up (me s) = false -> same_tab s s') /\
      (m_up (me s) = true -> s' = s /\ r <> RetBool true \/ r = RetBool true /\ mini (KDone i (Some v) δ) s s') /\
      (m_up (me s) = true -> told (holds k s v) i v 0 s s' r).
  Proof.
    intros Hi Ha Gx Hus. unfold cb_assign. destruct (m_cbs (me s) !! i) as [c|] eqn:Hc.
    2: { eexists s, _. split_and!; [done|done|apply ext_refl|done|by left|]. intros _. split; [intros; congruence|done]. }
    destruct (cb_called c) eqn:Ecall. { eexists s, _. split_and!; [done|done|apply ext_refl|done|by left|]. intros _. split; [intros; congruence|done]. }
    destruct (m_up (me s)) eqn:Eup.
    2: { destruct (cb_cancel_ends g s i c Hi Hc Ha) as (s1 & b & E1 & I1 & X1 & _ & _ & ST & _). rewrite E1. simpl. eexists s1, _. done. }
    destruct (holds k s v). 2: { eexists s, _. split_and!; [done|done|apply ext_refl|done|by left|]. intros _. split; [intros; congruence|done]. }
    destruct (i_cb _ _ _ Hi i c Hc Ecall Ha) as (Hpr & el & Hel & Hpe).
    unfold is_pend, el_pending in Hpe. destruct (el_map el) as [p| | | | |] eqn:Em; try done.
    pose proof (act_in g s i Hi) as I0. set (g1 := with_act g (i :: g_act g)) in *.
    destruct (assign_stored k δ g1 s (cb_el c) v us el p) as (s1 & E1 & I1 & X1 & S1); try done.
    { intros j d Hd He Hcall. by eapply only_cb. }
    rewrite E1. simpl.
    destruct (i_pin _ _ _ Hi (cb_el c) el Hel) as [HeL|?]; [unfold is_pend, el_pending; by rewrite Em|done| |done].
    assert (LT g1 (cs s1) = LT g (cs s)) as EL. { unfold LT, a_tab. by rewrite (t_bs _ _ _ _ _ _ _ _ S1), (t_torn _ _ _ _ _ _ _ _ S1). }
    destruct (t_self _ _ _ _ _ _ _ _ S1) as (el0 & cn & Hel0 & _ & Hel1).
    destruct (assign_ends k g1 s1 (cb_el c) true _ I1 Hel1) as (E2 & I2 & X2).
    { by rewrite EL. }
    { rewrite (t_dq _ _ _ _ _ _ _ _ S1). intros Hd. apply (i_dnp _ _ _ Hi _ el Hd Hel). unfold is_pend, el_pending. by rewrite Em. }
    { unfold is_pend, el_pending; simpl. unfold settled, m_dead. destruct (p_exp p), (p_weak p), (k_pointer k); done. }
    rewrite E2. simpl.
    assert (m_cbs (me (f_assign k s1 (cb_el c) true)) = m_cbs (me s)) as Ecb.
    { rewrite <-(t_cbs _ _ _ _ _ _ _ _ S1). rewrite f_assign_eq. unfold f_assign1, f_age, f_arefresh.
      destruct (k_max_age k), (k_err_age k), (k_refresh k) as [[? idle]|]; try case_bool_decide;
        rewrite ?(proj1 (proj2 (p_upd_me _ _ _))); simpl; rewrite ?(proj1 (proj2 (p_upd_me _ _ _))); done. }
    rewrite Ecb, Hc. simpl.
    destruct (called_ends g (f_assign k s1 (cb_el c) true) i c I2) as [I3 X3]; [by rewrite Ecb|]. rewrite Ecb in I3, X3.
    eexists _, _. split_and!; [done|exact I3| |done| |]; [|intros _; right; split; [done|]|].
    - eapply ext_trans0 with (g2 := g1) (s2 := s); [done|eapply ext_ghost; [| |apply ext_refl]; done|].
      eapply ext_trans0; [exact I0|exact X1|]. eapply ext_trans0; [exact I1|exact X2|exact X3].
    - pose proof (i_up _ _ _ Hi Eup) as Ht. pose proof (done_mini k δ g1 s i c el p (Some v) 0%Z s1) as M. simpl in M. apply M; try done.
      unfold LT in HeL. rewrite Gx, (a_tab_None _ Ht) in HeL. done.
    - intros _. split; [done|]. intros _. exists c, el, p. split_and!; try done. simpl. rewrite f_assign_log. apply (t_log _ _ _ _ _ _ _ _ S1).
  Qed.

  Lemma cb_fail_ends δ g s i x us : inv g s -> i ∉ g_act g -> g_xs g = [] -> Forall (quiet δ) us ->
    exists s' r, cb_fail k s i x us = Ok (s', r) /\ inv g s' /\ ext [] g s g s' /\ (m_up (me s) = false -> same_tab s s') /\
      (m_up (me s) = true -> s' = s /\ r <> RetBool true \/ r = RetBool true /\ mini (KDone i None δ) s s') /\
      (m_up (me s) = true -> told true i 0 x s s' r).
  Proof.
    intros Hi Ha Gx Hus. unfold cb_fail. destruct (m_cbs (me s) !! i) as [c|] eqn:Hc.
    2: { eexists s, _. split_and!; [done|done|apply ext_refl|done|by left|]. intros _. split; [intros; congruence|done]. }
    destruct (cb_called c) eqn:Ecall. { eexists s, _. split_and!; [done|done|apply ext_refl|done|by left|]. intros _. split; [intros; congruence|done]. }
    destruct (m_up (me s)) eqn:Eup.
    2: { destruct (cb_cancel_ends g s i c Hi Hc Ha) as (s1 & b & E1 & I1 & X1 & _ & _ & ST & _). rewrite E1. simpl. eexists s1, _. done. }
    destruct (i_cb _ _ _ Hi i c Hc Ecall Ha) as (Hpr & el & Hel & Hpe).
    unfold is_pend, el_pending in Hpe. destruct (el_map el) as [p| | | | |] eqn:Em; try done.
    pose proof (act_in g s i Hi) as I0. set (g1 := with_act g (i :: g_act g)) in *.
    destruct (fail_stored k δ g1 s (cb_el c) x us el p) as (s1 & E1 & I1 & X1 & S1); try done.
    { intros j d Hd He Hcall. by eapply only_cb. }
    rewrite E1. simpl.
    destruct (i_pin _ _ _ Hi (cb_el c) el Hel) as [HeL|?]; [unfold is_pend, el_pending; by rewrite Em|done| |done].
    assert (LT g1 (cs s1) = LT g (cs s)) as EL. { unfold LT, a_tab. by rewrite (t_bs _ _ _ _ _ _ _ _ S1), (t_torn _ _ _ _ _ _ _ _ S1). }
    destruct (t_self _ _ _ _ _ _ _ _ S1) as (el0 & cn & Hel0 & _ & Hel1).
    destruct (assign_ends k g1 s1 (cb_el c) false _ I1 Hel1) as (E2 & I2 & X2).
    { by rewrite EL. }
    { rewrite (t_dq _ _ _ _ _ _ _ _ S1). intros Hd. apply (i_dnp _ _ _ Hi _ el Hd Hel). unfold is_pend, el_pending. by rewrite Em. }
    { unfold is_pend, el_pending; simpl. unfold m_settle_error, m_dead. destruct (p_exp p), (p_weak p), (k_pointer k); done. }
    rewrite E2. simpl.
    assert (m_cbs (me (f_assign k s1 (cb_el c) false)) = m_cbs (me s)) as Ecb.
    { rewrite <-(t_cbs _ _ _ _ _ _ _ _ S1). rewrite f_assign_eq. unfold f_assign1, f_age.
      destruct (k_max_age k), (k_err_age k), (k_refresh k) as [[? idle]|]; try case_bool_decide;
        rewrite ?(proj1 (proj2 (p_upd_me _ _ _))); simpl; rewrite ?(proj1 (proj2 (p_upd_me _ _ _))); done. }
    rewrite Ecb, Hc. simpl.
    destruct (called_ends g (f_assign k s1 (cb_el c) false) i c I2) as [I3 X3]; [by rewrite Ecb|]. rewrite Ecb in I3, X3.
    eexists _, _. split_and!; [done|exact I3| |done| |]; [|intros _; right; split; [done|]|].
    - eapply ext_trans0 with (g2 := g1) (s2 := s); [done|eapply ext_ghost; [| |apply ext_refl]; done|].
      eapply ext_trans0; [exact I0|exact X1|]. eapply ext_trans0; [exact I1|exact X2|exact X3].
    - pose proof (i_up _ _ _ Hi Eup) as Ht. pose proof (done_mini k δ g1 s i c el p (None) x s1) as M. simpl in M. apply M; try done.
      unfold LT in HeL. rewrite Gx, (a_tab_None _ Ht) in HeL. done.
    - intros _. split; [done|]. intros _. exists c, el, p. split_and!; try done. simpl. rewrite f_assign_log. apply (t_log _ _ _ _ _ _ _ _ S1).
  Qed.

  (** linking does not change the value *)
  Lemma f_assign_map s e ok el : m_els (me s) !! e = Some el -> exists el', m_els (me (f_assign k s e ok)) !! e = Some el' /\ el_map el' = el_map el.
  Proof.
    intros Hel. rewrite f_assign_eq. destruct (assign1_facts k s e ok) as (_ & _ & H). destruct (H el Hel) as (el1 & H1 & M1).
    destruct (k_refresh k) as [[d i]|]; [|by eauto]. destruct ok; [|by eauto]. unfold f_arefresh.
    case_bool_decide; simpl; rewrite ?p_upd_lookup, ?decide_True by done; simpl; rewrite ?p_upd_lookup, ?decide_True by done; rewrite H1; simpl; eexists; by split.
  Qed.
  Lemma link_self g s e el h : inv g s -> a_torn (cs s) = None -> e ∉ LT g (cs s) -> m_els (me s) !! e = Some el ->
    exists el', m_els (me (f_link k s h e)) !! e = Some el' /\ el_map el' = el_map el.
  Proof.
    intros Hi Ht Hn Hel. destruct (mrehash_ends k g s Hi Ht) as ((E1 & I1 & X1) & T1 & B1).
    assert (e ∉ concat (a_bs (cs s))) as Hnc. { intros Hc. apply Hn. by apply tab_LT. }
    assert (m_els (me (f_mrehash k s)) !! e = Some el) as Hel1 by (by rewrite f_mrehash_els).
    assert (m_els (me (f_create k (f_mrehash k s) h e)) !! e = Some el) as Hel2.
    { apply f_create_self; [done|]. pose proof (i_q _ _ _ I1) as Hq. destruct (has_queue k); rewrite Hq; [|by apply not_elem_of_nil].
      unfold LT in *. rewrite (a_tab_None _ T1). rewrite (a_tab_None _ Ht) in Hn. rewrite elem_of_app in *.
      intros [H|H%f_mrehash_sub]; apply Hn; eauto. }
    unfold f_link. destruct (pends _ _); [by eauto|]. by apply f_assign_map.
  Qed.
  (** ** Synchronous resolvers *)
  Definition rok (out : outcome) : Prop := match out with RCtor => False | _ => True end.
  (** the outcome stored by [resolve_sync] *)
  Definition out_map (s : sta) (out : outcome) : mapped :=
    match out with
    | ROk v => if holds k s v then MVal v else MErr 1
    | RThrow x => MErr x
    | RCtor => MNone
    end.
  Lemma assign_new s e v el : m_els (me s) !! e = Some el -> el_map el = MPend pend_init ->
    el_assign k s e v [] = Ok (Some (p_upd s e (fun el => with_map el (MVal v)))).
  Proof.
    intros He Hm. unfold el_assign, s_el, rd_el. rewrite He. simpl. rewrite Hm. unfold s_upd, upd_el, rd_el. rewrite He. simpl.
    unfold s_el, rd_el. simpl. rewrite lookup_insert. simpl. rewrite settle_eq. simpl. unfold p_upd. rewrite He.
    unfold with_me, wr_el, set_els; simpl. by rewrite insert_insert.
  Qed.
  Lemma fail_new s e x el : m_els (me s) !! e = Some el -> el_map el = MPend pend_init ->
    el_fail k s e x [] = Ok (p_upd s e (fun el => with_map el (MErr x))).
  Proof.
    intros He Hm. unfold el_fail, s_el, rd_el. rewrite He. simpl. rewrite Hm. simpl. unfold s_el, rd_el. rewrite He. simpl. rewrite Hm.
    unfold s_upd, upd_el, rd_el. rewrite He. simpl. unfold p_upd. by rewrite He.
  Qed.
  (** after the resolver has returned: [s1], a state in which element [e] is still unknown to others *)
  Definition f_rsync (s : sta) (e : N) (h : N) (out : outcome) : sta :=
    f_link k (p_inc (p_upd s e (fun el => with_map el (out_map s out))) e) h e.
  Lemma resolve_sync_ends W g s key u out B : inv g s -> m_up (me s) = true -> g_xs g = [] -> g_act g = [] -> safe W B u -> rok out -> J s ->
    k_resolver k = RSync ->
    exists s1 s', u (s_log (f_alloc s key (MPend pend_init)) (EvResolve key)) = Ok s1 /\
      resolve_sync k s (k_hash k key) key u out = Ok (s', m_nxt (me s)) /\ s' = f_rsync s1 (m_nxt (me s)) (k_hash k key) out /\
      inv (pin (m_nxt (me s)) g) s' /\ ext W g s (pin (m_nxt (me s)) g) s' /\
      (exists el, m_els (me s1) !! m_nxt (me s) = Some el /\ el_map el = MPend pend_init /\ el_key el = key) /\
      m_nxt (me s) ∈ concat (a_bs (cs s')) /\ a_torn (cs s') = None /\
      (exists el, m_els (me s') !! m_nxt (me s) = Some el /\ ~ is_pend el /\ el_key el = key /\ el_map el = out_map s1 out) /\
      (forall cl, fits k s (m_nxt (me s)) key cl ->
        (cl <> HAny -> forall key' c o, B (KEnter key' c o) -> ~ (k_hash k key' = k_hash k key /\ k_eq k key' key = true)) ->
        exists s2, path (upto (fun κ => κ = KFree \/ B κ) (m_ncb (me s))) s s1 /\ path (fun κ => κ = KFree) s1 s2 /\ mini (KEnter key cl (val_of (out_map s1 out))) s2 s') /\
      (forall (A : kind -> Prop) cl, A KFree -> (forall κ, B κ -> A κ) -> A (KEnter key cl None) -> (forall v, out = ROk v -> A (KEnter key cl (Some v))) ->
        fits k s (m_nxt (me s)) key cl ->
        (cl <> HAny -> forall key' c o, B (KEnter key' c o) -> ~ (k_hash k key' = k_hash k key /\ k_eq k key' key = true)) ->
        path (upto A (m_ncb (me s))) s s').
  Proof.
    intros Hi Hup Gx Ga Hu Hok HJ Hres. unfold resolve_sync. set (e := m_nxt (me s)).
    destruct (alloc_priv k g s key Hi) as (E1 & I1 & X1). rewrite E1. simpl rbind. fold e in I1, X1 |- *.
    set (s0 := f_alloc s key (MPend pend_init)) in *. set (g1 := with_priv g (e :: g_priv g)) in *.
    assert (inv g1 (s_log s0 (EvResolve key))) as I1' by (by apply inv_log).
    assert (ext [] g1 s0 g1 (s_log s0 (EvResolve key))) as X1' by (apply ext_log; intros w; simpl; lia).
    pose proof (i_up _ _ _ Hi Hup) as Ht.
    assert (path (fun κ => κ = KFree) s (s_log s0 (EvResolve key))) as P0.
    { eapply path_trans; [by eapply (alloc_path k _ g s)|]. by apply log_path. }
    destruct (Hu g1 (s_log s0 (EvResolve key))) as (s1 & E2 & I2 & X2 & P1); try done. { by eapply path_J. }
    rewrite E2. simpl rbind.
    assert (m_els (me s0) !! e = Some (fresh_el key (MPend pend_init))) as Hel0 by apply f_alloc_self.
    destruct (i_priv _ _ _ I2 e) as (HnL & el & Hel & Hm & Hbl); [by left|].
    assert (m_up (me s1) = true) as Hup1 by (rewrite (x_up _ _ _ _ _ X2); done).
    assert (el_key el = key) as Hkey.
    { destruct (x_el _ _ _ _ _ X2 e (fresh_el key (MPend pend_init)) el) as [-> _]; done. }
    set (m := out_map s1 out).
    assert (forall i c, m_cbs (me s1) !! i = Some c -> cb_el c = e -> cb_called c = false -> i ∈ g_act g1) as Hcb.
    { intros i c Hc Ee Hcall. destruct (i_cb _ _ _ I2 i c Hc Hcall) as [Hn _]; [simpl; by rewrite Ga; apply not_elem_of_nil|].
      destruct Hn. simpl. rewrite Ee. by left. }
    assert (match out with
          | ROk v => if holds k s1 v then o <- el_assign k s1 e v [];; match o with Some s => Ok s | None => el_fail k s1 e 1 [] end else el_fail k s1 e 1 []
          | RThrow x => el_fail k s1 e x [] | RCtor => Term end = Ok (p_upd s1 e (fun el => with_map el m))) as ->.
    { unfold m, out_map. destruct out as [v|x|]; [|by eapply fail_new|done].
      destruct (holds k s1 v); [|by eapply fail_new]. by erewrite assign_new. }
    simpl rbind.
    assert (m_pending m = false) as Hmp. { unfold m, out_map. destruct out; [by destruct (holds k s1 v)|done|done]. }
    assert (inv (pin e g) (p_upd s1 e (fun el => with_map el m))) as I3.
    { unfold p_upd. rewrite Hel. assert (pin e g = pin e (with_priv g1 (g_priv g))) as -> by (by destruct g).
      eapply inv_unpriv; [exact I2|done|exact Hel|done|done| | |done].
      - done.
      - unfold m, out_map. destruct out; [by destruct (holds k s1 v)|done|done]. }
    assert (ext [] g1 s1 (pin e g) (p_upd s1 e (fun el => with_map el m))) as X3.
    { unfold p_upd. rewrite Hel. apply (ext_upd [] _ _ _ _ el); try done.
      - unfold is_pend, el_pending; simpl. by rewrite Hmp.
      - intros w. unfold el_waits; simpl. rewrite Hm. simpl. assert (cbq_of m = []) as -> by (by destruct m). unfold waits_of; simpl. rewrite cnt_nil. lia. }
    set (s2 := p_upd s1 e (fun el => with_map el m)) in *.
    assert (m_els (me s2) !! e = Some (with_map el m)) as Hel2. { unfold s2. rewrite p_upd_lookup, decide_True by done. by rewrite Hel. }
    destruct (inc_ends k (pin e g) s2 e I3) as (E4 & I4 & X4); [eauto|]. rewrite E4. simpl rbind.
    assert (m_els (me (p_inc s2 e)) !! e = Some (with_rc (with_map el m) (S (el_rc el)))) as Hel3.
    { unfold p_inc. rewrite p_upd_lookup, decide_True by done. by rewrite Hel2. }
    assert (cs (p_inc s2 e) = cs s1) as Ecs. { unfold p_inc, s2. by rewrite !p_upd_cs. }
    destruct (link_ends k (pin e (pin e g)) (pin e g) (p_inc s2 e) e _ I4 Hel3) as ((E5 & I5 & X5) & T5 & H5).
    { rewrite Ecs. by apply (i_up _ _ _ I2). }
    { rewrite Ecs. exact HnL. }
    { eapply handed_pin; [done|]. exact (nxt_not_priv _ _ _ Hi). }
    simpl in E5, I5, X5, T5, H5. rewrite Hkey in E5, I5, X5, T5, H5.
    assert (forall cl, fits k s e key cl ->
        (cl <> HAny -> forall key' c o, B (KEnter key' c o) -> ~ (k_hash k key' = k_hash k key /\ k_eq k key' key = true)) ->
        exists s3, path (upto (fun κ => κ = KFree \/ B κ) (m_ncb (me s))) s s1 /\ path (fun κ => κ = KFree) s1 s3 /\
          mini (KEnter key cl (val_of m)) s3 (f_link k (p_inc s2 e) (k_hash k key) e)) as Henter.
    { intros cl Hfit Hno.
      assert (path (upto (fun κ => κ = KFree \/ B κ) (m_ncb (me s))) s s1) as P01.
      { eapply path_trans; [eapply path_weaken; [|exact P0]; by intros κ ->; left; left|]. eapply upto_path; [| |exact P1]; [by right|]. simpl. lia. }
      assert (fits k s1 e key cl) as Hfit1.
      { eapply (path_fits k (upto B (m_ncb (me s)))); [| |eapply (path_fits k (fun κ => κ = KFree)); [|exact P0|exact Hfit]].
        - intros Hcl key' c o [HB|(? & ? & _)]; [by eapply Hno|done].
        - exact P1.
        - done. }
      assert (e ∉ tab s1) as Hnt. { intros Hin. apply HnL. apply tab_LT; [|done]. by apply (i_up _ _ _ I2). }
      assert (path (fun κ => κ = KFree) s1 (p_inc s2 e)) as P12.
      { eapply path_trans; [apply (path_one k _ KFree s1 s2); [done|by apply mini_upd_out]|]. by apply path_inc. }
      assert (with_rc (with_map el m) (S (el_rc el)) = with_rc (newborn key m) (S (el_rc el))) as Enew.
      { destruct Hbl as (B1 & B2 & B3 & B4 & B5). destruct el. simpl in *. unfold newborn, with_rc, with_map; simpl. by subst. }
      destruct (link_enter k (pin e (pin e g)) (p_inc s2 e) e key m (S (el_rc el)) cl) as (s3 & Q & M); try done.
      + rewrite Ecs. by apply (i_up _ _ _ I2).
      + rewrite Hel3. by rewrite Enew.
      + rewrite Ecs. exact HnL.
      + unfold m, out_map. destruct out as [v|x|]; [destruct (holds k s1 v)|..]; done.
      + rewrite Hres. done.
      + by eapply free_fits; [exact P12|].
      + exists s3. split_and!; [done| |exact M]. by eapply path_trans. }
    rewrite E5. simpl. exists s1, (f_link k (p_inc s2 e) (k_hash k key) e). split_and!; try done.
    - eapply ext_trans0; [exact Hi|exact X1|]. eapply ext_trans0; [exact I1|exact X1'|]. eapply ext_trans1; [exact I1'|exact X2|].
      eapply ext_trans0; [exact I2|exact X3|]. eapply ext_trans0; [exact I3|exact X4|exact X5].
    - eauto.
    - destruct (i_tab _ _ _ I5 e) as [el5 Hel5]; [by apply tab_LT|]. exists el5. split; [done|].
      destruct (x_el _ _ _ _ _ X5 e _ el5 Hel3 Hel5) as [Ek Hnp]. split_and!; [|by rewrite Ek|].
      + apply Hnp. unfold is_pend, el_pending; simpl. by rewrite Hmp.
      + destruct (link_self (pin e (pin e g)) (p_inc s2 e) e (with_rc (with_map el m) (S (el_rc el))) (k_hash k key)) as (el6 & E6 & M6); try done.
        * rewrite Ecs. by apply (i_up _ _ _ I2).
        * rewrite Ecs. exact HnL.
        * by replace el5 with el6 by congruence.
    - intros A cl H1 H2 H3 H4 Hfit Hno. destruct (Henter cl Hfit Hno) as (s3 & Q1 & Q2 & Q3).
      eapply path_trans; [eapply upto_path; [|apply N.le_refl|exact Q1]; by intros κ [->|?]; [|apply H2]|].
      eapply path_trans; [eapply path_weaken; [|exact Q2]; by intros κ ->; left|]. eapply path_one; [|exact Q3].
      left. unfold m, out_map. destruct out as [v|x|]; simpl; [destruct (holds k s1 v); simpl; eauto|done|done].
  Qed.

  (** ** Asynchronous resolvers *)
  Lemma link_self_pend g s e el h : inv g s -> a_torn (cs s) = None -> e ∉ LT g (cs s) -> m_els (me s) !! e = Some el -> is_pend el ->
    m_els (me (f_link k s h e)) !! e = Some el.
  Proof.
    intros Hi Ht Hn Hel Hp. destruct (mrehash_ends k g s Hi Ht) as ((E1 & I1 & X1) & T1 & B1).
    assert (e ∉ concat (a_bs (cs s))) as Hnc. { intros Hc. apply Hn. by apply tab_LT. }
    assert (m_els (me (f_mrehash k s)) !! e = Some el) as Hel1 by (by rewrite f_mrehash_els).
    assert (m_els (me (f_create k (f_mrehash k s) h e)) !! e = Some el) as Hel2.
    { apply f_create_self; [done|]. pose proof (i_q _ _ _ I1) as Hq. destruct (has_queue k); rewrite Hq; [|by apply not_elem_of_nil].
      unfold LT in *. rewrite (a_tab_None _ T1). rewrite (a_tab_None _ Ht) in Hn. rewrite elem_of_app in *.
      intros [H|H%f_mrehash_sub]; apply Hn; eauto. }
    unfold f_link, pends. rewrite Hel2. unfold is_pend in Hp. by rewrite Hp.
  Qed.

  (** the state just before the resolver is called *)
  Definition f_apre (s : sta) (key : Z) : sta :=
    let e := m_nxt (me s) in
    let i := m_ncb (me s) in
    let s := p_inc (f_alloc s key (MPend pend_init)) e in
    let s := with_me s (set_ncb (set_cbs (me s) (<[i := Cbk e false true true]> (m_cbs (me s)))) (N.succ i)) in
    f_link k (p_inc s e) (k_hash k key) e.
  Definition owning (i e : N) (g : gh) : gh := with_own g ((i, e) :: g_own g).
  Lemma apre_ends g s key : inv g s -> a_torn (cs s) = None -> g_act g = [] ->
    let e := m_nxt (me s) in let i := m_ncb (me s) in
    inv (pin e (owning i e g)) (f_apre s key) /\ ext [] g s (pin e (owning i e g)) (f_apre s key) /\
    a_torn (cs (f_apre s key)) = None /\ e ∈ concat (a_bs (cs (f_apre s key))) /\
    m_els (me (f_apre s key)) !! e = Some (with_rc (fresh_el key (MPend pend_init)) 3) /\
    (g_xs g = [] -> k_resolver k = RAsync -> forall (A : kind -> Prop) cl, A KFree -> A (KEnter key cl None) -> fits k s e key cl ->
      path A s (f_apre s key)) /\
    (g_xs g = [] -> k_resolver k = RAsync -> owned (f_apre s key) i e) /\
    forall u keep throw, resolve_async k s (k_hash k key) key u keep throw =
      (s <- u (s_log (f_apre s key) (EvResolve key));;
       c <- deref (m_cbs (me s) !! i);;
       s <- cb_holders s i false (cb_kept c && keep);;
       if throw then s <- drop_ref s e;; Ok (s, None) else Ok (s, Some e)).
  Proof.
    intros Hi Ht Ga e i. unfold resolve_async, f_apre. fold e i.
    destruct (alloc_priv k g s key Hi) as (E1 & I1 & X1). fold e in I1, X1.
    set (s0 := f_alloc s key (MPend pend_init)) in *. set (g1 := with_priv g (e :: g_priv g)) in *.
    assert (m_els (me s0) !! e = Some (fresh_el key (MPend pend_init))) as Hel0 by apply f_alloc_self.
    destruct (inc_ends k g1 s0 e I1) as (E2 & I2 & X2); [eauto|].
    assert (m_els (me (p_inc s0 e)) !! e = Some (with_rc (fresh_el key (MPend pend_init)) 2)) as Hel1.
    { unfold p_inc. rewrite p_upd_lookup, decide_True by done. by rewrite Hel0. }
    destruct (p_upd_me s0 e (fun el => with_rc el (S (el_rc el)))) as (_ & Em2 & _ & _ & Em3 & _). fold (p_inc s0 e) in Em2, Em3.
    assert (ncbs (m_cbs (me (p_inc s0 e))) e = 0) as Hz.
    { destruct (i_rc _ _ _ I2 e _ Hel1) as [Er _]. simpl in Er. rewrite !cnt_cons, decide_True in Er by done. lia. }
    destruct (cb_new k g1 (p_inc s0 e) e I2 Hz) as [I3 X3].
    assert (m_ncb (me (p_inc s0 e)) = i) as Ei by (rewrite Em3; done). rewrite Ei in I3, X3.
    set (s3 := with_me (p_inc s0 e) _) in *.
    set (g3 := with_own (with_act g1 (i :: g_act g1)) ((i, e) :: g_own g1)) in *.
    assert (m_els (me s3) !! e = Some (with_rc (fresh_el key (MPend pend_init)) 2)) as Hel3 by done.
    destruct (inc_ends k g3 s3 e I3) as (E4 & I4 & X4); [eauto|].
    set (s4 := p_inc s3 e) in *.
    assert (m_els (me s4) !! e = Some (with_rc (fresh_el key (MPend pend_init)) 3)) as Hel4.
    { unfold s4, p_inc. rewrite p_upd_lookup, decide_True by done. by rewrite Hel3. }
    assert (cs s4 = cs s0) as Ecs. { unfold s4, p_inc at 1. rewrite p_upd_cs. apply p_upd_cs. }
    set (gc := pin e (with_own (with_act g (i :: g_act g)) ((i, e) :: g_own g))).
    assert (pin e g3 = with_priv gc (e :: g_priv gc)) as Eg by done.
    assert (e ∉ LT (pin e g3) (cs s4)) as HnL4.
    { rewrite Ecs. exact (nxt_not_LT _ _ _ Hi). }
    assert (a_torn (cs s4) = None) as Ht4 by (rewrite Ecs; done).
    rewrite Eg in I4.
    destruct (link_ends k _ (with_priv gc (g_priv gc)) s4 e _ I4 Hel4 Ht4 HnL4) as ((E5 & I5 & X5) & T5 & H5).
    { eapply handed_priv. exact I4. }
    pose proof (link_self_pend _ s4 e _ (k_hash k key) I4 Ht4 HnL4 Hel4 eq_refl) as Hel5.
    simpl in E5, I5, X5, T5, H5. change (with_priv gc (g_priv gc)) with gc in *.
    assert (inv (pin e (owning i e g)) (f_link k s4 (k_hash k key) e)) as I6.
    { apply (inv_ghost k gc); try done. simpl. intros j c Hj Hc _ _. rewrite Ga in Hj. apply elem_of_list_singleton in Hj as ->.
      destruct (i_own _ _ _ I5 i e) as (c' & Hc' & _ & Ee); [by left|]. assert (c' = c) as -> by congruence. rewrite Ee.
      split; [exact (nxt_not_priv _ _ _ Hi)|]. eexists. by split; [exact Hel5|]. }
    assert (k_resolver k = RAsync -> path (fun κ => κ = KFree) s s4) as P4'.
    { intros Hr. eapply path_trans; [by eapply (alloc_path k _ g s)|]. fold s0. eapply path_trans; [by apply (path_inc k _ s0 e)|].
      eapply path_trans; [|by apply (path_inc k _ s3 e)]. eapply (path_one k _ KFree); [done|].
      pose proof (cbs_new k (p_inc s0 e) e true true Hr) as M. rewrite Ei in M. apply M. apply eq_None_not_Some. intros Hs. pose proof (i_ncb _ _ _ I2 i Hs). rewrite <-Ei in *. simpl in *. lia.
      { apply tv_none. unfold tab, p_inc. rewrite p_upd_cs. intros Hx. apply (nxt_not_LT _ _ _ Hi). by apply tab_LT. }
      unfold p_inc. destruct (p_upd_me s0 e (fun el => with_rc el (S (el_rc el)))) as (_ & -> & _). intros j d Hj Ed.
      pose proof (i_rc0 _ _ _ Hi e (nxt_fresh k _ _ Hi)) as Hz0. apply (proj1 (ncbs_zero (m_cbs (me s)) e)) with (i := j) (c := d); [lia|done|done]. }
    split_and!; try done.
    - eapply ext_trans0; [exact Hi|exact X1|]. eapply ext_trans0; [exact I1|exact X2|]. eapply ext_trans0; [exact I2|exact X3|].
      eapply ext_trans0; [exact I3|exact X4|]. eapply ext_ghost; [| |exact X5]; done.
    - intros Gx Hr A cl HA1 HA2 Hfit. pose proof (P4' Hr) as P4.
      eapply path_trans; [eapply path_weaken; [|exact P4]; by intros κ ->|].
      apply (link_path k A _ s4 e key (MPend pend_init) 3 cl I4); try done.
      + split_and!; [done|done|]. exists i, (Cbk e false true true). split; [|done]. unfold s4, p_inc.
        destruct (p_upd_me s3 e (fun el => with_rc el (S (el_rc el)))) as (_ & -> & _). simpl. by rewrite lookup_insert.
      + intros _. eapply free_newest; [exact P4|]. by eapply fresh_newest.
      + by eapply free_fits.
    - intros Gx Hr. apply (path_owned k (fun κ => κ = KFree \/ κ = KEnter key HAny None) s4); [| |by intros [?|?]|by intros [?|?]|].
      + apply (link_path k (fun κ => κ = KFree \/ κ = KEnter key HAny None) _ s4 e key (MPend pend_init) 3 HAny I4); try done; try (by left); try (by right).
        * split_and!; [done|done|]. exists i, (Cbk e false true true). split; [|done]. unfold s4, p_inc.
          destruct (p_upd_me s3 e (fun el => with_rc el (S (el_rc el)))) as (_ & -> & _). simpl. by rewrite lookup_insert.
        * intros _. eapply free_newest; [exact (P4' Hr)|]. by eapply fresh_newest.
      + destruct (i_own _ _ _ I5 i e) as (c' & Hc' & _); [by left|]. eauto.
      + unfold owned, s4, p_inc. destruct (p_upd_me s3 e (fun el => with_rc el (S (el_rc el)))) as (_ & -> & _ & _ & -> & _). simpl. rewrite lookup_insert. split_and!.
        * eexists. split; [done|]. split_and!; [done|done|by left].
        * intros j d [[<- _]|[_ Hj]]%lookup_insert_Some Ed; [done|]. by destruct (proj1 (ncbs_zero _ _) Hz j d Hj).
        * lia.
    - intros u keep throw. rewrite E1. simpl rbind. change (m_ncb (me s0)) with i. fold e i. rewrite E2. simpl rbind.
      unfold s3, s4 in *. fold e i in E4, E5 |- *. rewrite E4. simpl rbind. rewrite E5. done.
  Qed.
  Lemma resolve_async_ends W g s key u keep throw B : inv g s -> m_up (me s) = true -> g_xs g = [] -> g_act g = [] -> safe W B u -> J s -> k_resolver k = RAsync ->
    exists s', resolve_async k s (k_hash k key) key u keep throw = Ok (s', if throw then None else Some (m_nxt (me s))) /\
      (exists l, m_log (me s') = l ++ EvResolve key :: m_log (me (f_apre s key))) /\
      (if throw then inv g s' /\ ext W g s g s'
       else inv (pin (m_nxt (me s)) g) s' /\ ext W g s (pin (m_nxt (me s)) g) s' /\
         exists el, m_els (me s') !! m_nxt (me s) = Some el /\ el_key el = key /\
           (is_pend el \/ exists i o δ, B (KDone i o δ) /\ (m_ncb (me s) <= i)%N)) /\
      (forall (A : kind -> Prop) cl, A KFree -> (forall κ, B κ -> A κ) -> A (KEnter key cl None) -> fits k s (m_nxt (me s)) key cl ->
        path (upto A (m_ncb (me s))) s s') /\
      (throw = false -> exists sl el, path (fun κ => κ = KFree \/ κ = KEnter key HAny None) s sl /\ tv sl (m_nxt (me s)) = Some el /\ el_pending el = true /\
        path (upto (fun κ => κ = KFree \/ B κ) (m_ncb (me s))) sl s') /\
      (throw = false -> keep = true -> (forall j, ~ B (KCancel j) /\ ~ B (KLet j)) -> forall el, m_els (me s') !! m_nxt (me s) = Some el -> is_pend el -> has_cb s' (m_nxt (me s))).
  Proof.
    intros Hi Hup Gx Ga Hu HJ Hr. pose proof (i_up _ _ _ Hi Hup) as Ht.
    destruct (apre_ends g s key Hi Ht Ga) as (I1 & X1 & T1 & H1 & Hel1 & P1 & O1 & ->).
    set (e := m_nxt (me s)) in *. set (i := m_ncb (me s)) in *. set (s1 := f_apre s key) in *. set (g1 := pin e (owning i e g)) in *.
    destruct (Hu g1 (s_log s1 (EvResolve key))) as (s2 & E2 & I2 & X2 & P2); try done.
    { simpl. rewrite (x_up _ _ _ _ _ X1). done. }
    { by apply inv_log. }
    { eapply (path_J k (fun _ => True)); [|exact HJ]. eapply path_trans; [|by apply log_path]. by apply (P1 Gx Hr _ HAny). }
    rewrite E2. simpl rbind. destruct (i_own _ _ _ I2 i e) as (c & Hc & Hc1 & Hc2); [by left|]. rewrite Hc. simpl rbind.
    assert (forall x, (i, x) ∉ g_own g) as Hfr.
    { intros x Hx. destruct (i_own _ _ _ Hi _ _ Hx) as (d & Hd & _). assert (i < m_ncb (me s))%N as Hl by (apply (i_ncb _ _ _ Hi); eauto). unfold i in Hl. lia. }
    destruct (cb_holders_ends g1 (pin e g) s2 i c false (cb_kept c && keep) I2 Hc) as (s3 & E3 & I3 & X3 & _ & P3); try done.
    { simpl. rewrite Ga. apply not_elem_of_nil. }
    { simpl. intros j x Hj. split; [by right|]. intros ->. by apply Hfr in Hj. }
    { simpl. intros j x Hj [Hne|?]; [|done]. apply elem_of_cons in Hj as [[= -> ->]|Hj]; done. }
    rewrite E3. simpl rbind.
    assert (ext W g s (pin e g) s3) as X.
    { eapply ext_trans0; [exact Hi|exact X1|]. eapply ext_trans0 with (g2 := g1) (s2 := s_log s1 (EvResolve key)); [exact I1|apply ext_log; intros w; simpl; lia|].
      eapply ext_trans1; [by apply inv_log|exact X2|]. exact X3. }
    assert (exists l, m_log (me s3) = l ++ EvResolve key :: m_log (me s1)) as L3.
    { destruct (x_log _ _ _ _ _ X2) as [l2 L2]. destruct (x_log _ _ _ _ _ X3) as [l3 L3]. exists (l3 ++ l2). rewrite L3, L2. by rewrite <-app_assoc. }
    assert (m_up (me s2) = true) as Hup2. { rewrite (x_up _ _ _ _ _ X2). simpl. by rewrite (x_up _ _ _ _ _ X1). }
    assert (keep = true -> (forall j, ~ B (KCancel j) /\ ~ B (KLet j)) -> forall el, m_els (me s3) !! e = Some el -> is_pend el -> has_cb s3 e) as Hcb3.
    { intros -> HnB el3 Hel3 Hpd3.
      assert (owned (s_log s1 (EvResolve key)) i e) as O2 by exact (O1 Gx Hr).
      destruct (path_owned k _ _ s2 i e P2) as ((c2 & Hc2' & Ee2 & Hk2 & Hor) & _ & _); [eauto|..|done|].
      { intros [HB|(j & [= <-] & Hj)]; [by destruct (HnB i)|]. destruct O2 as (_ & _ & ?). lia. }
      { intros [HB|(j & ? & Hj)]; [by destruct (HnB i)|done]. }
      assert (c2 = c) as -> by congruence. rewrite Hk2 in E3. unfold cb_holders in E3. rewrite Hc in E3. simpl in E3. injection E3 as <-.
      simpl in Hel3. destruct Hor as [Hor|Hor].
      - exists i. eexists. split; [simpl; by rewrite lookup_insert|]. done.
      - exfalso. destruct (i_pin _ _ _ I2 e el3 Hel3 Hpd3 Hup2) as [HL|HL]; [|by apply (nxt_not_priv _ _ _ Hi)].
        assert (el_pending (with_rc el3 0) = false) as Hf; [|change (el_pending el3 = false) in Hf; unfold is_pend in Hpd3; congruence].
        apply Hor. apply tv_some; [|done]. unfold LT in HL. simpl in HL. rewrite Gx, (a_tab_None _ (i_up _ _ _ I2 Hup2)) in HL. done. }
    assert (forall (A : kind -> Prop) cl, A KFree -> (forall κ, B κ -> A κ) -> A (KEnter key cl None) -> fits k s e key cl ->
        path (upto A i) s s3) as P.
    { intros A cl HA1 HA2 HA3 Hfit. eapply path_trans; [by apply (P1 Gx Hr _ cl); try done; left|].
      eapply path_trans; [apply (log_path k _ s1 (EvResolve key)); [done|by left]|].
      eapply path_trans; [eapply upto_path; [exact HA2| |exact P2]|].
      { simpl. pose proof (x_ncb _ _ _ _ _ X1). done. }
      eapply path_weaken; [|by apply P3]. intros κ [-> |[-> |(-> & [=] & _)]]; [by left|]. right. exists i. done. }
    assert (exists sl el, path (fun κ => κ = KFree \/ κ = KEnter key HAny None) s sl /\ tv sl e = Some el /\ el_pending el = true /\ path (upto (fun κ => κ = KFree \/ B κ) i) sl s3) as Q.
    { exists s1, (with_rc (with_rc (fresh_el key (MPend pend_init)) 3) 0). split_and!; [apply (P1 Gx Hr _ HAny); try done; auto|by apply tv_some|done|].
      eapply path_trans; [apply (log_path k _ s1 (EvResolve key)); [done|by left; left]|]. eapply path_trans; [eapply upto_path; [| |exact P2]; [by right|]|].
      { simpl. pose proof (x_ncb _ _ _ _ _ X1). done. }
      eapply path_weaken; [|by apply P3]. intros κ [-> |[-> |(-> & [=] & _)]]; [by left; left|]. right. exists i. done. }
    destruct throw.
    2: { exists s3. split_and!; try done. destruct (pinned_dom k _ _ e I2) as [e2 He2]; [by left|]. destruct (pinned_dom k _ _ e I3) as [e3 He3]; [by left|].
         exists e3. split; [done|]. destruct (x_el _ _ _ _ _ X3 e _ _ He2 He3) as [-> _].
         destruct (x_el _ _ _ _ _ X2 e (with_rc (fresh_el key (MPend pend_init)) 3) _ Hel1 He2) as [-> _]. split; [done|].
         destruct (path_pending k (upto (fun κ => κ = KFree \/ B κ) i) i (s_log s1 (EvResolve key)) s3 e) as [(el' & T3 & Hp3)|(j & o & δ & [[?|HB]|(? & ? & _)] & Hj)]; try done.
         - eapply path_trans; [eapply upto_path; [| |exact P2]; [by right|]|].
           { simpl. pose proof (x_ncb _ _ _ _ _ X1). done. }
           eapply path_weaken; [|by apply P3]. intros κ [-> |[-> |(-> & [=] & _)]]; [by left; left|]. right. exists i. done.
         - simpl. pose proof (x_ncb _ _ _ _ _ X1). done.
         - simpl. intros j d Hd Ee. destruct (i_own _ _ _ I1 i e) as (c1 & Hc1' & _ & Ee1); [by left|].
           assert (j = i) as ->; [|done]. apply (i_inj _ _ _ I1 j i d c1); congruence.
         - exists (with_rc (with_rc (fresh_el key (MPend pend_init)) 3) 0). split; [|done]. by apply tv_some.
         - left. apply tv_elim in T3 as (_ & e0 & He0 & ->). rewrite He3 in He0. by injection He0 as <-.
         - right. eauto. }
    destruct (drop_ok k _ _ _ I3) as (E4 & I4 & X4). rewrite E4. simpl. eexists. split_and!; [done| |done|by eapply ext_trans1| |done|done].
    { destruct L3 as [l3 L3]. destruct (x_log _ _ _ _ _ X4) as [l4 L4]. exists (l4 ++ l3). rewrite L4, L3. by rewrite <-app_assoc. }
    intros A cl HA1 HA2 HA3 Hfit. eapply path_trans; [by apply (P A cl)|]. eapply dec_path; [by left|exact I3|].
    apply (i_up _ _ _ I3). by rewrite (x_up _ _ _ _ _ X3).
  Qed.

  (** ** Lookups *)
  Definition adds (w : N) (g : gh) (s : sta) (g' : gh) (s' : sta) : Prop :=
    forall x, wtot g s x + cnt x [w] <= wtot g' s' x.
  Lemma adds_ext W w g1 s1 g2 s2 g3 s3 : adds w g1 s1 g2 s2 -> ext W g2 s2 g3 s3 -> adds w g1 s1 g3 s3.
  Proof. intros H X x. specialize (H x). pose proof (x_wait _ _ _ _ _ X x). lia. Qed.
  Lemma ext_adds W w g1 s1 g2 s2 g3 s3 : ext W g1 s1 g2 s2 -> adds w g2 s2 g3 s3 -> adds w g1 s1 g3 s3.
  Proof. intros X H x. specialize (H x). pose proof (x_wait _ _ _ _ _ X x). lia. Qed.
  Lemma adds_log w g s v : (forall x, ev_done x v = cnt x [w]) -> adds w g s g (s_log s v).
  Proof. intros E x. unfold wtot. simpl. rewrite E. lia. Qed.
  Lemma finish_ends W g s w e r uc el B : inv g s -> m_up (me s) = true -> g_xs g = [] -> g_act g = [] ->
    m_els (me s) !! e = Some el -> e ∉ g_priv g -> (r = RP -> is_pend el) -> safe W B uc -> J s ->
    exists s', async_finish k s w e r uc = Ok s' /\ inv g s' /\ ext (w :: W) g s g s' /\ adds w g s g s' /\
      (forall A : kind -> Prop, A KFree -> (forall κ, B κ -> A κ) -> (r = RP -> has_cb s e /\ A (KWait w true) \/ A (KWait w false)) -> path (upto A (m_ncb (me s))) s s').
  Proof.
    intros Hi Hup Gx Ga Hel Hpr Hrp Hu HJ.
    assert (forall v x, ext [w] g s g (s_log s (EvCall w v x true)) /\ adds w g s g (s_log s (EvCall w v x true))) as Hlog.
    { intros v x. split; [apply ext_log; intros y; simpl; rewrite cnt_cons, cnt_nil; lia|]. apply adds_log. intros y. simpl. rewrite cnt_cons, cnt_nil. lia. }
    assert (forall s1, inv g s1 -> m_up (me s1) = true -> ext [w] g s g s1 -> adds w g s g s1 -> path (fun κ => κ = KFree) s s1 -> m_ncb (me s1) = m_ncb (me s) ->
      exists s', uc s1 = Ok s' /\ inv g s' /\ ext (w :: W) g s g s' /\ adds w g s g s' /\
      (forall A : kind -> Prop, A KFree -> (forall κ, B κ -> A κ) -> (r = RP -> has_cb s e /\ A (KWait w true) \/ A (KWait w false)) -> path (upto A (m_ncb (me s))) s s')) as Hcall.
    { intros s1 I1 U1 X1 A1 P1 N1. destruct (Hu g s1) as (s2 & E2 & I2 & X2 & P2); try done; [by eapply path_J|]. exists s2. split_and!; try done.
      - by eapply (ext_trans k [w] W).
      - by eapply adds_ext.
      - intros A HA1 HA2 HA3. eapply path_trans; [eapply path_weaken; [|exact P1]; intros κ ->; by left|].
        eapply upto_path; [exact HA2| |exact P2]. by rewrite N1. }
    destruct r as [|v|x|]; simpl.
    - eexists. split_and!; [done|by apply inv_log|apply ext_log; intros y; simpl; rewrite cnt_cons; lia|..].
      + apply adds_log. intros y. simpl. rewrite cnt_cons, cnt_nil. lia.
      + intros A HA1 HA2 HA3. apply log_path; [done|by left].
    - destruct (Hlog v 0%Z) as [X A]. apply Hcall.
      + apply inv_give. by apply inv_log.
      + rewrite (x_up _ _ _ _ _ (ext_give k g (s_log s (EvCall w v 0 true)) v)). done.
      + eapply ext_trans1; [done|exact X|]. apply ext_give.
      + eapply adds_ext; [exact A|]. apply ext_give.
      + eapply path_trans; [|by apply give_path]. by apply log_path.
      + unfold give. by destruct (k_pointer k).
    - destruct (Hlog 0%Z x) as [X A]. apply Hcall; [by apply inv_log|done|done|done|by apply log_path|done].
    - specialize (Hrp eq_refl). unfold is_pend, el_pending in Hrp. destruct (el_map el) as [p| | | | |] eqn:Em; try done.
      unfold s_upd, upd_el, rd_el. rewrite Hel. simpl. rewrite Em.
      destruct (i_pin _ _ _ Hi e el Hel) as [HeL|?]; [unfold is_pend, el_pending; by rewrite Em|done| |done].
      assert (forall y, cnt y (el_waits (with_map el (MPend (p_add p (PWait w))))) = cnt y (el_waits el) + cnt y [w]) as Hw.
      { intros y. unfold el_waits; simpl. rewrite Em. simpl. unfold waits_of. rewrite map_app, concat_app. simpl. by rewrite cnt_app. }
      eexists. split_and!; [done|..].
      + apply (inv_upd k g g s e el); try done.
        * intros y. unfold el_olds; simpl. rewrite Em. simpl. unfold olds_of. rewrite map_app, concat_app. simpl. by rewrite app_nil_r.
        * unfold is_pend, el_pending; simpl. by rewrite Em.
        * simpl. rewrite Em. simpl. intros q [?|Hq]%elem_of_app; [by left|]. apply elem_of_list_singleton in Hq as ->. by right.
        * by left.
      + apply (ext_upd _ _ _ _ _ el); try done.
        * unfold is_pend, el_pending; simpl. by rewrite Em.
        * intros y. rewrite Hw, !cnt_cons, cnt_nil. lia.
      + intros y. unfold wtot; simpl. pose proof (nwait_upd _ e el (with_map el (MPend (p_add p (PWait w)))) y Hel) as H. rewrite Hw in H. lia.
      + intros A HA1 HA2 HA3. pose proof (i_up _ _ _ Hi Hup) as Ht. assert (exists b, A (KWait w b) /\ (b = true -> has_cb s e)) as (b & HAb & Hb) by (destruct (HA3 eq_refl) as [[? ?]|?]; eauto; by exists false).
        eapply (path_one k _ (KWait w b)); [by left|].
        assert (with_me s (wr_el (me s) e (with_map el (MPend (p_add p (PWait w))))) = p_upd s e (fun el => with_map el (MPend (p_add p (PWait w))))) as ->.
        { unfold p_upd. by rewrite Hel. }
        assert (e ∈ tab s) as Htab. { unfold LT in HeL. rewrite Gx, (a_tab_None _ Ht) in HeL. done. }
        eapply (mini_upd k _ s e _ (with_rc el 0)); [done|by apply tv_some| |by apply c_wait|done].
        unfold eqrc, with_rc, with_map. simpl. congruence.
  Qed.

  Lemma hit_pend s e x el : m_els (me s) !! x = Some el -> exists el', m_els (me (f_hit k s e)) !! x = Some el' /\ el_pending el' = el_pending el /\ forall p, el_map el' = MPend p -> exists q, el_map el = MPend q /\ p_exp p = p_exp q.
  Proof.
    intros Hx. unfold f_hit. 
    assert (exists el', m_els (me (f_hitq k s e)) !! x = Some el' /\ el_pending el' = el_pending el /\ forall p, el_map el' = MPend p -> exists q, el_map el = MPend q /\ p_exp p = p_exp q) as (el1 & H1 & <- & H2).
    { unfold f_hitq. destruct (has_queue k); [|exists el; eauto 6]. unfold f_strengthen. rewrite p_upd_lookup. destruct (decide (x = e)) as [->|]; [|exists el; eauto 6]. simpl. rewrite Hx. simpl.
      eexists. split; [done|]. unfold el_pending. simpl. unfold p_strengthen.
      destruct (el_map el) as [[? [] ?]| |[v|]| | |]; simpl; try (split; [done|]; intros q [= <-]; eauto); try done. by destruct (alive _ v). }
    destruct (k_refresh k) as [[? idle]|]; [|exists el1; eauto 6]. destruct (_ && _); [|exists el1; eauto 6].
    rewrite p_upd_lookup. destruct (decide (x = e)) as [->|]; [|exists el1; eauto 6]. rewrite H1. simpl. eexists. eauto 6.
  Qed.
  Lemma get_pend g s key e : inv g s -> a_torn (cs s) = None -> (f_get k s key true).2 = Some (e, RP) ->
    exists el, m_els (me (f_get k s key true).1) !! e = Some el /\ is_pend el /\ forall p, el_map el = MPend p -> p_exp p = false.
  Proof.
    intros Hi Ht. destruct (find_ends k g s key true Hi Ht) as (E & I & X & T).
    pose proof (f_find_spec k (bucket s (k_hash k key)) g (k_hash k key) key true s Hi Ht (bucket_nodup k _ _ _ Hi Ht) (bucket_in _ _)) as Hsp.
    unfold f_get. fold (f_find k s key true) in Hsp. destruct (f_find k s key true) as [s1 [[x r]|]]; simpl in *; [|done].
    intros [= <- ->]. destruct (Hsp x RP eq_refl) as (_ & He & Hr & _). unfold ans in Hr.
    destruct (a_hash (cs s1) !! x) as [h|]; [|done]. destruct (m_els (me s1) !! x) as [el|] eqn:Hel; [|done].
    destruct (_ && _) eqn:Eb; [|done]. apply andb_true_iff in Eb as [_ Eb%negb_true_iff].
    destruct (hit_pend s1 x x el Hel) as (el' & H1 & H2 & H3). exists el'. split; [done|]. split.
    2: { intros p Hp. destruct (H3 p Hp) as (q & Eq & ->). unfold el_expired in Eb. rewrite Eq in Eb. simpl in Eb. by destruct (p_exp q). }
    unfold is_pend. rewrite H2. unfold el_pending.
    destruct (el_map el) as [| |[v|]| | |]; simpl in *; try done. by destruct (alive (me s1) v).
  Qed.

  Lemma async_get_ends W1 W2 g s w key u keep throw uc B1 B2 : inv g s -> m_up (me s) = true -> g_xs g = [] -> g_act g = [] ->
    safe W1 B1 u -> safe W2 B2 uc -> J s -> k_resolver k = RAsync ->
    exists s' r, async_get k s w key u keep throw uc = Ok (s', r) /\ inv g s' /\ ext (w :: W1 ++ W2) g s g s' /\ adds w g s g s' /\
      ((f_find k s key true).2 = None -> exists l, m_log (me s') = l ++ EvResolve key :: m_log (me (f_apre (f_find k s key true).1 key))) /\
      (forall A : kind -> Prop, A KFree -> A (KHit key) -> A (KEnter key HClean None) -> A (KWait w true) -> ((throw = true \/ keep = true /\ (forall j, ~ B1 (KCancel j) /\ ~ B1 (KLet j))) \/ A (KWait w false)) -> (forall κ, B1 κ -> A κ) -> (forall κ, B2 κ -> A κ) ->
        path (upto A (m_ncb (me s))) s s').
  Proof.
    intros Hi Hup Gx Ga Hu Huc HJ Hr. pose proof (i_up _ _ _ Hi Hup) as Ht.
    destruct (get_ends k g s key true Hi Ht) as (E1 & I1 & X1 & T1 & H1). pose proof (get_pend g s key) as Hpd.
    pose proof (fun A HA HB => get_path k A g s key true HA HB Hi Ht) as P1.
    pose proof (find_nohope k g s key true Hi Ht HJ) as Hnh.
    assert (J (f_get k s key true).1) as HJ1. { eapply (path_J k (fun _ => True)); [by apply P1|done]. }
    unfold async_get. rewrite E1. simpl rbind. unfold f_get in *. destruct (f_find k s key true) as [s1 [[e r]|]] eqn:Ef; simpl in *.
    - set (s0 := s1) in *. clearbody s0. set (s1' := f_hit k s0 e) in *.
      specialize (H1 e r eq_refl). destruct (i_tab _ _ _ I1 e) as [el Hel]; [by apply tab_LT|].
      destruct (finish_ends W2 g s1' w e r uc el B2) as (s2 & E2 & I2 & X2 & A2 & P2); try done.
      + by rewrite (x_up _ _ _ _ _ X1).
      + eapply LT_not_priv; [done|]. by apply tab_LT.
      + intros ->. destruct (Hpd e Hi Ht eq_refl) as (el' & He' & Hp & _). by replace el with el' by congruence.
      + rewrite E2. simpl. eexists _, _. split_and!; [done|done| |by eapply ext_adds|done|].
        * eapply ext_weaken; [|by eapply ext_trans0; [exact Hi|exact X1|exact X2]]. intros y. rewrite !cnt_cons, cnt_app. lia.
        * intros A HA1 HA2 HA3 HA4 HA4' HA5 HA6. eapply path_trans; [apply P1; by left|]. eapply upto_path; [| |apply (P2 A); try done]; [done|apply (x_ncb _ _ _ _ _ X1)|].
          intros ->. left. split; [|done]. destruct (Hpd e Hi Ht eq_refl) as (el' & He' & Hp & Hx). unfold is_pend, el_pending in Hp.
          destruct (el_map el') as [p| | | | |] eqn:Em; try done. apply (j_open _ _ HJ1 e (with_rc el' 0) p Hr); [by apply tv_some|done|by apply Hx].
    - destruct (resolve_async_ends W1 g s1 key u keep throw B1) as (s2 & E2 & [l2 L2] & H2 & P2 & _ & Hcb2); try done.
      { by rewrite (x_up _ _ _ _ _ X1). }
      assert (forall A : kind -> Prop, A KFree -> A (KHit key) -> A (KEnter key HClean None) -> (forall κ, B1 κ -> A κ) -> path (upto A (m_ncb (me s))) s s2) as P12.
      { intros A HA1 HA2 HA3 HA4. eapply path_trans; [apply P1; by left|]. eapply upto_path; [| |apply (P2 A HClean); try done]; [done|apply (x_ncb _ _ _ _ _ X1)|].
        apply Hnh; [done|by left]. }
      rewrite E2. simpl rbind. destruct throw.
      + destruct H2 as [I2 X2]. eexists _, _. split_and!; [done|by apply inv_log|..].
        * eapply ext_weaken with (W := W1 ++ [w]); [intros y; rewrite !cnt_cons, !cnt_app, cnt_cons, cnt_nil; lia|].
          eapply (ext_trans0 k); [exact Hi|exact X1|]. eapply (ext_trans k W1 [w]); [exact I1|exact X2|].
          apply ext_log; intros y; simpl; rewrite cnt_cons, cnt_nil; lia.
        * eapply ext_adds; [exact X1|]. eapply ext_adds; [exact X2|]. apply adds_log. intros y. simpl. rewrite cnt_cons, cnt_nil. lia.
        * intros _. exists (EvDrop w :: l2). simpl. by rewrite L2.
        * intros A HA1 HA2 HA3 HA4 HA4' HA5 HA6. eapply path_trans; [by apply P12|]. apply log_path; [done|by left].
      + destruct H2 as (I2 & X2 & _). set (e := m_nxt (me s1)) in *.
        assert (m_up (me s2) = true) as Hup2 by (by rewrite (x_up _ _ _ _ _ X2), (x_up _ _ _ _ _ X1)).
        destruct (pinned_dom k _ _ e I2) as [el Hel]; [by left|]. unfold s_el, rd_el. rewrite Hel. simpl rbind.
        destruct (finish_ends W2 (pin e g) s2 w e (m_get (alive (me s2)) true (el_map el)) uc el B2) as (s3 & E3 & I3 & X3 & A3 & P3); try done.
        { simpl. exact (nxt_not_priv _ _ _ I1). }
        { unfold is_pend, el_pending. destruct (el_map el) as [| |[v|]| | |]; simpl; try done. by destruct (alive (me s2) v). }
        { eapply (path_J k (upto (fun _ => True) (m_ncb (me s)))); [by apply P12|done]. }
        rewrite E3. simpl rbind. destruct (drop_ok k _ _ _ I3) as (E4 & I4 & X4). rewrite E4. simpl.
        eexists _, _. split_and!; [done|done|..].
        * eapply ext_weaken with (W := W1 ++ (w :: W2)); [intros y; rewrite !cnt_cons, !cnt_app, cnt_cons; lia|].
          eapply (ext_trans0 k); [exact Hi|exact X1|]. eapply (ext_trans k W1 (w :: W2)); [exact I1|exact X2|].
          eapply (ext_trans1 k); [exact I2|exact X3|exact X4].
        * eapply ext_adds; [exact X1|]. eapply ext_adds; [exact X2|]. eapply adds_ext; [exact A3|exact X4].
        * intros _. destruct (x_log _ _ _ _ _ X3) as [l3 L3]. destruct (x_log _ _ _ _ _ X4) as [l4 L4]. exists (l4 ++ l3 ++ l2). rewrite L4, L3, L2. by rewrite <-!app_assoc.
        * intros A HA1 HA2 HA3 HA4 HA4' HA5 HA6. eapply path_trans; [by apply P12|]. eapply path_trans; [eapply upto_path; [| |apply (P3 A); try done]; [done| |]|].
          2: { intros Hrp. destruct HA4' as [[?|[-> Hv]]|HA4']; [done| |by right]. left. split; [|done]. apply (Hcb2 eq_refl eq_refl Hv el Hel).
            unfold is_pend, el_pending. destruct (el_map el) as [| |[v|]| | |]; simpl in *; try done. by destruct (alive (me s2) v). }
          { pose proof (x_ncb _ _ _ _ _ X1). pose proof (x_ncb _ _ _ _ _ X2). lia. }
          eapply dec_path; [by left|exact I3|]. apply (i_up _ _ _ I3). by rewrite (x_up _ _ _ _ _ X3).
  Qed.

  Lemma ret_value_ends g s v : inv g s -> inv g (ret_value k s v).1 /\ ext [] g s g (ret_value k s v).1.
  Proof. intros Hi. simpl. split; [by apply inv_give|apply ext_give]. Qed.
  Lemma get_op_ends W g s key u out B : inv g s -> m_up (me s) = true -> g_xs g = [] -> g_act g = [] -> safe W B u -> rok out -> J s -> k_resolver k <> RAsync ->
    exists s' r, get k s key u out = Ok (s', r) /\ inv g s' /\ ext W g s g s' /\
      (forall (A : kind -> Prop) cl, A KFree -> A (KHit key) -> (k_resolver k = RSync -> A (KEnter key cl None) /\ (forall v, out = ROk v -> A (KEnter key cl (Some v))) /\ (forall κ, B κ -> A κ)) ->
        (cl = HAny \/ cl = HClean /\ forall key' c o, B (KEnter key' c o) -> ~ (k_hash k key' = k_hash k key /\ k_eq k key' key = true)) ->
        path (upto A (m_ncb (me s))) s s').
  Proof.
    intros Hi Hup Gx Ga Hu Hok HJ Hres. pose proof (i_up _ _ _ Hi Hup) as Ht.
    destruct (get_ends k g s key false Hi Ht) as (E1 & I1 & X1 & T1 & H1).
    pose proof (fun A HA HB => get_path k A g s key false HA HB Hi Ht) as P1.
    pose proof (find_nohope k g s key false Hi Ht HJ) as Hnh.
    assert (J (f_get k s key false).1) as HJ1. { eapply (path_J k (fun _ => True)); [by apply P1|done]. }
    assert ((f_get k s key false).2 = None -> (f_find k s key false).2 = None /\ (f_get k s key false).1 = (f_find k s key false).1) as Hfn.
    { unfold f_get. destruct (f_find k s key false) as [? [[? ?]|]]; done. }
    unfold get. rewrite E1. simpl rbind. destruct (f_get k s key false) as [s1 r]; simpl in *.
    assert (ext W g s g s1) as X1'. { eapply ext_weaken; [|exact X1]. intros y. rewrite cnt_nil. lia. }
    assert (forall v, inv g (ret_value k s1 v).1 /\ ext W g s g (ret_value k s1 v).1) as Hv.
    { intros v. destruct (ret_value_ends g s1 v I1) as [I2 X2]. split; [done|]. by eapply ext_trans1. }
    assert (forall (A : kind -> Prop), A KFree -> A (KHit key) -> path (upto A (m_ncb (me s))) s s1) as Q1.
    { intros A HA1 HA2. apply P1; by left. }
    assert (forall (A : kind -> Prop) v, A KFree -> A (KHit key) -> path (upto A (m_ncb (me s))) s (ret_value k s1 v).1) as Q2.
    { intros A v HA1 HA2. eapply path_trans; [by apply Q1|]. apply give_path. by left. }
    destruct (k_resolver k) eqn:Er.
    - destruct r as [[e [|v|x|]]|]; try (eexists _, _; split; [done|]; split; [done|]; split; [done|]; by intros; apply Q1).
      eexists _, _. split; [done|]. split; [apply (Hv v)|]. split; [apply (Hv v)|]. intros; by apply Q2.
    - destruct r as [[e r]|]; simpl rbind.
      + destruct r as [|v|x|]; try (eexists _, _; split; [done|]; split; [done|]; split; [done|]; by intros; apply Q1).
        eexists _, _. split; [done|]. split; [apply (Hv v)|]. split; [apply (Hv v)|]. intros; by apply Q2.
      + destruct (resolve_sync_ends W g s1 key u out B) as (s2 & s3 & E2 & E3 & _ & I3 & X3 & _ & _ & T3 & _ & _ & P3); try done.
        { by rewrite (x_up _ _ _ _ _ X1). }
        rewrite E3. simpl rbind. set (e := m_nxt (me s1)) in *.
        destruct (pinned_dom k _ _ e I3) as [el Hel]; [by left|]. unfold s_el, rd_el. rewrite Hel. simpl rbind.
        destruct (drop_ok k _ _ _ I3) as (E4 & I4 & X4). rewrite E4. simpl rbind.
        assert (ext W g s g (f_dec s3 e)) as X. { eapply ext_trans0; [exact Hi|exact X1|]. by eapply ext_trans1. }
        assert (forall (A : kind -> Prop) cl, A KFree -> A (KHit key) -> (RSync = RSync -> A (KEnter key cl None) /\ (forall v, out = ROk v -> A (KEnter key cl (Some v))) /\ (forall κ, B κ -> A κ)) ->
          (cl = HAny \/ cl = HClean /\ forall key' c o, B (KEnter key' c o) -> ~ (k_hash k key' = k_hash k key /\ k_eq k key' key = true)) ->
          path (upto A (m_ncb (me s))) s (f_dec s3 e)) as Q3.
        { intros A cl HA1 HA2 HA3 Hcl. destruct (HA3 eq_refl) as (HA4 & HA5 & HA6). eapply path_trans; [by apply Q1|]. eapply path_trans; [|eapply dec_path; [by left|exact I3|done]].
          eapply upto_path; [| |apply (P3 A cl)]; try done.
          - apply (x_ncb _ _ _ _ _ X1).
          - destruct Hcl as [-> | [-> _]]; [done|]. destruct (Hfn eq_refl) as [Hf1 Hf2]. rewrite Hf2. apply Hnh; [done|by right].
          - destruct Hcl as [-> | [-> Hcl]]; [done|]. intros _. exact Hcl. }
        destruct (m_get (alive (me s3)) false (el_map el)) as [|v|x|]; try by eexists _, _.
        eexists _, _. split; [done|]. destruct (ret_value_ends g (f_dec s3 e) v I4) as [I5 X5]. split; [done|]. split; [by eapply ext_trans1|].
        intros A cl HA1 HA2 HA3 Hcl. eapply path_trans; [by apply (Q3 A cl)|]. apply give_path. by left.
    - done.
  Qed.

  (** ** The refresh worker *)
  Definition item_ok (W : list N) (B : kind -> Prop) (it : (sta -> res sta) * outcome * (bool * bool)) : Prop :=
    safe W B it.1.1 /\ rok it.1.2 /\ it.2.2 = false.
  Definition none (x y : N) : Prop := False.
  Lemma path_upd (A : kind -> Prop) κ s e f el : unlogged κ -> A KFree -> A κ -> m_els (me s) !! e = Some el -> (forall a b, eqrc a b -> eqrc (f a) (f b)) ->
    (e ∈ tab s -> chg k s e (with_rc el 0) κ (Some (with_rc (f (with_rc el 0)) 0))) -> path A s (p_upd s e f).
  Proof.
    intros HN H1 H2 Hel Hf Hc. destruct (decide (e ∈ tab s)) as [Ht|Ht].
    - eapply path_one; [exact H2|]. eapply mini_upd; [done|by apply tv_some|done|by apply Hc|done].
    - eapply path_one; [exact H1|]. by apply mini_upd_out.
  Qed.
  Lemma unexpired_hopeful g s e el : inv g s -> m_els (me s) !! e = Some el -> el_expired k (me s) el = false -> ~ is_pend el -> hopeful (el_map el) = true.
  Proof.
    intros Hi Hel He Hp. destruct (i_mode _ _ _ Hi e el Hel) as [Hm _]. unfold el_expired in He. rewrite !orb_false_iff in He. destruct He as [[[[H1 H2] _] _] _].
    unfold is_pend, el_pending in Hp. unfold neg_is_base in H2. destruct (el_map el) as [p|v|[v|]|x| |]; simpl in *; try done.
  Qed.
  Lemma only_old g s e el : inv g s -> J s -> e ∈ tab s -> m_els (me s) !! e = Some el -> ~ is_pend el -> el_rs el = false -> el_expired k (me s) el = false ->
    uq k none s -> only k s (el_key el) e.
  Proof.
    intros Hi HJ Ht Hel Hp Hrs Hex HU x ex Hx [_ Hk] Hh. destruct (decide (x = e)) as [->|Hne]; [done|].
    destruct (HU x e ex (with_rc el 0)) as [(en & p & Hn & Hm & Ho)|[(en & p & Hn & Hm & Ho)|[[]|[]]]]; try done.
    - by apply tv_some.
    - by eapply (unexpired_hopeful g s e el).
    - apply olds_iff in Ho as [m Ho]. destruct (j_rs _ _ HJ x en p m e (with_rc el 0) Hn Hm Ho) as [Hr _]; [by apply tv_some|]. simpl in Hr. congruence.
    - rewrite (tv_some s e el Ht Hel) in Hn. injection Hn as <-. simpl in Hm. unfold is_pend, el_pending in Hp. by rewrite Hm in Hp.
  Qed.
  Lemma noref_old g s e el : inv g s -> J s -> e ∈ tab s -> m_els (me s) !! e = Some el -> el_rs el = false -> noref s e.
  Proof.
    intros Hi HJ Ht Hel Hrs n en q Hn Hm Ho. apply olds_iff in Ho as [m Ho].
    destruct (j_rs _ _ HJ n en q m e (with_rc el 0) Hn Hm Ho) as [Hr _]; [by apply tv_some|]. simpl in Hr. congruence.
  Qed.

  (** the key the worker may refresh *)
  Definition due_key (s : sta) (e : N) (key : Z) : Prop := exists el, m_els (me s) !! e = Some el /\ ~ is_pend el /\ el_key el = key /\ el_expired k (me s) el = false.
  Lemma refresh_ends W g s e u out keep B : inv g s -> m_up (me s) = true -> g_xs g = [] -> g_act g = [] ->
    e ∈ LT g (cs s) -> (exists el, m_els (me s) !! e = Some el /\ ~ is_pend el) ->
    safe W B u -> rok out -> k_resolver k <> RNone -> J s -> (forall key b, ~ B (KRefresh key b)) -> k_refresh k <> None ->
    exists s', refresh k s e u out keep false = Ok s' /\ inv g s' /\ ext W g s g s' /\
      (forall A : kind -> Prop, A KFree -> (forall key, due_key s e key -> A (KRefresh key false)) ->
        (forall key, due_key s e key -> k_resolver k = RSync \/ (exists i o δ, B (KDone i o δ) /\ (m_ncb (me s) <= i)%N) -> A (KRefresh key true)) -> (forall κ, B κ -> A κ) ->
        (forall key, due_key s e key -> A (KEnter key HAny None)) -> (forall key v, due_key s e key -> out = ROk v -> A (KEnter key HAny (Some v))) -> path (upto A (m_ncb (me s))) s s') /\
      (eq_ok k -> (forall κ, B κ -> clean none κ) -> (k_resolver k = RSync -> forall key c o, ~ B (KEnter key c o)) -> uq k none s -> uq k none s') /\
      (forall ee, tv s' e = Some ee -> el_rs ee = true \/ el_expired k (me s') ee = true) /\
      (forall el, m_els (me s) !! e = Some el -> el_rs el || el_expired k (me s) el = true -> s' = s) /\
      (forall el, m_els (me s) !! e = Some el -> el_rs el = false -> el_expired k (me s) el = false -> k_resolver k = RSync -> uq k none s -> (forall key c o, ~ B (KEnter key c o)) ->
        exists sx sa sb l, path (upto (fun κ => κ = KFree \/ B κ) (m_ncb (me s))) s sx /\ path (fun κ => κ = KFree) sx sa /\
          mini (KEnter (el_key el) (HRefresh e l) (val_of (out_map sx out))) sa sb /\ l <> e /\ J (f_revent k (p_upd sb e (fun el => with_rs el true)) l e) /\
          path (fun κ => κ = KFree) (f_revent k (p_upd sb e (fun el => with_rs el true)) l e) s') /\
      (forall el, m_els (me s) !! e = Some el -> el_rs el = false -> el_expired k (me s) el = false -> k_resolver k = RAsync ->
        exists sl s2 l pl ll, path (fun κ => κ = KFree \/ κ = KEnter (el_key el) HAny None) s sl /\ tv s l = None /\ tv sl l = Some pl /\ el_pending pl = true /\
          path (upto (fun κ => κ = KFree \/ B κ) (m_ncb (me s))) sl s2 /\ m_els (me s2) !! l = Some ll /\ el_key ll = el_key el /\ l <> e /\
          (is_pend ll /\ path (fun κ => κ = KFree \/ κ = KRefresh (el_key el) false) s2 s' \/
           ~ is_pend ll /\ J (f_revent k (p_upd s2 e (fun el => with_rs el true)) l e) /\ path (fun κ => κ = KFree) (f_revent k (p_upd s2 e (fun el => with_rs el true)) l e) s')).
  Proof.
    intros Hi Hup Gx Ga HeL (el & Hel & Hnp) Hu Hok Hres HJ HnoR Hrf. unfold refresh, s_el, rd_el. rewrite Hel. simpl rbind.
    destruct (_ || _) eqn:Eskip.
    { exists s. split_and!; [done|done| |intros; apply path_refl|done| |done| |].
      - eapply ext_weaken; [|apply ext_refl]. intros y. rewrite cnt_nil. lia.
      - intros ee (_ & e0 & He0 & ->)%tv_elim. rewrite Hel in He0. injection He0 as <-. by apply orb_true_iff in Eskip.
      - intros el0 Hel0 H1 H2. injection Hel0 as <-. by rewrite H1, H2 in Eskip.
      - intros el0 Hel0 H1 H2. injection Hel0 as <-. by rewrite H1, H2 in Eskip. }
    apply orb_false_iff in Eskip as [Hrs Hunex]. pose proof (i_up _ _ _ Hi Hup) as Ht.
    assert (e ∈ tab s) as Htab. { unfold LT in HeL. rewrite Gx, (a_tab_None _ Ht) in HeL. done. }
    pose proof (noref_old g s e el Hi HJ Htab Hel Hrs) as Hnr.
    destruct (inc_ends k g s e Hi) as (E1 & I1 & X1); [eauto|]. rewrite E1. simpl rbind.
    pose proof (fun A HA => path_inc k A s e HA) as P1.
    set (s1 := p_inc s e) in *.
    assert (m_els (me s1) !! e = Some (with_rc el (S (el_rc el)))) as Hel1.
    { unfold s1, p_inc. rewrite p_upd_lookup, decide_True by done. by rewrite Hel. }
    assert (LT (pin e g) (cs s1) = LT g (cs s)) as EL. { unfold s1, p_inc. by rewrite p_upd_cs. }
    rewrite (i_hash _ _ _ I1 e _ ltac:(by rewrite EL) Hel1). simpl.
    assert (m_up (me s1) = true) as Hup1 by (by rewrite (x_up _ _ _ _ _ X1)).
    assert (m_ncb (me s1) = m_ncb (me s)) as Encb by (unfold s1, p_inc; by rewrite (proj1 (proj2 (proj2 (proj2 (proj2 (p_upd_me _ _ _))))))).
    assert (J s1) as HJ1. { eapply (path_J k (fun _ => True)); [by apply P1|done]. }
    set (l := m_nxt (me s1)). set (key := el_key el) in *.
    assert (exists s2, (match k_resolver k with
        | RNone => UB
        | RSync => resolve_sync k s1 (k_hash k key) key u out
        | RAsync => '(s, o) <- resolve_async k s1 (k_hash k key) key u keep false;; match o with Some l => Ok (s, l) | None => Term end
        end) = Ok (s2, l) /\ inv (pin l (pin e g)) s2 /\ ext W (pin e g) s1 (pin l (pin e g)) s2 /\
        (exists ll, m_els (me s2) !! l = Some ll /\ el_key ll = key /\ (is_pend ll \/ k_resolver k = RSync \/ exists i o δ, B (KDone i o δ) /\ (m_ncb (me s) <= i)%N)) /\
        (forall (A : kind -> Prop) cl, A KFree -> (forall κ, B κ -> A κ) -> A (KEnter key cl None) -> (forall v, out = ROk v -> A (KEnter key cl (Some v))) ->
          fits k s1 l key cl -> (cl <> HAny -> k_resolver k = RSync -> forall key' c o, ~ B (KEnter key' c o)) ->
          path (upto A (m_ncb (me s))) s1 s2) /\
        (k_resolver k = RSync -> only k s1 key e -> (forall key c o, ~ B (KEnter key c o)) ->
          exists sx sa, path (upto (fun κ => κ = KFree \/ B κ) (m_ncb (me s))) s1 sx /\ path (fun κ => κ = KFree) sx sa /\ mini (KEnter key (HRefresh e l) (val_of (out_map sx out))) sa s2 /\
            exists ll, m_els (me s2) !! l = Some ll /\ ~ is_pend ll) /\
        (k_resolver k = RAsync -> exists sl pl, path (fun κ => κ = KFree \/ κ = KEnter key HAny None) s1 sl /\ tv sl l = Some pl /\ el_pending pl = true /\
          path (upto (fun κ => κ = KFree \/ B κ) (m_ncb (me s))) sl s2)) as (s2 & -> & I2 & X2 & (ll & Hll & Ekl & Hrep) & P2 & Q2 & Qas).
    { destruct (k_resolver k) eqn:Er; [done|..].
      - destruct (resolve_sync_ends W (pin e g) s1 key u out B) as (s2 & s3 & E2 & E3 & _ & I3 & X3 & _ & _ & _ & (ll & Hll & Hnpl & Ekl & _) & Q3 & P3); try done.
        exists s3. split_and!; try done; [exists ll; split_and!; auto|..].
        + intros A cl HA1 HA2 HA3 HA4 Hfit Hno. rewrite <-Encb. apply (P3 A cl); try done. intros Hcl key' c o HB. by destruct (Hno Hcl eq_refl key' c o HB).
        + intros _ Honly HnoE. destruct (Q3 (HRefresh e l)) as (sa & Qa & Qb & Qc); [by split|by intros _ ? ? ? ?%HnoE|].
          exists s2, sa. rewrite <-Encb. split_and!; try done. by exists ll.
      - destruct (resolve_async_ends W (pin e g) s1 key u keep false B) as (s2 & E2 & _ & (I3 & X3 & ll & Hll & Ekl & Hpe) & P3 & Q3); try done. rewrite E2. simpl.
        exists s2. split_and!; try done; [exists ll; split_and!; try done; rewrite <-Encb; destruct Hpe; auto| |intros _; rewrite <-Encb; by apply Q3]. intros A cl HA1 HA2 HA3 HA4 Hfit Hno. rewrite <-Encb. by apply (P3 A cl). }
    simpl rbind.
    assert (l <> e) as Hle. { intros E. pose proof (nxt_not_LT _ _ _ I1) as H. rewrite EL in H. apply H. fold l. by rewrite E. }
    assert (e < l)%N as Hlt. { apply (i_nxt _ _ _ I1 e). eauto. }
    destruct (pinned_dom k _ _ e I2) as [el2 Hel2]; [right; left|].
    assert (~ is_pend el2) as Hnp2. { eapply (x_el _ _ _ _ _ X2 e _ el2 Hel1 Hel2). done. }
    assert (el_key el2 = key) as Ek2. { destruct (x_el _ _ _ _ _ X2 e _ el2 Hel1 Hel2) as [-> _]. done. }
    assert (a_torn (cs s2) = None) as T2. { apply (i_up _ _ _ I2). by rewrite (x_up _ _ _ _ _ X2). }
    assert (noref s2 e) as Hnr2.
    { eapply (path_noref k (upto (fun κ => forall key b, κ <> KRefresh key b) (m_ncb (me s)))); [| |eapply free_noref; [by apply P1|exact Hnr]].
      - intros key' [H|(? & ? & _)]; [by apply (H key' false)|done].
      - apply (P2 _ HAny); try done. intros κ HB key' b ->. by apply (HnoR key' b). }
    assert (olds_at s2 l = []) as Hno2.
    { eapply (path_olds k (upto (fun κ => forall key b, κ <> KRefresh key b) (m_ncb (me s)))); [| |].
      - intros key' [H|(? & ? & _)]; [by apply (H key' false)|done].
      - apply (P2 _ HAny); try done. intros κ HB key' b ->. by apply (HnoR key' b).
      - unfold olds_at. destruct (tv s1 l) as [en|] eqn:Tl; [|done]. exfalso. apply tv_elim in Tl as (Tl & _). apply (nxt_not_LT _ _ _ I1).
        unfold LT. simpl. rewrite Gx. simpl. unfold s1, p_inc. rewrite p_upd_cs, (a_tab_None _ Ht). unfold s1, p_inc in Tl. by rewrite tab_upd in Tl. }
    destruct (upd_soft k _ s2 e el2 (fun el => with_rs el true) I2 Hel2) as (E3 & I3 & X3).
    { apply soft_meta; try done. by eapply i_mode. } { left. by eapply nopend_not_priv. }
    rewrite E3. simpl rbind.
    assert (forall A : kind -> Prop, A KFree -> A (KRefresh key false) -> path A s2 (p_upd s2 e (fun el => with_rs el true))) as P3.
    { intros A HA1 HA2. apply (path_upd A (KRefresh key false) s2 e _ el2); try done.
      - unfold eqrc, with_rc, with_rs. simpl. congruence.
      - intros _. rewrite <-Ek2. apply (c_rs k s2 e (with_rc el2 0)); [done|]. unfold el_pending. simpl. unfold is_pend, el_pending in Hnp2. by destruct (m_pending (el_map el2)). }
    set (s3 := p_upd s2 e (fun el => with_rs el true)) in *.
    assert (m_els (me s3) !! l = Some ll) as Hll3. { unfold s3. rewrite p_upd_lookup, decide_False by done. done. }
    assert (m_els (me s3) !! e = Some (with_rs el2 true)) as Hel3. { unfold s3. rewrite p_upd_lookup, decide_True by done. by rewrite Hel2. }
    assert (a_torn (cs s3) = None) as T3 by (unfold s3; by rewrite p_upd_cs).
    assert (tab s3 = tab s2) as Et3 by apply tab_upd.
    assert (noref s3 e) as Hnr3.
    { intros n en q Hn Hm. destruct (decide (n = e)) as [->|Hne].
      - apply tv_elim in Hn as (_ & e0 & He0 & ->). rewrite Hel3 in He0. injection He0 as <-. simpl in Hm. unfold is_pend, el_pending in Hnp2. by rewrite Hm in Hnp2.
      - unfold s3 in Hn. rewrite tv_upd in Hn by done. by eapply Hnr2. }
    rewrite Hll3. simpl rbind.
    assert (m_up (me s3) = true) as Hup3 by (by rewrite (x_up _ _ _ _ _ X3), (x_up _ _ _ _ _ X2)).
    assert (exists s4, (match el_map ll with
        | MPend p => s <- s_upd s3 l (fun el => with_map el (MPend (p_add p (PRefresh l e))));; inc_ref s e
        | _ => refresh_event k s3 l e end) = Ok s4 /\ inv (pin l (pin e g)) s4 /\ ext [] (pin l (pin e g)) s3 (pin l (pin e g)) s4 /\
        (forall A : kind -> Prop, A KFree -> A (KRefresh key false) -> (~ is_pend ll -> A (KRefresh key true)) -> path A s3 s4) /\
        (linked s4 l e \/ forall ee, tv s4 e = Some ee -> hopeful (el_map ee) = false) /\ (~ is_pend ll -> s4 = f_revent k s3 l e)) as (s4 & -> & I4 & X4 & P4 & HR & Q4).
    { assert (~ is_pend ll -> exists s4, refresh_event k s3 l e = Ok s4 /\ inv (pin l (pin e g)) s4 /\ ext [] (pin l (pin e g)) s3 (pin l (pin e g)) s4 /\
        (forall A : kind -> Prop, A KFree -> A (KRefresh key false) -> (~ is_pend ll -> A (KRefresh key true)) -> path A s3 s4) /\
        (linked s4 l e \/ forall ee, tv s4 e = Some ee -> hopeful (el_map ee) = false) /\ (~ is_pend ll -> s4 = f_revent k s3 l e)) as Hev.
      { intros Hn. destruct (revent_ends k (pin l (pin e g)) s3 l e (with_rs el2 true)) as (Er1 & Er2 & Er3);
          [done|eauto|by eapply nopend_not_priv|exact Hel3|done|].
        exists (f_revent k s3 l e). split_and!; try done.
        - intros A HA1 _ HA2. specialize (HA2 Hn). unfold f_revent. rewrite Hel3. unfold f_mark.
          set (s3' := if bool_decide _ then _ else s3).
          assert (path A s3 s3') as Pa.
          { unfold s3'. destruct (bool_decide _); [|apply path_refl]. apply (path_upd A (KRefresh key true) s3 l _ ll); try done.
            - unfold eqrc, with_rc, with_cn. simpl. congruence.
            - intros _. rewrite <-Ekl. apply (c_min k s3 l (with_rc ll 0)); [done|]. unfold el_pending; simpl. unfold is_pend, el_pending in Hn. by destruct (m_pending (el_map ll)). }
          eapply path_trans; [exact Pa|]. apply (path_upd A (KRefresh key true) s3' e _ (with_rs el2 true)); try done.
          + unfold s3'. destruct (bool_decide _); [|done]. rewrite p_upd_lookup, decide_False by done. done.
          + unfold eqrc, with_rc, with_map. simpl. congruence.
          + intros _. rewrite <-Ek2. apply (c_old k s3' e (with_rc (with_rs el2 true) 0)); [done|]. unfold el_pending; simpl. unfold is_pend, el_pending in Hnp2. by destruct (m_pending (el_map el2)).
        - right. intros ee (_ & e0 & He0 & ->)%tv_elim. rewrite f_revent_els in He0. rewrite (re_els_old k _ l e _ Hle Hel3) in He0. injection He0 as <-. simpl.
          unfold m_mark_expired, m_dead. by destruct (el_map el2), (k_pointer k). }
      destruct (el_map ll) as [p| | | | |] eqn:Em; try (apply Hev; unfold is_pend, el_pending; by rewrite Em). clear Hev.
      unfold s_upd, upd_el, rd_el. rewrite Hll3. simpl.
      assert (is_pend ll) as Hpl by (unfold is_pend, el_pending; by rewrite Em).
      destruct (i_pin _ _ _ I3 l ll Hll3 Hpl Hup3) as [HlL|Hpr].
      2: { simpl in Hpr. by apply (nxt_not_priv _ _ _ I1) in Hpr. }
      assert (l ∈ tab s3) as Hlt3. { unfold LT in HlL. simpl in HlL. rewrite Gx, (a_tab_None _ T3) in HlL. done. }
      set (s4 := with_me s3 (wr_el (me s3) l (with_map ll (MPend (p_add p (PRefresh l e)))))).
      assert (s4 = p_upd s3 l (fun el => with_map el (MPend (p_add p (PRefresh l e))))) as E4. { unfold s4, p_upd. by rewrite Hll3. }
      assert (inv (pin l g) s4) as I4.
      { apply (inv_upd k (pin l (pin e g)) (pin l g) s3 l ll); try done.
        - intros y. unfold el_olds; simpl. rewrite Em. simpl. unfold olds_of. rewrite map_app, concat_app. simpl.
          rewrite cnt_app, !cnt_cons, cnt_nil. lia.
        - intros q. simpl. rewrite Em. simpl. intros [?|Hq]%elem_of_app; [by left|]. apply elem_of_list_singleton in Hq as ->. right.
          split_and!; [done|done|]. eexists. by split.
        - left. simpl. exact (nxt_not_priv _ _ _ I1). }
      assert (ext [] (pin l (pin e g)) s3 (pin l g) s4) as X4.
      { apply (ext_upd _ _ _ _ _ ll); try done. intros y. unfold el_waits; simpl. rewrite Em. simpl. unfold waits_of. rewrite map_app, concat_app. simpl.
        rewrite app_nil_r. lia. }
      destruct (inc_ends k _ s4 e I4) as (E5 & I5 & X5). { simpl. rewrite lookup_insert_ne by done. eauto. }
      rewrite E5.
      eexists. split_and!; [done|..].
      - apply (inv_pins k (pin e (pin l g)) _ (l :: e :: g_pins g)) in I5; [exact I5|]. intros y. simpl. rewrite !cnt_cons. lia.
      - eapply ext_trans0; [exact I3|exact X4|]. eapply ext_ghost; [| |exact X5]; done.
      - intros A HA1 HA2 _. eapply path_trans; [|by apply path_inc]. rewrite E4. eapply (path_one k _ (KRefresh key false)); [done|].
        eapply (mini_upd k _ s3 l _ (with_rc ll 0)); [done|by apply tv_some| | |done].
        + unfold eqrc, with_rc, with_map. simpl. congruence.
        + rewrite <-Ekl. apply (c_ref k s3 l (with_rc ll 0) p e); try done.
          { unfold olds_at in Hno2. rewrite (tv_some s2 l ll) in Hno2; [|by rewrite <-Et3|done]. simpl in Hno2. by rewrite Em in Hno2. }
          intros eo (_ & e0 & He0 & ->)%tv_elim. rewrite Hel3 in He0. injection He0 as <-. simpl. split_and!; [by rewrite Ek2, Ekl|done|].
          unfold el_pending; simpl. unfold is_pend, el_pending in Hnp2. by destruct (m_pending (el_map el2)).
      - left. exists (with_rc (with_map ll (MPend (p_add p (PRefresh l e)))) 0), (p_add p (PRefresh l e)). split_and!; [|done|].
        + assert (tv (p_inc s4 e) l = tv s4 l) as ->. { unfold p_inc. by apply tv_upd. } apply tv_some; [exact Hlt3|]. simpl. by rewrite lookup_insert.
        + simpl. apply olds_iff. exists l. apply elem_of_app. right. by left.
      - by intros []. }
    simpl rbind.
    destruct (drop_ok k _ _ _ I4) as (E5 & I5 & X5). rewrite E5. simpl rbind.
    destruct (drop_ok k _ _ _ I5) as (E6 & I6 & X6). rewrite E6.
    assert (a_torn (cs s4) = None) as T4. { apply (i_up _ _ _ I4). by rewrite (x_up _ _ _ _ _ X4). }
    assert (a_torn (cs (f_dec s4 l)) = None) as T5. { apply (i_up _ _ _ I5). by rewrite (x_up _ _ _ _ _ X5), (x_up _ _ _ _ _ X4). }
    assert (forall A : kind -> Prop, A KFree -> path A s4 (f_dec (f_dec s4 l) e)) as P5.
    { intros A HA. eapply path_trans; [by eapply dec_path|]. by eapply dec_path. }
    eexists. split_and!; [done|done|..].
    - eapply ext_trans0; [exact Hi|exact X1|]. eapply ext_trans1; [exact I1|exact X2|]. eapply ext_trans0; [exact I2|exact X3|].
      eapply ext_trans0; [exact I3|exact X4|]. eapply ext_trans0; [exact I4|exact X5|exact X6].
    - intros A HA1 HA2 HA2' HA3 HA4 HA5. assert (upto A (m_ncb (me s)) KFree) as HF by (by left).
      assert (due_key s e key) as Hdue by (exists el; done).
      assert (upto A (m_ncb (me s)) (KRefresh key false)) as HR' by (left; by apply HA2).
      assert (~ is_pend ll -> upto A (m_ncb (me s)) (KRefresh key true)) as HR'' by (intros ?; left; apply HA2'; [done|by destruct Hrep]).
      eapply path_trans; [by apply P1|]. eapply path_trans; [apply (P2 A HAny); try done; intros; by auto|]. eapply path_trans; [by apply P3|].
      eapply path_trans; [by apply P4|]. by apply P5.
    - intros Heq Hcl Hsync HU. pose proof (only_old g s e el Hi HJ Htab Hel Hnp Hrs Hunex HU) as Honly.
      set (R := fun x y : N => x = l /\ y = e).
      assert (uq k none s1) as HU1. { eapply (path_uq k none (fun κ => κ = KFree)); [done|by intros κ ->|by apply P1|done]. }
      assert (uq k R s1) as HU1'. { intros x y ex ey Hx Hy Hne Hk Hhx Hhy. destruct (HU1 x y ex ey Hx Hy Hne Hk Hhx Hhy) as [?|[?|[[]|[]]]]; [by left|by right; left]. }
      assert (uq k R s2) as HU2.
      { eapply (path_uq k R (upto (fun κ => clean R κ) (m_ncb (me s)))); [done| |apply (P2 (fun κ => clean R κ) (HRefresh e l)); try done|exact HU1'].
        - intros κ [?|(i & -> & _)]; [done|done].
        - intros κ HB%Hcl. by destruct κ as [| | | | | |? [] ?| | | | | |].
        - split; [done|]. eapply free_only; [by apply P1|]. exact Honly. }
      assert (uq k R s4) as HU4.
      { eapply (path_uq k R (fun κ => clean R κ)); [done|done| |exact HU2]. eapply path_trans; [by apply P3|]. by apply P4. }
      eapply (path_uq k none (fun κ => κ = KFree)); [done|by intros κ ->|by apply P5|].
      intros x y ex ey Hx Hy Hne Hk Hhx Hhy. destruct (HU4 x y ex ey Hx Hy Hne Hk Hhx Hhy) as [?|[?|[[-> ->]|[-> ->]]]]; [by left|by right; left|..].
      + destruct HR as [HR|HR]; [by left|]. by rewrite (HR ey Hy) in Hhy.
      + destruct HR as [HR|HR]; [by right; left|]. by rewrite (HR ex Hx) in Hhx.
    - intros ee Tee. left. revert ee Tee. apply (path_marked k (fun κ => forall key cl o, κ <> KEnter key cl o) s3 _ e); [intros key0 cl o H; by apply (H key0 cl o)| |].
      + eapply path_trans; [by apply P4|]. by apply P5.
      + intros ee (_ & e0 & He0 & ->)%tv_elim. rewrite Hel3 in He0. by injection He0 as <-.
    - intros el0 Hel0 Hsk. injection Hel0 as <-. by rewrite Hrs, Hunex in Hsk.
    - intros el0 Hel0 _ _ Hsync HU HnoE. injection Hel0 as <-. pose proof (only_old g s e el Hi HJ Htab Hel Hnp Hrs Hunex HU) as Honly.
      destruct (Q2 Hsync) as (sx & sa & Qa & Qb & Qc & ll' & Hll' & Hnpl); [by eapply free_only; [apply P1|]|done|]. rewrite Hll in Hll'. injection Hll' as <-.
      exists sx, sa, s2, l. split_and!; try done; [eapply path_trans; [apply P1; by left; left|exact Qa]|..].
      + change (p_upd s2 e _) with s3. rewrite <-(Q4 Hnpl). apply (path_J k (fun _ => True) s3); [by apply P4|]. apply (path_J k (fun _ => True) s2); [by apply P3|].
        eapply mini_J; [exact Qc|]. eapply path_J; [exact Qb|]. eapply path_J; [exact Qa|]. apply (path_J k (fun _ => True) s); [by apply P1|done].
      + change (p_upd s2 e _) with s3. rewrite <-(Q4 Hnpl). by apply P5.
    - intros el0 Hel0 _ _ Has. injection Hel0 as <-. destruct (Qas Has) as (sl & pl & Qb & Tl & Epl & Qc).
      exists sl, s2, l, pl, ll. split_and!; try done.
      + eapply path_trans; [apply P1; by left|exact Qb].
      + destruct (tv s l) as [en|] eqn:Tl0; [|done]. exfalso. apply tv_elim in Tl0 as (Tl0 & _). apply (nxt_not_LT _ _ _ I1). fold l.
        unfold LT. simpl. rewrite Gx. simpl. unfold s1, p_inc. by rewrite p_upd_cs, (a_tab_None _ Ht).
      + change (p_upd s2 e _) with s3. destruct (decide (is_pend ll)) as [Hpl|Hpl].
        * left. split; [done|]. eapply path_trans; [apply P3; auto|]. eapply path_trans; [apply P4; auto; done|]. apply P5. auto.
        * right. rewrite <-(Q4 Hpl). split_and!; [done| |by apply P5]. apply (path_J k (fun _ => True) s3); [by apply P4|]. apply (path_J k (fun _ => True) s2); [by apply P3|].
          eapply path_J; [exact Qc|]. eapply path_J; [exact Qb|]. done.
  Qed.
  Lemma due_hope g s e key key' : inv g s -> m_up (me s) = true -> g_xs g = [] -> e ∈ LT g (cs s) -> due_key s e key' -> k_hash k key' = k_hash k key /\ k_eq k key' key = true -> ~ nohope k s key.
  Proof.
    intros Hi Hup Gx HeL (el & Hel & Hnp & <- & Hx) Hs HN. pose proof (i_up _ _ _ Hi Hup) as Ht.
    assert (e ∈ tab s) as Htab. { unfold LT in HeL. rewrite Gx, (a_tab_None _ Ht) in HeL. done. }
    pose proof (HN e (with_rc el 0) (tv_some s e el Htab Hel) Hs) as Hh. simpl in Hh.
    unfold el_expired in Hx. rewrite !orb_false_iff in Hx. destruct Hx as ((([X1 X2] & _) & _) & _). unfold is_pend, el_pending in Hnp. unfold m_expired in X1.
    pose proof (i_mode _ _ _ Hi e el Hel) as Hm. unfold mode_ok in Hm.
    destruct (el_map el) as [p|v|[v|]|y| |]; simpl in *; try done. by destruct Hm.
  Qed.
  (** sync resolvers: what has been refreshed has been replaced *)
  Definition swapped (s : sta) : Prop := forall x el, tv s x = Some el -> el_rs el = true -> hopeful (el_map el) = false.
  Lemma mini_swapped κ s s' : mini κ s s' -> (forall key, κ <> KRefresh key false) -> swapped s -> swapped s'.
  Proof.
    intros HM Hno HS x el' Tx Hr. destruct (hopeful (el_map el')) eqn:Eh; [|done]. exfalso.
    destruct (mini_hope k κ s s' x el' HM Tx Eh) as [(el & Tx0 & _ & Hh)|(key & cl & o & _ & Tn & _)].
    - destruct (mini_tv k κ s s' x el' HM Tx) as [(el0 & T0 & Hd)|(? & ? & ? & _ & ? & _)]; [|congruence]. rewrite Tx0 in T0. injection T0 as <-.
      assert (el_rs el = true) as Hr0; [|rewrite (HS x el Tx0 Hr0) in Hh; done].
      destruct Hd as [->|[[Hd _]|[(i & o & δ & _ & c & _ & -> & _)|[(i & o & c & p & y & cn & δ & _ & _ & _ & _ & _ & _ & ->)|(i & c & p & _ & _ & _ & _ & _ & ->)]]]]; try done.
      + inversion Hd; subst; try done. by edestruct Hno.
      + by rewrite (proj2 (proj2 (assigned_facts k _ _ _))) in Hr.
    - destruct (mini_tv k κ s s' x el' HM Tx) as [(el0 & T0 & Hd)|(key' & cl' & mp & _ & _ & -> & _)]; [congruence|].
      by rewrite (proj2 (proj2 (born_facts k _ _ _))) in Hr.
  Qed.
  Lemma path_swapped (A : kind -> Prop) s s' : (forall key, ~ A (KRefresh key false)) -> path A s s' -> swapped s -> swapped s'.
  Proof. intros HA. apply path_inv. intros κ s1 s2 Hκ HM. eapply mini_swapped; [exact HM|]. intros key ->. by eapply HA. Qed.
  Lemma revent_swapped s e l : l <> e -> k_refresh k <> None -> J (f_revent k (p_upd s e (fun el => with_rs el true)) l e) -> k_resolver k = RSync -> swapped s -> swapped (f_revent k (p_upd s e (fun el => with_rs el true)) l e).
  Proof.
    intros Hne Hrf HJ Hsync HS x el Tx Hr. assert (el_pending el = false) as Hnp. { destruct (j_sync _ _ HJ) as [?|[_ H]]; [congruence|by apply (H x)]. }
    apply tv_elim in Tx as Tx'. destruct Tx' as (Htab & e0 & He0 & ->). simpl in *.
    destruct (f_revent_me k (p_upd s e (fun el => with_rs el true)) l e) as (Ec & _). unfold tab in Htab. rewrite Ec, p_upd_cs in Htab. fold (tab s) in Htab.
    rewrite f_revent_els in He0. destruct (m_els (me s) !! x) as [ex|] eqn:Ex.
    - destruct (decide (x = e)) as [->|Hxe].
      + assert (m_els (me (p_upd s e (fun el => with_rs el true))) !! e = Some (with_rs ex true)) as E3 by (by rewrite p_upd_lookup, decide_True, Ex).
        rewrite (re_els_old k _ l e _ Hne E3) in He0. injection He0 as <-. simpl in *. unfold el_pending in Hnp. simpl in Hnp.
        unfold m_mark_expired, m_dead in *. by destruct (el_map ex), (k_pointer k).
      + assert (m_els (me (p_upd s e (fun el => with_rs el true))) !! x = Some ex) as E3 by (by rewrite p_upd_lookup, decide_False).
        destruct (decide (x = l)) as [->|Hxl].
        * destruct (re_els_new k _ l e _ Hne E3) as [cn E4]. rewrite E4 in He0. injection He0 as <-. simpl in *. by apply (HS l (with_rc ex 0)); [by apply tv_some|].
        * rewrite (re_els_other k _ l e x Hxl Hxe), E3 in He0. injection He0 as <-. by apply (HS x (with_rc ex 0)); [by apply tv_some|].
    - exfalso. assert (m_els (me (p_upd s e (fun el => with_rs el true))) !! x = None) as E3. { rewrite p_upd_lookup. case_decide; [subst; by rewrite Ex|done]. }
      assert (re_els k (m_els (me (p_upd s e (fun el => with_rs el true)))) l e !! x = None) as E4; [|congruence].
      unfold re_els. apply lookup_alter_None. destruct (bool_decide _); [by apply lookup_alter_None|done].
  Qed.
  Lemma worker_ends now g B items : forall Ws s, inv g s -> m_up (me s) = true -> g_xs g = [] -> g_act g = [] ->
    Forall2 (fun W => item_ok W B) Ws items -> k_resolver k <> RNone -> J s -> (forall key b, ~ B (KRefresh key b)) ->
    exists s', worker k s now items = Ok s' /\ inv g s' /\ ext (concat Ws) g s g s' /\
      (forall A : kind -> Prop, A KFree -> (forall e, A (KPop e)) -> (forall key, A (KRefresh key false)) ->
        (forall key, k_resolver k = RSync \/ (exists i o δ, B (KDone i o δ) /\ (m_ncb (me s) <= i)%N) -> A (KRefresh key true)) -> (forall κ, B κ -> A κ) ->
        (forall key, A (KEnter key HAny None)) -> (forall it key v, it ∈ items -> it.1.2 = ROk v -> A (KEnter key HAny (Some v))) -> path (upto A (m_ncb (me s))) s s') /\
      (eq_ok k -> (forall κ, B κ -> clean none κ) -> (k_resolver k = RSync -> forall key c o, ~ B (KEnter key c o)) -> uq k none s -> uq k none s') /\
      (forall key, (forall key' c o, B (KEnter key' c o) -> ~ (k_hash k key' = k_hash k key /\ k_eq k key' key = true)) -> nohope k s key -> nohope k s' key) /\
      (tame k -> (forall κ, B κ -> forward k κ /\ forall e, κ <> KPop e) -> cover (fun _ => False) s -> cover (fun _ => False) s') /\
      (forall d i, k_refresh k = Some (d, i) -> (0 < d)%Z -> (now <= m_steady (me s))%Z -> DQ d s -> length (dues now s) <= length items -> dues now s' = []) /\
      (forall d i (D : Z -> Prop), k_refresh k = Some (d, i) -> (0 < d)%Z -> (now <= m_steady (me s))%Z -> DQ d s -> (forall x el, x ∈ dues now s -> tv s x = Some el -> D (el_key el)) ->
        forall A : kind -> Prop, A KFree -> (forall e, A (KPop e)) -> (forall key, D key -> A (KRefresh key false)) ->
        (forall key, D key -> k_resolver k = RSync \/ (exists i o δ, B (KDone i o δ) /\ (m_ncb (me s) <= i)%N) -> A (KRefresh key true)) -> (forall κ, B κ -> A κ) ->
        (forall key, D key -> A (KEnter key HAny None)) -> (forall it key v, D key -> it ∈ items -> it.1.2 = ROk v -> A (KEnter key HAny (Some v))) -> path (upto A (m_ncb (me s))) s s') /\
      (k_resolver k = RSync -> eq_ok k -> (forall κ, B κ -> clean none κ) -> (forall key c o, ~ B (KEnter key c o)) -> uq k none s -> swapped s -> swapped s').
  Proof.
    induction items as [|[[u out] [keep throw]] items IH]; intros Ws s Hi Hup Gx Ga HW Hres HJ HnoR.
    { simpl. inversion HW; subst. exists s. split_and!; [done|done|apply ext_refl|intros; apply path_refl|done|done|done| |intros; apply path_refl|done]. intros d i _ _ _ _ Hl. apply nil_length_inv. lia. }
    inversion HW as [|W ? Ws' ? (Hu & Hok & Ht) HWs]; subst. simpl in Hu, Hok, Ht. subst throw.
    assert (ext (concat (W :: Ws')) g s g s) as Xr. { eapply ext_weaken; [|apply ext_refl]. intros y. rewrite cnt_nil. lia. }
    simpl worker. simpl c_dfront. simpl rbind. destruct (a_dq (cs s)) as [|e dq] eqn:Edq; simpl head. { exists s. split_and!; [done|done|done|intros; apply path_refl|done|done|done| |intros; apply path_refl|done]. intros. unfold dues. by rewrite Edq. }
    assert (e ∈ a_dq (cs s)) as He by (rewrite Edq; by left).
    destruct (i_dq _ _ _ Hi e He) as [HeL Hrf]. destruct (i_tab _ _ _ Hi e HeL) as [el Hel].
    unfold s_el, rd_el. rewrite Hel. simpl rbind. pose proof (i_up _ _ _ Hi Hup) as Ht0.
    assert (tv s e = Some (with_rc el 0)) as Te. { apply tv_some; [|done]. unfold LT in HeL. by rewrite Gx, (a_tab_None _ Ht0) in HeL. }
    case_bool_decide as Hdue.
    2: { exists s. split_and!; [done|done|done|intros; apply path_refl|done|done|done| |intros; apply path_refl|done]. intros d i Er Hd Hnow HD Hl. apply elem_of_nil_inv. intros x [Hx Hxq]%elem_of_list_filter.
      pose proof (d_sorted _ _ HD) as Hso. rewrite Edq in Hso, Hxq. apply StronglySorted_inv in Hso as [_ Hso]. rewrite Forall_forall in Hso.
      assert (due s e <= now)%Z as Hde. { apply elem_of_cons in Hxq as [->|Hxq]; [done|]. specialize (Hso x Hxq). simpl in Hso. lia. }
      unfold due in Hde. rewrite Te in Hde. simpl in Hde. done. }
    simpl. unfold need. rewrite <-Edq. rewrite decide_True by done. simpl.
    set (s1 := with_cs s _).
    assert (inv g s1) as I1.
    { apply inv_dq; [done|..].
      - apply rm_nodup. apply Hi.
      - intros x [_ Hx]%elem_of_rm. by apply Hi.
      - intros x ex [_ Hx]%elem_of_rm. by apply (i_dnp _ _ _ Hi). }
    assert (mini (KPop e) s s1) as M1.
    { apply mini_of; [done|apply rest_cs|]. apply b_same; try done; [by right; right; left; exists e|]. by intros e' [= ->]. }
    assert (forall A : kind -> Prop, A (KPop e) -> path A s s1) as P1. { intros A HA. by eapply path_one. }
    destruct (refresh_ends W g s1 e u out keep B) as (s2 & E2 & I2 & X2 & P2 & U2 & R2 & Skip2 & Q2 & _); try done.
    { exists el. split; [done|]. by eapply (i_dnp _ _ _ Hi). }
    { eapply (path_J k (fun _ => True)); [by apply P1|done]. }
    rewrite E2. simpl rbind.
    destruct (IH Ws' s2) as (s3 & E3 & I3 & X3 & P3 & U3 & N3 & C3 & D3 & K3 & W3); try done.
    { by rewrite (x_up _ _ _ _ _ X2). }
    { eapply (path_J k (upto (fun _ => True) (m_ncb (me s)))); [|exact HJ]. eapply path_trans; [apply P1; by left|]. by apply P2. }
    exists s3. split_and!; [done|done|..].
    - simpl concat. eapply (ext_trans k W (concat Ws')); [exact Hi| |exact X3].
      eapply ext_trans0; [exact Hi| |exact X2]. by apply ext_cs.
    - intros A HA1 HA0 HA2 HA2' HA3 HA4 HA5. eapply path_trans; [apply P1; left; apply HA0|]. eapply path_trans; [apply (P2 A); try done; [intros key _; apply HA2'|intros key v _ ->; eapply HA5; [by left|done]]|].
      pose proof (x_ncb _ _ _ _ _ X2) as Hncb.
      eapply upto_path; [| |apply (P3 A); try done]; [done|done| |].
      + intros key [?|(i & o & δ & HB & Hle)]; apply HA2'; [by left|right]. exists i, o, δ. split; [done|]. simpl in *. lia.
      + intros it key v Hit Hv. eapply HA5; [by right|done].
    - intros Heq Hcl Hsync HU. apply U3; try done. by apply U2.
    - intros key HB HN. apply N3; [done|].
      assert (nohope k s1 key) as HN1. { eapply (path_nohope k (fun κ => κ = KPop e)); [|by apply P1|done]. done. }
      set (same := fun key' => k_hash k key' = k_hash k key /\ k_eq k key' key = true).
      eapply (path_nohope k (upto (fun κ => match κ with KEnter key' _ _ => ~ same key' | _ => True end) (m_ncb (me s1)))); [|apply P2|exact HN1]; try done.
      + intros key' c o [Hc|(i & Hc & _)]; [exact Hc|discriminate Hc].
      + intros κ HBκ. destruct κ as [| | | | | |key' cl o| | | | | |]; try done. by eapply HB.
      + intros key' Hdue' Hs. by eapply (due_hope g s1 e key key').
      + intros key' v Hdue' _ Hs. by eapply (due_hope g s1 e key key').
    - intros Htame HB HC. apply C3; try done. destruct (k_refresh k) as [[d i]|] eqn:Er; [|done].
      assert (cover (eq e) s2) as HC2.
      { eapply (path_cover k d i Er (eq e) (upto (fun κ => forward k κ /\ forall x, κ = KPop x -> e = x) (m_ncb (me s)))); [done|exact HJ|..].
        - intros κ [[? _]|(j & -> & _)]; [done|by right].
        - intros x [[_ H]|(j & ? & _)]; [by apply H|done].
        - eapply path_trans; [apply P1; left; split; [by right|by intros x [= ->]]|].
          apply (P2 (fun κ => forward k κ /\ forall x, κ = KPop x -> e = x)); try (intros; split; [by right|done]).
          intros κ HBκ. destruct (HB κ HBκ) as [H1 H2]. split; [done|]. intros x ->. by destruct (H2 x).
        - intros x ex Tx Hv Hr Hl. destruct (HC x ex Tx Hv Hr Hl) as [?|[]]. by left. }
      intros x ex Tx Hv Hr Hl. destruct (HC2 x ex Tx Hv Hr Hl) as [?|<-]; [by left|]. exfalso. destruct (R2 ex Tx) as [?|Hx]; [congruence|].
      unfold el_expired in Hx. unfold late in Hl. rewrite !orb_false_iff in Hl. destruct Hl as [[L1 L2] L3]. rewrite L1, L2, L3 in Hx. by destruct (el_map ex).
    - intros d i Er Hd Hnow HD Hl. assert (path (fun _ => True) s1 s2) as P12. { eapply path_weaken; [|apply (P2 (fun _ => True)); done]. done. }
      pose proof (path_steady k _ _ _ P12) as Hst. assert (DQ d s1) as HD1 by (by eapply (mini_DQ k d i)).
      apply (D3 d i Er Hd); [simpl in Hst; lia|by eapply (path_DQ k d i Er)|].
      pose proof (sublist_length _ _ (path_dues k d i Er _ s1 s2 now Hd Hnow P12 HD1)) as L1. rewrite (pop_dues k e s s1 now M1) in L1.
      assert (e ∈ dues now s) as Hin. { apply elem_of_list_filter. split; [|done]. unfold due. by rewrite Te. }
      pose proof (rm_shrinks e _ Hin). simpl in Hl. lia.
    - intros d i D Er Hd Hnow HD HDk A HA1 HA0 HA2 HA2' HA3 HA4 HA5.
      assert (D (el_key el)) as HDe. { apply (HDk e (with_rc el 0)); [|done]. apply elem_of_list_filter. split; [|done]. unfold due. by rewrite Te. }
      assert (forall key, due_key s1 e key -> D key) as Hdk. { intros key (el1 & Hel1 & _ & <- & _). simpl in Hel1. rewrite Hel in Hel1. by injection Hel1 as <-. }
      assert (path (upto A (m_ncb (me s))) s1 s2) as P12.
      { apply (P2 A); try done; [by auto|intros key Hk; by apply HA2', Hdk|by auto|intros key v Hk ->; eapply HA5; [by apply Hdk|by left|done]]. }
      assert (path (upto A (m_ncb (me s))) s s2) as P02. { eapply path_trans; [apply P1; left; apply HA0|exact P12]. }
      eapply path_trans; [exact P02|]. pose proof (x_ncb _ _ _ _ _ X2) as Hncb. pose proof (path_steady k _ _ _ P02) as Hst.
      eapply upto_path; [| |apply (K3 d i D Er Hd); try done]; [done|done|lia|by eapply (path_DQ k d i Er)|by eapply (path_dkeys k d i Er)| |].
      + intros key Hkey [?|(j & o & δ & HB & Hle)]; apply HA2'; try done; [by left|right]. exists j, o, δ. split; [done|]. simpl in *. lia.
      + intros it key v Hkey Hit Hv. eapply HA5; [done|by right|done].
    - intros Hsync Heq Hcl HnoE HU HS. apply W3; try done; [by apply U2|].
      destruct (el_rs el || el_expired k (me s) el) eqn:Eskip; [by rewrite (Skip2 el Hel Eskip)|]. apply orb_false_iff in Eskip as [Hrs Hunex].
      destruct (Q2 el Hel Hrs Hunex Hsync HU HnoE) as (sx & sa & sb & l & Pa & Pb & Mb & Hne & J4 & Pc).
      eapply path_swapped; [|exact Pc|]; [done|]. apply revent_swapped; try done. eapply mini_swapped; [exact Mb|done|]. eapply path_swapped; [|exact Pb|]; [done|].
      eapply path_swapped; [|exact Pa|exact HS]. intros key [[?|HB]|(? & ? & _)]; [done|by eapply HnoR|done].
  Qed.

  (** ** Destruction *)
  Lemma inv_down g s : inv g s -> inv g (with_me s (set_up (me s) false)).
  Proof. intros []. split; simpl; done. Qed.
  Lemma destroy_loop_ends g : g_xs g = [] -> forall fuel s, inv g s -> m_up (me s) = false -> length (a_tab (cs s)) < fuel ->
    exists s', destroy_loop k fuel s = Ok s' /\ inv g s' /\ ext [] g s g s' /\ a_tab (cs s') = [].
  Proof.
    intros Gx. induction fuel as [|f IH]; intros s Hi Hup Hf; [lia|]. simpl.
    destruct (a_tab (cs s)) as [|e r] eqn:Et. { exists s. split_and!; [done|done|apply ext_refl|done]. }
    simpl in Hf. pose proof (inv_pop k g s e r Hi Hup Et) as I1. set (s1 := with_cs s _) in *. rewrite Gx in I1.
    destruct (i_tab _ _ _ I1 e) as [el Hel]; [by left|].
    destruct (dispose_ends k g [] s1 e el I1 Hel) as (E2 & I2 & X2); [done|].
    rewrite E2. simpl rbind. rewrite <-Gx in I2.
    assert (with_xs g (g_xs g) = g) as Eg by (by destruct g). rewrite Eg in I2. 
    assert (a_tab (cs (f_disp k s1 e)) = r) as Et2.
    { unfold f_disp. destruct (f_dec_cs (with_cs (f_cancel s1 e) (unq k (cs (f_cancel s1 e)) e)) e) as (Eb & Eto & _). unfold a_tab. rewrite Eto. simpl.
      destruct (f_cancel_cs s1 e) as (_ & -> & _). done. }
    destruct (IH (f_disp k s1 e)) as (s3 & E3 & I3 & X3 & T3); try done.
    { by rewrite (x_up _ _ _ _ _ X2). } { rewrite Et2. lia. }
    exists s3. split_and!; try done. eapply (ext_trans0 k); [exact Hi| |exact X3].
    eapply (ext_trans0 k) with (g2 := with_xs g [e]) (s2 := s1); [exact Hi| |eapply ext_ghost; [| |exact X2]; done]. by apply ext_cs.
  Qed.
  Lemma tab_size g s : inv g s -> length (LT g (cs s)) <= size (m_els (me s)).
  Proof.
    intros Hi. pose proof (i_nd _ _ _ Hi) as Hnd. pose proof (i_tab _ _ _ Hi) as Hin.
    rewrite <-(size_list_to_set (C := gset N)) by done. rewrite <-size_dom. apply subseteq_size.
    intros x. rewrite elem_of_list_to_set. intros Hx. apply elem_of_dom. by apply Hin.
  Qed.
  Lemma destroy_ends g s : inv g s -> g_xs g = [] ->
    exists s', destroy_loop k (sweep_fuel s) (with_me s (set_up (me s) false)) = Ok s' /\ inv g s' /\
      (forall w, wtot g s' w = wtot g s w) /\ a_tab (cs s') = [] /\ m_up (me s') = false /\ exists l, m_log (me s') = l ++ m_log (me s).
  Proof.
    intros Hi Gx. pose proof (inv_down g s Hi) as I1.
    destruct (destroy_loop_ends g Gx (sweep_fuel s) (with_me s (set_up (me s) false)) I1 eq_refl) as (s' & E & I & X & T).
    { unfold sweep_fuel. pose proof (tab_size g s Hi) as H. unfold LT in H. rewrite app_length in H. simpl. lia. }
    exists s'. split_and!; try done.
    - intros w. pose proof (x_wait _ _ _ _ _ X w) as H. rewrite cnt_nil in H.
      assert (wtot g (with_me s (set_up (me s) false)) w = wtot g s w) as E1 by done. lia.
    - by rewrite (x_up _ _ _ _ _ X).
    - apply (x_log _ _ _ _ _ X).
  Qed.
End resolve.
