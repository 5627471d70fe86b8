(** What the lookups with a resolver answer, and when they call the resolver. *)
From stdpp Require Import sorting.
From Verif Require Import Base AQueue ATable BasicHashtable QueueProofs BasicHashtableProofs ContainersProofs Mapped Cache CachePtr CacheAbs CompSim CacheSim AbsInv AbsPrim AbsPrim2 AbsSweep AbsOps AbsComp Trace AbsTrace TraceInv Delay AbsTraceCb Histories AbsResolve AbsStep AbsLook Effects Observe Transfer Lookups.

Section logs.
  Context (k : cfg).
  (** ** What is logged *)
  (** everything but the entries and the pointers the user holds *)
  Record env (s s' : sta) : Prop := {
    v_log : m_log (me s') = m_log (me s);
    v_cbs : m_cbs (me s') = m_cbs (me s);
    v_ncb : m_ncb (me s') = m_ncb (me s);
    v_up : m_up (me s') = m_up (me s);
    v_wall : m_wall (me s') = m_wall (me s);
    v_steady : m_steady (me s') = m_steady (me s)
  }.
  Lemma env_refl s : env s s.
  Proof. done. Qed.
  Lemma env_trans s1 s2 s3 : env s1 s2 -> env s2 s3 -> env s1 s3.
  Proof. intros [] []. split; congruence. Qed.
  Lemma env_cs s c : env s (with_cs s c).
  Proof. done. Qed.
  Lemma env_upd s e f : env s (p_upd s e f).
  Proof. unfold p_upd. by destruct (m_els (me s) !! e). Qed.
  Lemma env_dec s e : env s (f_dec s e).
  Proof. unfold f_dec. destruct (m_els (me s) !! e) as [el|]; [|done]. by destruct (el_rc el) as [|[|n]]. Qed.
  Lemma env_rem s e el : m_els (me s) !! e = Some el -> ~ is_pend el -> env s (f_rem k s e).
  Proof. intros H1 H2. rewrite (f_rem_settled k _ _ _ H1 H2). by eapply env_trans; [|apply env_dec]. Qed.
  Lemma gone_el s e : gone k s e = true -> exists el, m_els (me s) !! e = Some el /\ ~ is_pend el.
  Proof. intros H. destruct (m_els (me s) !! e) as [el|] eqn:E; [|by unfold gone in H; rewrite E in H]. exists el. split; [done|]. by eapply gone_nopend. Qed.
  Lemma env_fsw va M : (forall s e, va s e = Drop -> gone k s e = true) -> forall s, env s (fsw k (fun s _ => s) va M s).1.
  Proof.
    intros Hv. induction M as [|e M IH]; intros s; simpl; [done|]. destruct (va s e) eqn:E; [by apply IH| |done].
    destruct (gone_el s e (Hv _ _ E)) as (el & H1 & H2). by eapply env_trans; [apply (env_rem s e el)|apply IH].
  Qed.
  Lemma env_find s key incl : env s (f_find k s key incl).1.
  Proof. apply env_fsw. intros s1 e. unfold va_get. destruct (gone k s1 e); [done|]. by destruct (ans k s1 _ key incl e). Qed.
  Lemma env_ue s : env s (f_ue k s).
  Proof. apply env_fsw. intros s1 e. unfold va_ue. by destruct (gone k s1 e). Qed.
  Lemma env_hit s e : env s (f_hit k s e).
  Proof.
    assert (env s (f_hitq k s e)) as E. { unfold f_hitq, f_strengthen. destruct (has_queue k); [|done]. by eapply env_trans; [|apply env_upd]. }
    unfold f_hit. destruct (k_refresh k) as [[d i]|]; [|done]. destruct (_ && _); [|done]. by eapply env_trans; [|apply env_upd].
  Qed.
  Lemma env_get s key incl : env s (f_get k s key incl).1.
  Proof. pose proof (env_find s key incl) as H. unfold f_get. destruct (f_find k s key incl) as [s1 [[e r]|]]; simpl in *; [|done]. eapply env_trans; [exact H|apply env_hit]. Qed.
  Lemma env_assign s e ok : env s (f_assign k s e ok).
  Proof.
    rewrite f_assign_eq. assert (env s (f_assign1 k s e ok)) as E.
    { unfold f_assign1, f_age. destruct ok, (k_max_age k), (k_err_age k); try done; apply env_upd. }
    destruct (k_refresh k) as [[d i]|]; [|done]. destruct ok; [|done]. eapply env_trans; [exact E|]. unfold f_arefresh. case_bool_decide.
    - eapply env_trans; [apply env_upd|apply env_cs].
    - eapply env_trans; [|apply env_upd]. eapply env_trans; [apply env_upd|apply env_cs].
  Qed.
  Lemma env_link s h e : env s (f_link k s h e).
  Proof.
    assert (env s (f_mrehash k s)) as E1.
    { unfold f_mrehash. set (s1 := if k_over k _ _ then f_ue k s else s). assert (env s s1) as E. { unfold s1. destruct (k_over k _ _); [apply env_ue|done]. }
      clearbody s1. destruct (_ || _); [|exact E]. eapply env_trans; [exact E|]. done. }
    assert (env s (f_create k (f_mrehash k s) h e)) as E2.
    { eapply env_trans; [exact E1|]. unfold f_create, f_strengthen. destruct (has_queue k); [|done]. destruct (aq_create _ e).2; [|done]. by eapply env_trans; [|apply env_upd]. }
    unfold f_link. destruct (pends _ _); [done|]. eapply env_trans; [exact E2|apply env_assign].
  Qed.
  Lemma env_give (s : sta) v : env s (give k s v).
  Proof. unfold give. by destruct (k_pointer k). Qed.
  Lemma env_rsync s e h out : env s (f_rsync k s e h out).
  Proof. unfold f_rsync, p_inc. eapply env_trans; [|apply env_link]. eapply env_trans; [|apply env_upd]. apply env_upd. Qed.
  Lemma apre_env s key : m_log (me (f_apre k s key)) = m_log (me s) /\ m_ncb (me (f_apre k s key)) = N.succ (m_ncb (me s)) /\
    m_cbs (me (f_apre k s key)) = <[m_ncb (me s) := Cbk (m_nxt (me s)) false true true]> (m_cbs (me s)).
  Proof.
    unfold f_apre. set (s1 := p_inc (f_alloc s key (MPend pend_init)) (m_nxt (me s))).
    assert (env (f_alloc s key (MPend pend_init)) s1) as E1 by apply env_upd. set (s2 := with_me s1 _).
    assert (env s2 (f_link k (p_inc s2 (m_nxt (me s))) (k_hash k key) (m_nxt (me s)))) as E2.
    { eapply env_trans; [|apply env_link]. apply env_upd. }
    rewrite (v_log _ _ E2), (v_ncb _ _ E2), (v_cbs _ _ E2). unfold s2. simpl. rewrite (v_log _ _ E1), (v_cbs _ _ E1). done.
  Qed.
End logs.

Section answers.
  Context (k : cfg) (Hk : fine_cfg k) (Hta : tame k) (Hq : eq_ok k).
  Notation srel := (srel comp_abs comp_ptr crel).
  Notation top := (top k).
  Notation look := (looki k).
  Notation uq := (uq k none).

  (** ** Values are found whether or not lookups in flight count *)
  Lemma vis_false m el : vis m false el = match vis m true el with RP => R0 | r => r end.
  Proof using. unfold vis. destruct (el_map el); try done; [by destruct (p_exp p)|by destruct (late m el)]. Qed.
  Lemma cand_false s key x : cand k s key false x = match cand k s key true x with RP => R0 | r => r end.
  Proof using. unfold cand. destruct (tv s x); [|done]. destruct (k_eq k (el_key e) key); [|done]. apply vis_false. Qed.
  Lemma look_true s key v : look s key true = RV v -> look s key false = RV v.
  Proof using.
    unfold looki. induction (hseq s (k_hash k key)) as [|x M IH]; simpl; [done|]. rewrite cand_false.
    destruct (cand k s key true x); try done.
  Qed.
  Lemma look_false g s key v : inv k g s -> a_torn (cs s) = None -> J k s -> (k_resolver k = RAsync -> uq s) -> look s key false = RV v -> look s key true = RV v.
  Proof using Hta Hq.
    intros Hi Ht HJ Hu E. destruct (look_firm k s key v false Hta Hq HJ E Hu) as (x & el & Hf & Hl). by eapply firm_look.
  Qed.
  Lemma look_kinds s key incl : look s key incl = R0 \/ (exists v, look s key incl = RV v) \/ incl = true /\ look s key incl = RP.
  Proof using.
    unfold looki. induction (hseq s (k_hash k key)) as [|x M IH]; simpl; [by left|].
    assert (cand k s key incl x = R0 \/ (exists v, cand k s key incl x = RV v) \/ incl = true /\ cand k s key incl x = RP) as [-> |[[v ->]|[-> ->]]]; [|done|eauto|eauto].
    unfold cand, vis. destruct (tv s x) as [el|]; [|by left]. destruct (k_eq k (el_key el) key); [|by left]. destruct (el_map el) as [p|v| | | |]; try (by left).
    - destruct incl; simpl; [|by left]. destruct (p_exp p); simpl; eauto.
    - destruct (late (me s) el); eauto.
  Qed.
  (** at most one entry per key *)
  Definition ready (s : sta) : Prop := top s /\ (m_up (me s) = true -> k_resolver k = RAsync -> uq s).
  Lemma ready_step s o s' r : ready s -> fine_op false o = true -> step k false o s = Ok (s', r) -> ready s'.
  Proof using Hk Hta Hq.
    intros [T U] Hf E. destruct (top_step k Hk o s T Hf) as (s1 & r1 & E1 & T1 & _ & _ & Hu & Hd). rewrite E in E1. injection E1 as <- <-. split; [done|].
    intros Hup' Hr. destruct (m_up (me s)) eqn:Hup; [|by rewrite Hd in Hup'].
    assert (o <> ODestroy) as Hn.
    { intros ->. destruct T as [Hi _ _]. destruct (destroy_ends k g0 s Hi eq_refl) as (s2 & E2 & _ & _ & _ & U2 & _).
      rewrite step_eq in E. unfold step_with in E. rewrite Hup in E. change (negb true) with false in E. cbv beta iota in E. rewrite E2 in E. unfold rbind in E. injection E as <- <-. congruence. }
    destruct (Hu eq_refl Hn) as (_ & _ & Hq' & _). apply Hq'; try done; [by apply clean_all; rewrite Hr|by apply U].
  Qed.
  Lemma ready_run l : forall s s', ready s -> fine l -> run k l s = Ok s' -> ready s'.
  Proof using Hk Hta Hq.
    induction l as [|o l IH]; intros s s' R Hf E; [by injection E as <-|]. rewrite run_cons in E. unfold fine in Hf. simpl in Hf. apply andb_true_iff in Hf as [Hf1 Hf2].
    destruct (top_step k Hk o s (proj1 R) Hf1) as (s1 & r1 & E1 & _). rewrite E1 in E. unfold rbind in E. eapply IH; [|done|exact E]. by eapply ready_step.
  Qed.
  Lemma ready_init : ready st_init.
  Proof using. split; [apply top_init|]. intros _ _ x y ex ey H. done. Qed.
  Lemma after_ready l sc : fine l -> after k l sc -> exists sa, srel sa sc /\ ready sa.
  Proof using Hk Hta Hq.
    intros Hf Ha. destruct (after_abs k Hk l sc Hf Ha) as (sa & R & S & T & _). exists sa. split; [done|]. eapply ready_run; [apply ready_init|done|exact R].
  Qed.

  (** ** [get] *)
  Lemma ready_facts s : ready s -> m_up (me s) = true -> inv k g0 s /\ a_torn (cs s) = None /\ J k s /\ (k_resolver k = RAsync -> uq s).
  Proof using. intros [T U] Hup. destruct (top_facts k s T Hup) as (? & ? & ?). split_and!; auto. Qed.
  Lemma get_hit s key script out v : ready s -> m_up (me s) = true -> k_resolver k <> RAsync -> look s key false = RV v ->
    step k false (OGet key script out) s = Ok (give k (f_get k s key false).1 v, RetVal v).
  Proof using Hta.
    intros R Hup Hr E. destruct (ready_facts s R Hup) as (Hi & Ht & HJ & _). rewrite step_eq. unfold step_with. rewrite Hup. change (negb true) with false. cbv beta iota. simpl andb. cbv iota.
    pose proof (get_answer k g0 s key false Hta Hi Ht HJ) as Ha. rewrite E, <-(get_result k) in Ha. destruct Ha as [e Ha].
    assert (get k s key (run_nested k script) out = Ok (give k (f_get k s key false).1 v, RetVal v)) as Eg.
    { unfold get. rewrite (proj1 (get_ends k g0 s key false Hi Ht)). destruct (f_get k s key false) as [s1 r1]. simpl in Ha. subst r1. simpl. by destruct (k_resolver k). }
    destruct (k_resolver k); [exact Eg|exact Eg|done].
  Qed.
  Lemma get_none s key script out : ready s -> m_up (me s) = true -> k_resolver k = RNone -> look s key false = R0 ->
    step k false (OGet key script out) s = Ok ((f_get k s key false).1, RetNone).
  Proof using Hta.
    intros R Hup Hr E. destruct (ready_facts s R Hup) as (Hi & Ht & HJ & _). rewrite step_eq. unfold step_with. rewrite Hup. change (negb true) with false. cbv beta iota. simpl andb. cbv iota. rewrite Hr.
    pose proof (get_answer k g0 s key false Hta Hi Ht HJ) as Ha. rewrite E, <-(get_result k) in Ha.
    unfold get. rewrite (proj1 (get_ends k g0 s key false Hi Ht)), Hr. destruct (f_get k s key false) as [s1 r1]. simpl in Ha. by subst r1.
  Qed.
  Lemma safe_all l : forallb (fine_op true) l = true -> safe k (concat (map op_waiters l)) (kinds k l) (run_nested k l).
  Proof using Hk. intros Hf. apply safe_run; try done. apply Forall_true. apply good_step. exact Hk. Qed.
  Definition ret_of (s : sta) (out : outcome) : ret :=
    match out with ROk v => if holds k s v then RetVal v else RetErr 1 | RThrow x => RetErr x | RCtor => RetBug end.
  Lemma get_sync s key script out : ready s -> m_up (me s) = true -> k_resolver k = RSync -> forallb (fine_op true) script = true -> no_ctor_throw out = true ->
    look s key false = R0 ->
    exists s1 s2 s3 s', step k false (OGet key script out) s = Ok (s', ret_of s1 out) /\
      run_nested k script (s_log (f_alloc (f_find k s key false).1 key (MPend pend_init)) (EvResolve key)) = Ok s1 /\
      (exists l, m_log (me s') = l ++ EvResolve key :: m_log (me s) /\ (script = [] -> l = [])) /\
      m_log (me s') = m_log (me s1) /\
      (exists g1, inv k g1 s1) /\ m_up (me s1) = true /\
      path k (upto (fun κ => κ = KFree \/ kinds k script κ) (m_ncb (me s))) s s1 /\ path k (fun κ => κ = KFree) s1 s2 /\
      mini k (KEnter key (if existsb (enters (same k key)) script then HAny else HClean) (val_of (out_map k s1 out))) s2 s3 /\
      path k (fun κ => κ = KFree) s3 s'.
  Proof using Hk Hta.
    intros R Hup Hr Hf Ho E. destruct (ready_facts s R Hup) as (Hi & Ht & HJ & _).
    pose proof (get_answer k g0 s key false Hta Hi Ht HJ) as Ha. rewrite E in Ha.
    destruct (find_ends k g0 s key false Hi Ht) as (_ & I1 & X1 & T1).
    pose proof (find_path k (fun κ => κ = KFree) g0 s key false eq_refl Hi Ht) as P1.
    assert (J k (f_find k s key false).1) as HJ1 by (eapply (path_J k); [exact P1|done]).
    assert (m_up (me (f_find k s key false).1) = true) as Hup1 by (by rewrite (x_up _ _ _ _ _ X1)).
    pose proof (find_nohope k g0 s key false Hi Ht HJ Ha (or_intror (fun H => eq_ind RSync (fun r => match r with RSync => True | _ => False end) I _ (eq_trans (eq_sym Hr) H)))) as Hnh.
    set (sm := (f_find k s key false).1) in *.
    destruct (resolve_sync_ends k _ g0 sm key (run_nested k script) out (kinds k script) I1 Hup1 eq_refl eq_refl (safe_all script Hf) (rok_of _ Ho) HJ1 Hr)
      as (s1 & s3 & E1 & E2 & E3 & I3 & X3 & _ & H3 & T3 & (el & Hel & _ & Hkey & Hmap) & Hen & _).
    destruct (Hen (if existsb (enters (same k key)) script then HAny else HClean)) as (s2 & Q1 & Q2 & Q3).
    { destruct (existsb _ script); [done|]. done. }
    { destruct (existsb _ script) eqn:Ee; [done|]. intros _ key' c o (o' & Ho' & Hk')%anyof_exists [F1 F2].
      pose proof (okind_enters k (same k key) o' key' c o (forallb_in _ _ _ Hf Ho') Hk' (existsb_false _ _ _ Ee Ho')) as H. unfold same in H. rewrite F2, bool_decide_true in H by done. done. }
    destruct (drop_ok k _ _ _ I3) as (E4 & I4 & X4).
    assert (path k (fun κ => κ = KFree) s3 (f_dec s3 (m_nxt (me sm)))) as P4 by (by eapply dec_path).
    assert (exists s', step k false (OGet key script out) s = Ok (s', ret_of s1 out) /\ path k (fun κ => κ = KFree) s3 s' /\ m_log (me s') = m_log (me s3)) as (s' & Es & Ps & Ls).
    { rewrite step_eq. unfold step_with. rewrite Hup. change (negb true) with false. cbv beta iota. simpl andb. cbv iota. rewrite Hr.
      unfold get. rewrite (proj1 (get_ends k g0 s key false Hi Ht)), (get_miss k s key false Ha). fold sm. simpl rbind. rewrite Hr. rewrite E2. simpl rbind.
      unfold s_el, rd_el. rewrite Hel. simpl rbind. rewrite Hmap. rewrite E4. simpl rbind. unfold out_map, ret_of. destruct out as [v|x|]; [|..|done].
      - destruct (holds k s1 v); simpl.
        + eexists. split_and!; [done| |by rewrite (v_log _ _ (env_give k _ _)), (v_log _ _ (env_dec _ _))]. eapply path_trans; [exact P4|]. by apply give_path.
        + eexists. split_and!; [done|done|by rewrite (v_log _ _ (env_dec _ _))].
      - simpl. eexists. split_and!; [done|done|by rewrite (v_log _ _ (env_dec _ _))]. }
    assert ((exists l, m_log (me s1) = l ++ EvResolve key :: m_log (me s) /\ (script = [] -> l = [])) /\ (exists g1, inv k g1 s1) /\ m_up (me s1) = true) as (L1 & G1 & U1).
    { destruct (safe_all script Hf (with_priv g0 (m_nxt (me sm) :: g_priv g0)) (s_log (f_alloc sm key (MPend pend_init)) (EvResolve key))) as (s1' & E1' & I1' & X1' & _); try done.
      { apply inv_log. by apply (alloc_priv k). }
      { eapply (path_J k (fun κ => κ = KFree)); [|exact HJ1]. eapply path_trans; [by eapply (alloc_path k _ g0 sm)|]. by apply log_path. }
      assert (s1' = s1) as -> by congruence. destruct (x_log _ _ _ _ _ X1') as [l El]. simpl in El. split_and!; [|by eauto|by rewrite (x_up _ _ _ _ _ X1')]. exists l. split.
      + rewrite El. unfold sm. by rewrite (v_log _ _ (env_find k _ _ _)).
      + intros ->. simpl in E1. injection E1 as <-. simpl in El. by apply (app_inv_tail (EvResolve key :: m_log (me sm)) l []). }
    exists s1, s2, s3, s'. split_and!; try done.
    - by rewrite Ls, E3, (v_log _ _ (env_rsync k _ _ _ _)).
    - by rewrite Ls, E3, (v_log _ _ (env_rsync k _ _ _ _)).
    - eapply path_trans; [eapply path_weaken; [|exact P1]; intros κ ->; by left; left|]. eapply upto_path; [| |exact Q1]; [done|apply (x_ncb _ _ _ _ _ X1)].
  Qed.
  (** ** [async_get] *)
  Definition W (s : sta) (x : N) : list N := match m_els (me s) !! x with Some el => stored_waiters el | None => [] end.
  Lemma W_upd s e f x : (forall el, m_els (me s) !! e = Some el -> stored_waiters (f el) = stored_waiters el) -> W (p_upd s e f) x = W s x.
  Proof using.
    intros H. unfold W. rewrite p_upd_lookup. destruct (decide (x = e)) as [->|]; [|done]. destruct (m_els (me s) !! e) as [el|] eqn:E; simpl; [|done]. by apply H.
  Qed.
  Lemma settled_waiters el : ~ is_pend el -> stored_waiters el = [].
  Proof using. unfold is_pend, el_pending, stored_waiters. by destruct (el_map el). Qed.
  Lemma W_dec s e x el : m_els (me s) !! e = Some el -> ~ is_pend el -> W (f_dec s e) x = W s x.
  Proof using.
    intros H1 H2. destruct (decide (x = e)) as [->|Hne]; [|unfold W; by rewrite f_dec_els].
    unfold W, f_dec. rewrite H1. destruct (el_rc el) as [|[|n]]; simpl; rewrite ?lookup_delete, ?lookup_insert; done || by rewrite settled_waiters.
  Qed.
  Lemma W_rem s e x el : m_els (me s) !! e = Some el -> ~ is_pend el -> W (f_rem k s e) x = W s x.
  Proof using. intros H1 H2. rewrite (f_rem_settled k _ _ _ H1 H2). by eapply (W_dec (with_cs s _)). Qed.
  Lemma W_find s key incl x : W (f_find k s key incl).1 x = W s x.
  Proof using.
    unfold f_find. generalize (bucket s (k_hash k key)) as M. intros M. revert s. induction M as [|e M IH]; intros s; simpl; [done|].
    unfold va_get at 1. destruct (gone k s e) eqn:G.
    - destruct (gone_el k s e G) as (el & H1 & H2). by rewrite IH, (W_rem s e x el).
    - by destruct (ans k s _ key incl e); [rewrite IH|..].
  Qed.
  Lemma W_strengthen s e x : W (f_strengthen k s e) x = W s x.
  Proof using. apply W_upd. intros el _. unfold stored_waiters. simpl. unfold p_strengthen. destruct (el_map el) as [[? [] ?]| |[v|]| | |]; simpl; try done. by destruct (alive _ v). Qed.
  Lemma W_hit s e x : W (f_hit k s e) x = W s x.
  Proof using.
    assert (W (f_hitq k s e) x = W s x) as E. { unfold f_hitq. destruct (has_queue k); [|done]. by rewrite W_strengthen. }
    unfold f_hit. destruct (k_refresh k) as [[d i]|]; [|done]. destruct (_ && _); [|done]. by rewrite W_upd.
  Qed.
  Lemma W_get s key incl x : W (f_get k s key incl).1 x = W s x.
  Proof using. pose proof (W_find s key incl x) as H. unfold f_get. destruct (f_find k s key incl) as [s1 [[e r]|]]; simpl in *; by rewrite ?W_hit. Qed.
  Lemma step_aget (s : sta) w key script keep throw imm : m_up (me s) = true -> k_resolver k = RAsync ->
    step k false (OAGet w key script keep throw imm) s = async_get k s w key (run_nested k script) keep throw (run_nested k imm).
  Proof using.
    intros Hup Hr. rewrite step_eq. unfold step_with. rewrite Hup. change (negb true) with false. cbv beta iota. simpl andb. cbv iota. by rewrite Hr.
  Qed.
  Lemma aget_hit s w key script keep throw imm v : ready s -> m_up (me s) = true -> k_resolver k = RAsync -> forallb (fine_op true) imm = true -> look s key false = RV v ->
    exists s' l, step k false (OAGet w key script keep throw imm) s = Ok (s', RetNone) /\
      m_log (me s') = l ++ EvCall w v 0 true :: m_log (me s) /\ (imm = [] -> l = []).
  Proof using Hk Hta Hq.
    intros R Hup Hr Hf E. destruct (ready_facts s R Hup) as (Hi & Ht & HJ & Hu). rewrite step_aget by done.
    pose proof (look_false g0 s key v Hi Ht HJ Hu E) as E'.
    pose proof (get_answer k g0 s key true Hta Hi Ht HJ) as Ha. rewrite E', <-(get_result k) in Ha. destruct Ha as [e Ha].
    destruct (get_ends k g0 s key true Hi Ht) as (Eg & I1 & X1 & T1 & _).
    pose proof (get_path k (fun _ => True) g0 s key true I I Hi Ht) as P1. pose proof (v_log _ _ (env_get k s key true)) as L1.
    unfold async_get. rewrite Eg. destruct (f_get k s key true) as [s1 r1]. simpl in Ha, I1, X1, T1, P1, L1. subst r1. simpl rbind.
    set (s2 := give k (s_log s1 (EvCall w v 0 true)) v).
    assert (J k s1) as HJ1 by (by eapply path_J).
    destruct (safe_all imm Hf g0 s2) as (s3 & E3 & I3 & X3 & _); try done.
    { unfold s2, give. destruct (k_pointer k); simpl; by rewrite (x_up _ _ _ _ _ X1). }
    { apply inv_give. by apply inv_log. }
    { eapply (path_J k (fun κ => κ = KFree)); [|exact HJ1]. eapply path_trans; [|by apply give_path]. by apply log_path. }
    unfold async_finish. fold s2. rewrite E3. simpl rbind. destruct (x_log _ _ _ _ _ X3) as [l El]. exists s3, l. split; [done|].
    assert (m_log (me s2) = EvCall w v 0 true :: m_log (me s)) as L2. { unfold s2. rewrite (v_log _ _ (env_give k _ _)). simpl. by rewrite L1. }
    rewrite L2 in El. split; [done|]. intros ->. simpl in E3. injection E3 as <-. rewrite L2 in El. by apply (app_inv_tail (EvCall w v 0 true :: m_log (me s)) l []).
  Qed.
  (** a lookup that is under way and was not erased *)
  Definition open_at (s : sta) (i e : N) (key : Z) : Prop :=
    exists c el p, m_cbs (me s) !! i = Some c /\ cb_called c = false /\ cb_el c = e /\ m_els (me s) !! e = Some el /\ el_map el = MPend p /\ p_exp p = false /\ k_eq k (el_key el) key = true.
  Lemma open_tv s i e key : ready s -> m_up (me s) = true -> open_at s i e key ->
    exists el p, tv s e = Some el /\ el_map el = MPend p /\ p_exp p = false /\ same_key k el key.
  Proof using Hq.
    intros R Hup (c & el & p & Hc & Hcc & He & Hel & Em & Ep & Ek). destruct (ready_facts s R Hup) as (Hi & Ht & HJ & Hu).
    assert (e ∈ tab s) as Htab.
    { destruct (i_pin _ _ _ Hi e el Hel) as [H|H]; [|done| |by apply elem_of_nil in H].
      - unfold is_pend, el_pending. by rewrite Em.
      - unfold LT in H. simpl in H. by rewrite (a_tab_None _ Ht) in H. }
    exists (with_rc el 0), p. split; [by apply tv_some|]. split; [done|]. split; [done|]. split; [|done]. simpl. by apply (eq_hash k).
  Qed.
  Lemma open_only s i e key x el : ready s -> m_up (me s) = true -> k_resolver k = RAsync -> open_at s i e key ->
    tv s x = Some el -> same_key k el key -> hopeful (el_map el) = true -> x = e \/ k_refresh k <> None /\ el_pending el = false.
  Proof using Hq.
    intros R Hup Hr U Hx [_ Ekx] Hh. destruct (open_tv s i e key R Hup U) as (ele & p & He & Em & Ep & [_ Eke]).
    destruct (ready_facts s R Hup) as (Hi & Ht & HJ & Hu). destruct (decide (x = e)) as [|Hne]; [by left|]. right.
    assert (k_eq k (el_key el) (el_key ele) = true) as Ek. { destruct Hq as (_ & Hsym & Htr & _). eapply Htr; [exact Ekx|]. by apply Hsym. }
    destruct (Hu Hr x e el ele Hx He Hne Ek Hh) as [L|[L|[[]|[]]]]; [by rewrite Em; simpl; rewrite Ep|..].
    - destruct L as (en & q & Hn & Eq & Hin). apply elem_of_list_In, in_concat in Hin as (l & Hl & Hin).
      apply in_map_iff in Hl as (pc & <- & Hpc). destruct pc as [|n o]; simpl in Hin; [done|]. destruct Hin as [->|[]].
      destruct (j_rs _ _ HJ x en q n e ele Hn Eq) as (_ & _ & Hp); [by apply elem_of_list_In|done|]. unfold el_pending in Hp. by rewrite Em in Hp.
    - destruct L as (en & q & Hn & Eq & Hin). assert (en = ele) as -> by congruence. split.
      + intros Hrf. destruct (j_cn _ _ HJ e ele Hrf He) as [_ Ho]. rewrite Eq in Ho. simpl in Ho. rewrite Ho in Hin. by apply elem_of_nil in Hin.
      + apply elem_of_list_In, in_concat in Hin as (l & Hl & Hin). apply in_map_iff in Hl as (pc & <- & Hpc). destruct pc as [|n o]; simpl in Hin; [done|]. destruct Hin as [->|[]].
        by destruct (j_rs _ _ HJ e ele q n x el He Eq) as (_ & _ & ?); [by apply elem_of_list_In|done|].
  Qed.
  Lemma find_pending s key incl x el : m_els (me s) !! x = Some el -> is_pend el -> m_els (me (f_find k s key incl).1) !! x = Some el.
  Proof using.
    unfold f_find. generalize (bucket s (k_hash k key)) as M. intros M. revert s. induction M as [|e M IH]; intros s Hx Hp; simpl; [done|].
    unfold va_get at 1. destruct (gone k s e) eqn:G.
    - destruct (gone_el k s e G) as (el' & H1 & H2). apply IH; [|done]. rewrite (f_rem_els k s e el'); try done. intros ->. congruence.
    - by destruct (ans k s _ key incl e); try done; apply IH.
  Qed.
  Lemma ready_free s s' : ready s -> path k (fun κ => κ = KFree) s s' -> inv k g0 s' -> m_up (me s) = true -> m_up (me s') = true -> ready s'.
  Proof using Hta Hq.
    intros R P I Hup Hup'. destruct (ready_facts s R Hup) as (Hi & Ht & HJ & Hu). split.
    - constructor; [done|congruence|]. intros _. by eapply path_J.
    - intros _ Hr. eapply (path_uq k none); [done| |exact P|by apply Hu]. by intros κ ->.
  Qed.
  Lemma open_look s i e key : ready s -> m_up (me s) = true -> open_at s i e key -> look s key true <> R0.
  Proof using Hq.
    intros R Hup U E. destruct (open_tv s i e key R Hup U) as (el & p & He & Em & Ep & [Eh Ek]).
    destruct (ready_facts s R Hup) as (Hi & Ht & HJ & Hu).
    pose proof He as He'. apply tv_elim in He' as (Hin & el0 & Hel0 & ->).
    assert (e ∈ hseq s (k_hash k key)) as Hh. { apply elem_of_list_filter. split; [|done]. rewrite (i_hash _ _ _ Hi e el0); [|by apply tab_LT|done]. by rewrite <-Eh. }
    pose proof (firstv_none_inv _ _ E e Hh) as C. unfold cand in C. rewrite He, Ek in C. unfold vis in C. rewrite Em, Ep in C. done.
  Qed.
  (** the call joins a lookup *)
  Lemma aget_wait s w key script keep throw imm : ready s -> m_up (me s) = true -> k_resolver k = RAsync -> look s key true = RP ->
    exists s' x el, step k false (OAGet w key script keep throw imm) s = Ok (s', RetNone) /\ m_log (me s') = m_log (me s) /\ m_cbs (me s') = m_cbs (me s) /\
      (forall y, W s' y = W s y ++ (if decide (y = x) then [w] else [])) /\
      tv (f_find k s key true).1 x = Some el /\ same_key k el key /\ el_pending el = true /\ hopeful (el_map el) = true.
  Proof using Hk Hta.
    intros R Hup Hr E'. destruct (ready_facts s R Hup) as (Hi & Ht & HJ & Hu). rewrite step_aget by done.
    pose proof (get_answer k g0 s key true Hta Hi Ht HJ) as Ha. rewrite E' in Ha. destruct Ha as [x Ha].
    destruct (find_some k g0 s key true x RP Hi Ht Ha) as (Hx & elx & Helx & Hkx & Hrx & _ & Hexp).
    assert (is_pend elx) as Hpx. { unfold is_pend, el_pending. destruct (el_map elx) as [| |[v|]| | |]; simpl in *; try done. by destruct (alive _ v). }
    destruct (get_ends k g0 s key true Hi Ht) as (Eg & I2 & X2 & T2 & H2). pose proof (v_log _ _ (env_get k s key true)) as L1. pose proof (W_get s key true) as W1.
    destruct (get_pend k g0 s key x Hi Ht) as (el2 & Hel2 & Hp2 & _). { by rewrite get_result. }
    assert (m_cbs (me (f_get k s key true).1) = m_cbs (me s)) as C1 by apply env_get.
    pose proof (get_result k s key true) as Er. rewrite Ha in Er.
    unfold async_get. rewrite Eg. destruct (f_get k s key true) as [s1 r1]. simpl in *. subst r1.
    unfold async_finish, s_upd, upd_el, rd_el. rewrite Hel2. simpl. eexists _, x, (with_rc elx 0). split_and!; [done|done|done| |by apply tv_some|done|done|].
    - intros y. rewrite <-W1. unfold W at 1. simpl. destruct (decide (y = x)) as [->|Hne2].
      + rewrite lookup_insert. unfold W. rewrite Hel2. unfold stored_waiters. simpl. unfold is_pend, el_pending in Hp2. destruct (el_map el2) as [p| | | | |]; try done. simpl.
        by rewrite map_app, concat_app.
      + rewrite lookup_insert_ne by done. fold (W s1 y). by rewrite app_nil_r.
    - simpl. unfold is_pend, el_pending in Hpx. destruct (el_map elx) as [p| | | | |] eqn:Emx; try done. unfold el_expired in Hexp. rewrite !orb_false_iff in Hexp. destruct Hexp as ((((X & _) & _) & _) & _). rewrite Emx in X. simpl in X |- *. by rewrite X.
  Qed.
  Lemma aget_join s w key script keep throw imm i e : ready s -> m_up (me s) = true -> k_resolver k = RAsync -> open_at s i e key -> look s key false = R0 ->
    exists s', step k false (OAGet w key script keep throw imm) s = Ok (s', RetNone) /\ m_log (me s') = m_log (me s) /\ m_cbs (me s') = m_cbs (me s) /\
      forall x, W s' x = W s x ++ (if decide (x = e) then [w] else []).
  Proof using Hk Hta Hq.
    intros R Hup Hr U E. destruct (ready_facts s R Hup) as (Hi & Ht & HJ & Hu).
    pose proof (open_look s i e key R Hup U) as Hne. assert (look s key true = RP) as E'.
    { destruct (look_kinds s key true) as [?|[[v Hv]|[_ ?]]]; [done| |done]. apply look_true in Hv. congruence. }
    destruct (aget_wait s w key script keep throw imm R Hup Hr E') as (s' & x & elx & Es & L & C & HW & Tx & Hkx & Hpx & Hhx).
    destruct (find_ends k g0 s key true Hi Ht) as (_ & I1 & X1 & T1). pose proof (find_path k (fun κ => κ = KFree) g0 s key true eq_refl Hi Ht) as P1.
    assert (m_up (me (f_find k s key true).1) = true) as Hup1 by (by rewrite (x_up _ _ _ _ _ X1)).
    pose proof (ready_free s _ R P1 I1 Hup Hup1) as R1.
    assert (open_at (f_find k s key true).1 i e key) as U1.
    { destruct U as (c & el & p & Hc & Hcc & He & Hel & Em & Ep & Ek). exists c, el, p. rewrite (v_cbs _ _ (env_find k _ _ _)). split_and!; try done. apply find_pending; [done|]. unfold is_pend, el_pending. by rewrite Em. }
    assert (x = e) as ->. { destruct (open_only _ i e key x elx R1 Hup1 Hr U1) as [?|[_ Hb]]; try done. congruence. }
    exists s'. done.
  Qed.
  Lemma aget_miss s w key script keep throw imm : ready s -> m_up (me s) = true -> k_resolver k = RAsync ->
    forallb (fine_op true) script = true -> forallb (fine_op true) imm = true -> look s key true = R0 ->
    exists s' r l, step k false (OAGet w key script keep throw imm) s = Ok (s', r) /\ m_log (me s') = l ++ EvResolve key :: m_log (me s).
  Proof using Hk Hta.
    intros R Hup Hr Hf1 Hf2 E. destruct (ready_facts s R Hup) as (Hi & Ht & HJ & Hu). rewrite step_aget by done.
    pose proof (get_answer k g0 s key true Hta Hi Ht HJ) as Ha. rewrite E in Ha.
    destruct (async_get_ends k _ _ g0 s w key (run_nested k script) keep throw (run_nested k imm) _ _ Hi Hup eq_refl eq_refl (safe_all script Hf1) (safe_all imm Hf2) HJ Hr)
      as (s' & r & Es & _ & _ & _ & Hl & _).
    destruct (Hl Ha) as [l El]. exists s', r, l. split; [done|]. destruct (apre_env k (f_find k s key true).1 key) as (L & _). by rewrite El, L, (v_log _ _ (env_find k _ _ _)).
  Qed.
  (** the resolver keeps its callback and returns *)
  Lemma aget_new s w key imm : ready s -> m_up (me s) = true -> k_resolver k = RAsync -> look s key true = R0 ->
    exists s' e, step k false (OAGet w key [] true false imm) s = Ok (s', RetNone) /\ m_log (me s') = EvResolve key :: m_log (me s) /\
      open_at s' (m_ncb (me s)) e key /\ W s' e = [w].
  Proof using Hk Hta Hq.
    intros R Hup Hr E. destruct (ready_facts s R Hup) as (Hi & Ht & HJ & Hu). rewrite step_aget by done.
    pose proof (get_answer k g0 s key true Hta Hi Ht HJ) as Ha. rewrite E in Ha.
    destruct (find_ends k g0 s key true Hi Ht) as (_ & I1 & X1 & T1). set (sm := (f_find k s key true).1) in *.
    assert (env s sm) as V by apply env_find.
    destruct (apre_ends k g0 sm key I1 T1 eq_refl) as (I2 & X2 & T2 & H2 & Hel2 & _ & _ & Er). destruct (apre_env k sm key) as (L2 & _ & C2).
    unfold async_get. rewrite (proj1 (get_ends k g0 s key true Hi Ht)), (get_miss k s key true Ha). fold sm. simpl rbind. rewrite Er. simpl rbind.
    set (e := m_nxt (me sm)) in *. set (i := m_ncb (me sm)) in *. set (sp := f_apre k sm key) in *. clearbody sp.
    rewrite C2, lookup_insert. simpl rbind. unfold cb_holders. change (m_cbs (me (s_log sp (EvResolve key)))) with (m_cbs (me sp)).
    rewrite C2, lookup_insert. simpl rbind.
    set (sq := with_me (s_log sp (EvResolve key)) _). assert (m_els (me sq) !! e = Some (with_rc (fresh_el key (MPend pend_init)) 3)) as Hq1 by exact Hel2.
    unfold s_el, rd_el. rewrite Hq1. simpl rbind. change (m_get _ true _) with RP. unfold async_finish, s_upd, upd_el, rd_el. rewrite Hq1. simpl rbind.
    unfold drop_ref, s_el, rd_el. simpl me. simpl m_els. rewrite lookup_insert. simpl. unfold s_upd, upd_el, rd_el. simpl. rewrite lookup_insert. simpl.
    eexists _, e. split_and!; [done|..].
    - unfold sq. simpl. by rewrite L2, (v_log _ _ V).
    - eexists (Cbk e false false true), _, _. simpl. rewrite lookup_insert. rewrite <-(v_ncb _ _ V). fold i. rewrite lookup_insert. split_and!; try done. exact (proj1 Hq key).
    - unfold W. simpl. by rewrite lookup_insert.
  Qed.
End answers.
