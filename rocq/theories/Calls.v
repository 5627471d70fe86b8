(** Answers of [get] and [async_get] at the level of the pointer-level cache (lemmas for
    PropertiesAnswers.v). *)
From stdpp Require Import sorting.
From Verif Require Import Base AQueue ATable BasicHashtable QueueProofs BasicHashtableProofs ContainersProofs Mapped Cache CachePtr CacheAbs CompSim CacheSim AbsInv AbsPrim AbsPrim2 AbsSweep AbsOps AbsComp Histories Trace AbsTrace TraceInv Delay AbsTraceCb AbsResolve AbsStep AbsLook Effects Observe Transfer Lookups Waiters Answers.

Section calls.
  Context (k : cfg) (Hk : fine_cfg k) (Hta : tame k) (Hq : eq_ok k).
  Notation srel := (srel comp_abs comp_ptr crel).
  Notation look := (looki k).
  Notation top := (top k).
  Notation ready := (ready k).

  Lemma peek_inv g (sa : sta) (sc : cache) key : srel sa sc -> inv k g sa -> J k sa -> m_up (me sa) = true -> peek k sc key = val (look sa key false).
  Proof using Hta.
    intros S Hi HJ Hup. pose proof (i_up _ _ _ Hi Hup) as Ht. unfold peek, answer.
    assert (exists sa', step k false (OGetIf key) sa = Ok (sa', match look sa key false with RV v => RetVal v | _ => RetNone end)) as (sa' & E).
    { rewrite step_eq. unfold step_with. rewrite Hup. simpl. rewrite (lookup_eq k g sa key Hi Ht). simpl. rewrite (lookup_look k g) by done. by destruct (look sa key false); eexists. }
    destruct (step_c k _ _ _ _ _ _ S E) as (sc' & -> & _). by destruct (look sa key false).
  Qed.
  Lemma nested_c l : forall (sa sa' : sta) (sc : cache), srel sa sc -> run_nested k l sa = Ok sa' -> exists sc', run_nested k l sc = Ok sc' /\ srel sa' sc'.
  Proof using.
    induction l as [|o l IH]; intros sa sa' sc S E; [injection E as <-; by eexists|].
    change (run_nested k (o :: l) sa) with ('(s, _) <- step k true o sa;; run_nested k l s) in E.
    change (run_nested k (o :: l) sc) with ('(s, _) <- step k true o sc;; run_nested k l s).
    destruct (step k true o sa) as [[s1 r]| | |] eqn:E1; unfold rbind in E; try done.
    destruct (step_c k _ _ _ _ _ _ S E1) as (sc1 & -> & S1). unfold rbind. by eapply IH.
  Qed.
  Lemma peek_none (sa : sta) (sc : cache) key : srel sa sc -> ready sa -> m_up (me sa) = true -> peek k sc key = None -> look sa key false = R0.
  Proof using Hta.
    intros S R Hup E. destruct (ready_facts k sa R Hup) as (Hi & Ht & HJ & _). rewrite (peek_inv g0 sa sc key S Hi HJ Hup) in E.
    destruct (look_kinds k sa key false) as [?|[[v Ev]|[? _]]]; [done| |done]. by rewrite Ev in E.
  Qed.
  Lemma peek_some (sa : sta) (sc : cache) key v : srel sa sc -> ready sa -> m_up (me sa) = true -> peek k sc key = Some v -> look sa key false = RV v.
  Proof using Hta.
    intros S R Hup E. destruct (ready_facts k sa R Hup) as (Hi & Ht & HJ & _). rewrite (peek_inv g0 sa sc key S Hi HJ Hup) in E.
    unfold val in E. destruct (look sa key false); congruence.
  Qed.
  Lemma srel2_elim {T} (sa : sta) (sc : cache) (x y : T) : srel2 comp_abs comp_ptr crel (sa, x) (sc, y) -> srel sa sc.
  Proof using. inversion 1; subst. by constructor. Qed.
  (** ** C12 *)
  Lemma peek_hits l sc key v : fine l -> after k l sc -> m_up (me sc) = true -> peek k sc key = Some v <-> hits k sc key v.
  Proof using Hk Hta Hq.
    intros Hf Ha Hup. destruct (after_ready k Hk Hta Hq l sc Hf Ha) as (sa & S & R). pose proof (look_up sa sc S) as U. rewrite Hup in U. symmetry in U. pose proof (srel_me sa sc S) as M.
    split.
    - intros Hp. pose proof (peek_some sa sc key v S R U Hp) as E. unfold hits. destruct (k_resolver k) eqn:Hr.
      + intros script out. pose proof (get_hit k Hta sa key script out v R U ltac:(by rewrite Hr) E) as Es. destruct (step_c k _ _ _ _ _ _ S Es) as (sc' & Ec & S'). exists sc'. split; [done|].
        rewrite <-M, <-(srel_me _ _ S'). by rewrite (v_log _ _ (env_give k _ _)), (v_log _ _ (env_get k _ _ _)).
      + intros script out. pose proof (get_hit k Hta sa key script out v R U ltac:(by rewrite Hr) E) as Es. destruct (step_c k _ _ _ _ _ _ S Es) as (sc' & Ec & S'). exists sc'. split; [done|].
        rewrite <-M, <-(srel_me _ _ S'). by rewrite (v_log _ _ (env_give k _ _)), (v_log _ _ (env_get k _ _ _)).
      + intros w script keep throw. destruct (aget_hit k Hk Hta Hq sa w key script keep throw [] v R U Hr eq_refl E) as (sa' & l' & Es & L & Hl).
        destruct (step_c k _ _ _ _ _ _ S Es) as (sc' & Ec & S'). exists sc'. split; [done|]. rewrite <-M, <-(srel_me _ _ S'). rewrite L. by rewrite Hl.
    - intros H. destruct (peek k sc key) as [u|] eqn:Hp.
      + f_equal. pose proof (peek_some sa sc key u S R U Hp) as E. unfold hits in H. destruct (k_resolver k) eqn:Hr.
        * destruct (H [] RCtor) as (sc' & Ec & _). pose proof (get_hit k Hta sa key [] RCtor u R U ltac:(by rewrite Hr) E) as Es. destruct (step_c k _ _ _ _ _ _ S Es) as (sc2 & Ec2 & _). congruence.
        * destruct (H [] RCtor) as (sc' & Ec & _). pose proof (get_hit k Hta sa key [] RCtor u R U ltac:(by rewrite Hr) E) as Es. destruct (step_c k _ _ _ _ _ _ S Es) as (sc2 & Ec2 & _). congruence.
        * destruct (H 0%N [] true false) as (sc' & Ec & L). destruct (aget_hit k Hk Hta Hq sa 0%N key [] true false [] u R U Hr eq_refl E) as (sa' & l' & Es & L' & Hl).
          destruct (step_c k _ _ _ _ _ _ S Es) as (sc2 & Ec2 & S'). assert (sc2 = sc') as -> by congruence. rewrite Hl in L' by done. rewrite (srel_me _ _ S'), L, M in L'. simpl in L'. congruence.
      + exfalso. pose proof (peek_none sa sc key S R U Hp) as E. unfold hits in H. destruct (k_resolver k) eqn:Hr.
        * destruct (H [] RCtor) as (sc' & Ec & _). pose proof (get_none k Hta sa key [] RCtor R U Hr E) as Es. destruct (step_c k _ _ _ _ _ _ S Es) as (sc2 & Ec2 & _). congruence.
        * destruct (H [] (RThrow 0)) as (sc' & Ec & _). destruct (get_sync k Hk Hta sa key [] (RThrow 0) R U Hr eq_refl eq_refl E) as (s1 & s2 & s3 & s' & Es & _).
          destruct (step_c k _ _ _ _ _ _ S Es) as (sc2 & Ec2 & _). unfold ret_of in Ec2. congruence.
        * destruct (H 0%N [] true false) as (sc' & Ec & L). destruct (look_kinds k sa key true) as [E'|[[u Eu]|[_ E']]].
          -- destruct (aget_new k Hk Hta Hq sa 0%N key [] R U Hr E') as (sa' & e & Es & L' & _). destruct (step_c k _ _ _ _ _ _ S Es) as (sc2 & Ec2 & S').
             assert (sc2 = sc') as -> by congruence. rewrite (srel_me _ _ S'), L, M in L'. congruence.
          -- apply (look_true k) in Eu. congruence.
          -- destruct (aget_wait k Hk Hta sa 0%N key [] true false [] R U Hr E') as (sa' & x & elx & Es & L' & _). destruct (step_c k _ _ _ _ _ _ S Es) as (sc2 & Ec2 & S').
             assert (sc2 = sc') as -> by congruence. rewrite (srel_me _ _ S'), L, M in L'. by apply (f_equal length) in L'; simpl in L'; lia.
  Qed.
  (** [get_if_exists] changes nothing, except that the user now has a pointer *)
  Lemma getif_state (s s' : cache) key r : step k false (OGetIf key) s = Ok (s', r) ->
    s' = match r with RetVal v => give k s v | _ => s end.
  Proof using.
    rewrite step_eq. unfold step_with. simpl andb. destruct (negb (m_up (me s)) && _); [by intros [= <- <-]|].
    destruct (get_if_exists k s key) as [[]| | |]; unfold rbind, ret_value; try done; by intros [= <- <-].
  Qed.
  (** ** C21, C22 *)
  Lemma sync_miss l key script out sc sc' : ages_ok k -> fine (l ++ [OGet key script out]) -> after k l sc -> after k (l ++ [OGet key script out]) sc' ->
    m_up (me sc) = true -> k_resolver k = RSync -> peek k sc key = None ->
    exists s0 s1, m_log (me s0) = EvResolve key :: m_log (me sc) /\ (forall key', peek k s0 key' = peek k sc key') /\
      run_nested k script s0 = Ok s1 /\ m_log (me sc') = m_log (me s1) /\
      match out with
      | ROk v => (k_pointer k = true -> v ∉ m_dropped (me s1)) -> answer k sc (OGet key script out) = Some (RetVal v) /\
          forall key', peek k sc' key' = match peek k s1 key' with Some u => Some u | None => if k_eq k key key' then Some v else None end
      | RThrow x => answer k sc (OGet key script out) = Some (RetErr x) /\ forall key', peek k sc' key' = peek k s1 key'
      | RCtor => True
      end.
  Proof using Hk Hta Hq.
    intros Hag Hf Ha Ha' Hup Hr Hp. pose proof Hf as Hf0. apply fine_app in Hf as [Hf1 Hf2%fine_one]. simpl in Hf2. apply andb_true_iff in Hf2 as [Hf2 Hf3].
    destruct (after_ready k Hk Hta Hq l sc Hf1 Ha) as (sa & S & R). pose proof (look_up sa sc S) as U. rewrite Hup in U. symmetry in U. pose proof (srel_me sa sc S) as M.
    pose proof (peek_none sa sc key S R U Hp) as E. destruct (ready_facts k sa R U) as (Hi & Ht & HJ & _).
    destruct (get_sync k Hk Hta sa key script out R U Hr Hf2 Hf3 E) as (s1 & s2 & s3 & s' & Es & En & _ & L & (g1 & I1) & U1 & P1 & P2 & M3 & P4).
    destruct (step_c k _ _ _ _ _ _ S Es) as (sc1 & Ec & S'). assert (sc1 = sc') as ->.
    { apply after_app in Ha' as (sc2 & Ha2 & R2). assert (sc2 = sc) as -> by (unfold after in *; congruence). rewrite (run_cons k _ []), Ec in R2. unfold rbind in R2. simpl in R2. congruence. }
    pose proof (h_get_ k _ _ _ comp_ptr_sim sa sc key false S) as Hg. rewrite (proj1 (get_ends k g0 sa key false Hi Ht)) in Hg.
    pose proof (get_answer k g0 sa key false Hta Hi Ht HJ) as Hn. rewrite E in Hn. rewrite (get_miss k sa key false Hn) in Hg. destruct Hg as ([scm rm] & _ & Sm). pose proof (srel2_elim _ _ _ _ Sm) as Sm1.
    destruct (find_ends k g0 sa key false Hi Ht) as (_ & Im & Xm & Tm). pose proof (find_path k (fun κ => κ = KFree) g0 sa key false eq_refl Hi Ht) as Pm.
    set (sm := (f_find k sa key false).1) in *.
    pose proof (h_allocate _ _ _ comp_ptr_sim sm scm key (MPend pend_init) Sm1) as Hal. destruct (alloc_priv k g0 sm key Im) as (Eal & Ial & Xal). rewrite Eal in Hal.
    destruct Hal as ([sc0 e0] & _ & Sal). pose proof (srel2_elim _ _ _ _ Sal) as Sal0. pose proof (h_log _ _ _ _ _ (EvResolve key) Sal0) as Sal1.
    destruct (nested_c script _ s1 _ Sal1 En) as (sc1 & Enc & S1).
    assert (path k (fun κ => κ = KFree) sa (s_log (f_alloc sm key (MPend pend_init)) (EvResolve key))) as P0.
    { eapply path_trans; [exact Pm|]. eapply path_trans; [by eapply (alloc_path k _ g0 sm)|]. by apply log_path. }
    exists (s_log sc0 (EvResolve key)), sc1. split_and!; [| |done|by rewrite <-(srel_me _ _ S'), L, (srel_me _ _ S1)|].
    - rewrite <-(srel_me _ _ Sal1). simpl. unfold sm. by rewrite (v_log _ _ (env_find k _ _ _)), M.
    - intros key'. rewrite (peek_inv g0 sa sc key' S Hi HJ U). rewrite (peek_inv _ _ _ key' Sal1 (inv_log k _ _ _ Ial)).
      + f_equal. by apply free_look.
      + by eapply path_J.
      + simpl. by rewrite (x_up _ _ _ _ _ Xm).
    - assert (J k s1) as J1 by (by eapply path_J). assert (J k s2) as J2 by (by eapply path_J). assert (J k s3) as J3 by (by eapply mini_J). assert (J k s') as J' by (by eapply path_J).
      assert (fine_op false (OGet key script out) = true) as Hfo by (simpl; by rewrite Hf2, Hf3).
      pose proof (step_up k Hk sa s' _ _ (proj1 R) Hfo ltac:(done) Es) as Us.
      assert (forall key', peek k sc' key' = val (look s3 key' false)) as Hp3.
      { intros key'. rewrite (peek_look k Hta s' sc' key' S').
        - rewrite (look_up s' sc' S'). rewrite Us, U. f_equal. by apply free_look.
        - destruct (top_step k Hk (OGet key script out) sa (proj1 R)) as (s'' & r'' & E'' & T'' & _); [exact Hfo|]. congruence. }
      assert (forall key', peek k sc1 key' = val (look s2 key' false)) as Hp2.
      { intros key'. rewrite (peek_inv g1 s1 sc1 key' S1 I1 J1 U1). f_equal. symmetry. by apply free_look. }
      unfold answer. rewrite Ec. destruct out as [v|x|]; [| |done].
      + intros Hd. assert (holds k s1 v = true) as Hh. { unfold holds. destruct (k_pointer k); [|done]. simpl. apply bool_decide_eq_true. rewrite (srel_me _ _ S1). by apply Hd. }
        unfold ret_of. rewrite Hh. split; [done|]. intros key'. rewrite Hp3, Hp2. unfold out_map in M3. rewrite Hh in M3. simpl in M3.
        destruct (k_eq k key key') eqn:Ek.
        * destruct (look_kinds k s2 key' false) as [E2|[[u Eu]|[? _]]]; [| |done].
          -- rewrite E2. simpl. by erewrite (enter_look k _ s2 s3); [|exact M3|done|done|exact Ek|by apply Hq|exact E2].
          -- rewrite Eu. simpl. rewrite (mini_look k _ s2 s3 key' false Hta J2 M3); [by rewrite Eu|]. simpl. right. right. by rewrite Eu.
        * rewrite (mini_look k _ s2 s3 key' false Hta J2 M3); [by destruct (look s2 key' false)|]. simpl. by left.
      + split; [done|]. intros key'. rewrite Hp3, Hp2. f_equal. apply (mini_look k _ s2 s3 key' false Hta J2 M3). simpl. right. by left.
  Qed.
  (** ** C24 *)
  Lemma okind_spoils key o κ : fine_op true o = true -> okind k o κ -> (κ = KClear \/ exists key', κ = KErase key' /\ k_eq k key' key = true) -> spoils k key o = true.
  Proof using.
    induction o as [o IH] using op_ind'. destruct o; simpl; try done; try (by intros _ H HC; repeat destruct H as [->|H]; subst; destruct HC as [?|(? & ? & ?)]; try congruence; by try destruct H as (? & -> & ?));
      try (by intros; subst; simpl in *; rewrite bool_decide_true); try (by intros _ [-> | ->] [?|(? & ? & ?)]); try (by intros _ H [->|(? & -> & ?)]; repeat destruct H as [H|H]; simplify_eq).
    - intros [Hf _]%andb_true_iff [->|[->|[_ [(o & -> & _)|(x & Hx & Ho)%anyof_exists]]]] HC; try (by destruct HC as [?|(? & ? & ?)]).
      apply existsb_exists. exists x. split; [by apply elem_of_list_In|]. apply (Forall_in _ _ _ IH Hx); [exact (forallb_in _ _ _ Hf Hx)|done|done].
    - destruct IH as [IH1 IH2]. intros [Hf1 Hf2]%andb_true_iff [_ [->|[->|[->|[(? & -> & _)|[(x & Hx & Ho)%anyof_exists|(x & Hx & Ho)%anyof_exists]]]]]] HC; try (by destruct HC as [?|(? & ? & ?)]).
      + apply orb_true_iff. left. apply existsb_exists. exists x. split; [by apply elem_of_list_In|]. apply (Forall_in _ _ _ IH1 Hx); [exact (forallb_in _ _ _ Hf1 Hx)|done|done].
      + apply orb_true_iff. right. apply existsb_exists. exists x. split; [by apply elem_of_list_In|]. apply (Forall_in _ _ _ IH2 Hx); [exact (forallb_in _ _ _ Hf2 Hx)|done|done].
  Qed.
  Lemma top_spoils key o κ : fine_op false o = true -> okind k o κ -> (κ = KClear \/ exists key', κ = KErase key' /\ k_eq k key' key = true) -> spoils k key o = true.
  Proof using.
    intros Hf. destruct (match o with OTick _ => true | _ => false end) eqn:Et.
    - destruct o; try done. simpl in *. intros [_ [->|[(? & [->|[-> _]])|[(? & ? & -> & _)|[(x & Hx & (y & Hy & Ho)%anyof_exists)%anyof_exists|(? & ->)]]]]] HC; try (by destruct HC as [?|(? & ? & ?)]).
      apply existsb_exists. exists x. split; [by apply elem_of_list_In|]. apply existsb_exists. exists y. split; [by apply elem_of_list_In|].
      pose proof (forallb_in _ _ _ Hf Hx) as Hx'. simpl in Hx'. rewrite !andb_true_iff in Hx'. destruct Hx' as ((Hx' & _) & _).
      apply (okind_spoils key y κ); [exact (forallb_in _ _ _ Hx' Hy)|done|done].
    - destruct (match o with ODestroy => true | _ => false end) eqn:Ed; [by destruct o|]. apply okind_spoils. by destruct o.
  Qed.
  Definition open_tv (s : sta) (i : N) (key : Z) : Prop :=
    exists c el p, m_cbs (me s) !! i = Some c /\ cb_called c = false /\ tv s (cb_el c) = Some el /\ el_map el = MPend p /\ p_exp p = false /\ k_eq k (el_key el) key = true.
  Lemma mini_open κ s s' i key : J k s -> mini k κ s s' -> open_tv s i key -> ~ completes κ i -> κ <> KClear -> (forall key', κ = KErase key' -> k_eq k key' key = false) -> sparing k key κ -> open_tv s' i key.
  Proof using Hq.
    intros HJ HM (c & el & p & Hc & Hcc & T & Em & Ep & Ek) Hn Hcl Her Hms.
    assert (exists c', m_cbs (me s') !! i = Some c' /\ cb_el c' = cb_el c /\ cb_called c' = false) as (c' & Hc' & Ee & Hcc').
    { destruct (n_cbs _ _ _ _ HM) as (_ & N1 & N2). destruct (m_cbs (me s') !! i) as [c'|] eqn:E.
      - destruct (N1 i c' E) as [(_ & _ & _ & ? & _)|(c0 & E0 & E1 & [E2|[_ ?]])]; [congruence| |done]. exists c'. split_and!; congruence.
      - rewrite (N2 i c Hc E) in Hcc. done. }
    assert (forall el' p', tv s' (cb_el c) = Some el' -> el_map el' = MPend p' -> p_exp p' = p_exp p -> el_key el' = el_key el -> open_tv s' i key) as Hd.
    { intros el' p' T' Em' Eq Ek'. exists c', el', p'. rewrite Ee. split_and!; congruence. }
    assert (tv s' (cb_el c) = tv s (cb_el c) -> open_tv s' i key) as Hs.
    { intros E. apply (Hd el p); congruence. }
    destruct (n_body _ _ _ _ HM) as [κ _ Hv _ _ _|κ e el0 o T0 Hch T0' Hv _ _|e key' cl mp T0 _ _ _ T0' Hv _ _ _ _|j d e el0 q0 o z cn δ Hd1 Hd2 Hd3 T0 Em0 _ T0' Hv _ _ _ _ Hinj|j d e el0 q0 Hd1 Hd2 Hd3 T0 Em0 T0' Hv _ _ Hinj].
    - apply Hs, Hv.
    - destruct (decide (cb_el c = e)) as [E|E]; [|by apply Hs, Hv]. rewrite E in *. assert (el0 = el) as -> by congruence.
      revert T0'. inversion Hch; subst; intros T0'; try done; try (unfold el_pending in *; rewrite Em in *; done).
      + exfalso. match goal with H : k_eq k (el_key el) ?a = true |- _ => pose proof (Her a eq_refl) as Hx; rewrite (proj1 (proj2 (proj2 Hq)) a (el_key el) key) in Hx; [done|by apply (proj1 (proj2 Hq))|done] end.
      + exfalso. rewrite Em in Hms. simpl in Hms. rewrite Ep in Hms. by rewrite Hms in Ek.
      + exfalso. rewrite Em in Hms. simpl in Hms. rewrite Ep in Hms. by rewrite Hms in Ek.
      + simpl in T0'. unfold m_strengthen in T0'. rewrite Em in T0'. unfold p_strengthen in T0'. rewrite Ep in T0'. simpl in T0'. eapply Hd; [exact T0'|done|done|done].
      + match goal with H : el_map el = MPend ?p1 |- _ => assert (p1 = p) as -> by congruence end. eapply Hd; [exact T0'|done|done|done].
      + match goal with H : el_map el = MPend ?p1 |- _ => assert (p1 = p) as -> by congruence end. eapply Hd; [exact T0'|done|done|done].
    - apply Hs, Hv. intros E. congruence.
    - assert (cb_el c <> e) as E by (intros E; apply Hn; simpl; symmetry; by eapply Hinj). pose proof (Hv _ E) as E'.
      rewrite T in E'. destruct (decide _) as [Ho|]; simpl in E'; [|by apply Hs; rewrite T].
      exfalso. apply elem_of_list_In, in_concat in Ho as (l & Hl & Hin). apply in_map_iff in Hl as (pc & <- & Hpc). destruct pc as [|n o']; simpl in Hin; [done|]. destruct Hin as [->|[]].
      destruct (j_rs _ _ HJ e el0 q0 n (cb_el c) el T0 Em0) as (_ & _ & Hp); [by apply elem_of_list_In|done|]. unfold el_pending in Hp. by rewrite Em in Hp.
    - assert (cb_el c <> e) as E by (intros E; apply Hn; simpl; symmetry; by eapply Hinj). by apply Hs, Hv.
  Qed.
  Lemma open_lt g s i key : inv k g s -> open_tv s i key -> (i < m_ncb (me s))%N.
  Proof using. intros Hi (c & _ & _ & Hc & _). apply (i_ncb _ _ _ Hi). eauto. Qed.
  Lemma run_open i key l : forall (s s' : sta), unevicted k s s' key -> top s -> m_up (me s) = true -> fine l -> ODestroy ∉ l -> existsb (touches i) l = false -> existsb (spoils k key) l = false ->
    run k l s = Ok s' -> open_tv s i key -> open_tv s' i key /\ m_up (me s') = true.
  Proof using Hk Hq.
    induction l as [|o l IH]; intros s s' Hev T Hup Hf Hd Ht Hsp R Ho; [by injection R as <-|].
    rewrite run_cons in R. unfold fine in Hf. simpl in Hf, Ht, Hsp. apply andb_true_iff in Hf as [Hf1 Hf2]. apply orb_false_iff in Ht as [Ht1 Ht2]. apply orb_false_iff in Hsp as [Hsp1 Hsp2].
    assert (o <> ODestroy) as Hn by (intros ->; apply Hd; left).
    destruct (top_step k Hk o s T Hf1) as (s1 & r1 & E1 & T1 & _ & _ & Hu & _). destruct (Hu Hup Hn) as (U1 & P1 & _). rewrite E1 in R. unfold rbind in R.
    destruct (top_facts k s T Hup) as (Hi & Htn & HJ). pose proof (open_lt g0 s i key Hi Ho) as Hlt.
    destruct (unevicted_split k Hk s s1 s' key l T1 Hf2 R (path_nevict k _ _ _ key P1) Hev) as [Hev1 Hev2].
    apply (IH s1 s' Hev2 T1 U1 Hf2); try done; [intros ?; apply Hd; by right|].
    apply (path_inv k (fun κ => upto (okind k o) (m_ncb (me s)) κ /\ sparing k key κ) (fun s2 => J k s2 /\ open_tv s2 i key) s s1); [|by apply path_unevicted|done].
    intros κ s2 s3 [HA Hspr] HM [HJ2 Ho2]. split; [by eapply mini_J|]. destruct HA as [HA|(j & -> & Hj)].
    - apply (mini_open κ s2 s3 i key HJ2 HM Ho2); [..|done].
      + intros HC. pose proof (top_completes k o κ i Hf1 HA HC). congruence.
      + intros ->. rewrite (top_spoils key o KClear Hf1 HA) in Hsp1; [done|by left].
      + intros key' ->. destruct (k_eq k key' key) eqn:E; [|done]. rewrite (top_spoils key o _ Hf1 HA) in Hsp1; [done|right; eauto].
    - apply (mini_open (KCancel j) s2 s3 i key HJ2 HM Ho2); try done. simpl. lia.
  Qed.
  Lemma underway_open (sa : sta) (sc : cache) i key : srel sa sc -> top sa -> m_up (me sc) = true -> underway k sc i key -> open_tv sa i key /\ exists e, open_at k sa i e key.
  Proof using.
    intros S [Hi _ _] Hup (c & el & p & Hc & Hcc & Hel & Em & Ep & Ek). rewrite <-(srel_me _ _ S) in *. split.
    - assert (is_pend el) as Hpe by (unfold is_pend, el_pending; by rewrite Em).
      destruct (i_pin _ _ _ Hi (cb_el c) el Hel Hpe Hup) as [HL|HL]; [|by apply elem_of_nil in HL].
      unfold LT in HL. simpl in HL. rewrite (a_tab_None _ (i_up _ _ _ Hi Hup)) in HL.
      exists c, (with_rc el 0), p. split_and!; try done. by apply tv_some.
    - exists (cb_el c), c, el, p. done.
  Qed.
  Lemma open_underway (sa : sta) (sc : cache) i key : srel sa sc -> open_tv sa i key -> underway k sc i key.
  Proof using.
    intros S (c & el & p & Hc & Hcc & T & Em & Ep & Ek). unfold underway. rewrite <-(srel_me _ _ S). apply tv_elim in T as (_ & el0 & Hel & ->). exists c, el0, p. done.
  Qed.
  Lemma stays_underway l1 l2 sc1 sc2 i key : spared k sc1 sc2 key -> fine (l1 ++ l2) -> ODestroy ∉ l2 -> existsb (touches i) l2 = false -> existsb (spoils k key) l2 = false ->
    after k l1 sc1 -> after k (l1 ++ l2) sc2 -> m_up (me sc1) = true -> underway k sc1 i key -> underway k sc2 i key /\ m_up (me sc2) = true.
  Proof using Hk Hq.
    intros Hms Hf Hd Ht Hsp Ha1 Ha2 Hup Hin. pose proof Hf as Hf0. apply fine_app in Hf as [Hf1 Hf2].
    destruct (after_abs k Hk l1 sc1 Hf1 Ha1) as (sa1 & R1 & S1 & T1 & _). destruct (after_abs k Hk _ sc2 Hf0 Ha2) as (sa2 & R2 & S2 & T2 & _).
    rewrite run_app, R1 in R2. unfold rbind in R2. destruct (underway_open sa1 sc1 i key S1 T1 Hup Hin) as [Ho _].
    destruct (run_open i key l2 sa1 sa2 (spared_un k sa1 sa2 sc1 sc2 key S1 S2 Hms) T1 ltac:(by rewrite <-(look_up sa1 sc1)) Hf2 Hd Ht Hsp R2 Ho) as (Ho2 & U2).
    split; [by eapply open_underway|by rewrite (look_up sa2 sc2)].
  Qed.
  Lemma after_step l o sc sc' sc'' r : after k l sc -> after k (l ++ [o]) sc' -> step k false o sc = Ok (sc'', r) -> sc' = sc''.
  Proof using.
    intros Ha Ha' E. apply after_app in Ha' as (sc1 & Ha1 & R). assert (sc1 = sc) as -> by (unfold after in *; congruence). rewrite (run_cons k _ []), E in R. unfold rbind in R. simpl in R. congruence.
  Qed.
  Lemma starts l w key sc sc' : k_resolver k = RAsync -> fine l -> after k l sc -> after k (l ++ [OAGet w key [] true false []]) sc' -> m_up (me sc) = true ->
    m_log (me sc') = EvResolve key :: m_log (me sc) ->
    exists i, underway k sc' i key /\ waiting_on sc' i = [w] /\ m_cbs (me sc) !! i = None.
  Proof using Hk Hta Hq.
    intros Hr Hf Ha Ha' Hup L. destruct (after_ready k Hk Hta Hq l sc Hf Ha) as (sa & S & R). pose proof (look_up sa sc S) as U. rewrite Hup in U. symmetry in U. pose proof (srel_me sa sc S) as M.
    destruct (look_kinds k sa key true) as [E'|[[u Eu]|[_ E']]].
    - destruct (aget_new k Hk Hta Hq sa w key [] R U Hr E') as (sa' & e & Es & L' & (c & el & p & Hc & Hcc & He & Hel & Em & Ep & Ek) & HW). destruct (step_c k _ _ _ _ _ _ S Es) as (sc2 & Ec2 & S').
      rewrite (after_step l _ sc sc' sc2 RetNone Ha Ha' Ec2). exists (m_ncb (me sa)). pose proof (srel_me _ _ S') as M'. split_and!.
      + exists c, el, p. rewrite <-M', He. done.
      + unfold waiting_on. rewrite <-M', Hc, He. exact HW.
      + rewrite <-M. destruct (m_cbs (me sa) !! m_ncb (me sa)) eqn:E; [|done]. destruct R as [[Hi _ _] _]. pose proof (i_ncb _ _ _ Hi (m_ncb (me sa)) ltac:(eauto)). lia.
    - apply (look_true k) in Eu. destruct (aget_hit k Hk Hta Hq sa w key [] true false [] u R U Hr eq_refl Eu) as (sa' & l' & Es & L' & Hl).
      destruct (step_c k _ _ _ _ _ _ S Es) as (sc2 & Ec2 & S'). rewrite (after_step l _ sc sc' sc2 RetNone Ha Ha' Ec2) in L. rewrite Hl in L' by done. rewrite (srel_me _ _ S'), L, M in L'. simpl in L'. congruence.
    - destruct (aget_wait k Hk Hta sa w key [] true false [] R U Hr E') as (sa' & x & elx & Es & L' & _). destruct (step_c k _ _ _ _ _ _ S Es) as (sc2 & Ec2 & S').
      rewrite (after_step l _ sc sc' sc2 RetNone Ha Ha' Ec2) in L. rewrite (srel_me _ _ S'), L, M in L'. by apply (f_equal length) in L'; simpl in L'; lia.
  Qed.
  Lemma joins l i w key script keep throw imm sc sc' : k_resolver k = RAsync -> fine (l ++ [OAGet w key script keep throw imm]) -> after k l sc -> after k (l ++ [OAGet w key script keep throw imm]) sc' ->
    m_up (me sc) = true -> underway k sc i key ->
    match peek k sc key with
    | Some v => exists l, m_log (me sc') = l ++ EvCall w v 0 true :: m_log (me sc) /\ (imm = [] -> l = [])
    | None => m_log (me sc') = m_log (me sc) /\ forall j, in_flight sc j -> waiting_on sc' j = waiting_on sc j ++ (if decide (j = i) then [w] else [])
    end.
  Proof using Hk Hta Hq.
    intros Hr Hf Ha Ha' Hup Hu. apply fine_app in Hf as [Hf1 Hf2%fine_one]. simpl in Hf2. apply andb_true_iff in Hf2 as [Hf2 Hf3].
    destruct (after_ready k Hk Hta Hq l sc Hf1 Ha) as (sa & S & R). pose proof (look_up sa sc S) as U. rewrite Hup in U. symmetry in U. pose proof (srel_me sa sc S) as M.
    destruct (underway_open sa sc i key S (proj1 R) Hup Hu) as [_ [e Ho]]. destruct (peek k sc key) as [v|] eqn:Hp.
    - pose proof (peek_some sa sc key v S R U Hp) as E. destruct (aget_hit k Hk Hta Hq sa w key script keep throw imm v R U Hr Hf3 E) as (sa' & l' & Es & L' & Hl).
      destruct (step_c k _ _ _ _ _ _ S Es) as (sc2 & Ec2 & S'). rewrite (after_step l _ sc sc' sc2 RetNone Ha Ha' Ec2). exists l'. rewrite <-(srel_me _ _ S'), L', M. done.
    - pose proof (peek_none sa sc key S R U Hp) as E. destruct (aget_join k Hk Hta Hq sa w key script keep throw imm i e R U Hr Ho E) as (sa' & Es & L' & C' & HW).
      destruct (step_c k _ _ _ _ _ _ S Es) as (sc2 & Ec2 & S'). rewrite (after_step l _ sc sc' sc2 RetNone Ha Ha' Ec2). rewrite <-(srel_me _ _ S'), L', M. split; [done|].
      intros j (cj & Hj & Hjc). unfold waiting_on. rewrite <-(srel_me _ _ S'), <-M in *. rewrite C', Hj. fold (W sa' (cb_el cj)). rewrite HW. fold (W sa (cb_el cj)). f_equal.
      destruct Ho as (c & el & p & Hc & Hcc & He & _). destruct (decide (j = i)) as [->|Hne]; [rewrite decide_True by congruence; done|]. rewrite decide_False; [done|].
      intros He'. apply Hne. destruct R as [[Hi _ _] _]. apply (i_inj _ _ _ Hi j i cj c); congruence.
  Qed.
End calls.
