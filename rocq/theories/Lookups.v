(** What lookups return after which operations (lemmas for PropertiesLookup.v). *)
From stdpp Require Import sorting.
From Verif Require Import Base AQueue ATable BasicHashtable QueueProofs BasicHashtableProofs ContainersProofs Mapped Cache CachePtr CacheAbs CompSim CacheSim AbsInv AbsPrim AbsPrim2 AbsSweep AbsOps AbsComp Trace AbsTrace TraceInv Delay AbsTraceCb Histories AbsResolve AbsStep AbsLook Effects Observe Transfer.

Section lookups.
  Context (k : cfg) (Hk : fine_cfg k) (Hta : tame k) (Hq : eq_ok k).
  Notation srel := (srel comp_abs comp_ptr crel).
  Notation top := (top k).
  Notation look := (looki k).

  Lemma top_facts s : top s -> m_up (me s) = true -> inv k g0 s /\ a_torn (cs s) = None /\ J k s.
  Proof using. intros [Hi _ HJ] Hup. split_and!; [done|by eapply i_up|by apply HJ]. Qed.

  Definition val (r : mres) : option Z := match r with RV v => Some v | _ => None end.
  Lemma peek_look (sa : sta) (sc : cache) key : srel sa sc -> top sa -> peek k sc key = if m_up (me sc) then val (look sa key false) else None.
  Proof using Hta.
    intros S T. unfold peek, answer. rewrite <-(srel_me _ _ S).
    assert (exists sa', step k false (OGetIf key) sa = Ok (sa', if m_up (me sa) then match look sa key false with RV v => RetVal v | _ => RetNone end else RetNone)) as (sa' & E).
    { rewrite step_eq. unfold step_with. destruct (m_up (me sa)) eqn:Hup; simpl; [|by eexists].
      destruct (top_facts sa T Hup) as (Hi & Ht & HJ). rewrite (lookup_eq k g0 sa key Hi Ht). simpl. rewrite (lookup_look k g0) by done. by destruct (look sa key false); eexists. }
    destruct (step_c k _ _ _ _ _ _ S E) as (sc' & -> & _). destruct (m_up (me sa)); [|done]. by destruct (look sa key false).
  Qed.
  Lemma step_count s : top s -> m_up (me s) = true -> step k false OCount s = Ok (s, RetNum (p_count k s)).
  Proof using. intros T Hup. destruct (top_facts s T Hup) as (Hi & Ht & HJ). rewrite step_eq. unfold step_with. rewrite Hup. simpl. by rewrite (count_eq k g0 s Hi Ht). Qed.
  Lemma step_erase s key : top s -> m_up (me s) = true -> step k false (OErase key) s = Ok (f_expire k s key, RetNone).
  Proof using. intros T Hup. destruct (top_facts s T Hup) as (Hi & Ht & HJ). rewrite step_eq. unfold step_with. rewrite Hup. simpl. by rewrite (proj1 (proj1 (expire_ends k g0 s key Hi Ht))). Qed.
  Lemma step_clear s : top s -> m_up (me s) = true -> step k false OClear s = Ok (f_expire_all k s, RetNone).
  Proof using. intros T Hup. destruct (top_facts s T Hup) as (Hi & Ht & HJ). rewrite step_eq. unfold step_with. rewrite Hup. simpl. by rewrite (proj1 (proj1 (expire_all_ends k g0 s Hi Ht))). Qed.
  Lemma step_emplace s key v : top s -> m_up (me s) = true -> holds k s v = true -> step k false (OEmplace key v) s = Ok (f_emplace k s key v, RetNone).
  Proof using. intros T Hup Hh. destruct (top_facts s T Hup) as (Hi & Ht & HJ). rewrite step_eq. unfold step_with. rewrite Hup. simpl. rewrite Hh. by rewrite (proj1 (proj1 (emplace_ends k g0 s key v Hi Ht))). Qed.
  Lemma step_emplace_throw s key : top s -> m_up (me s) = true -> step k false (OEmplaceThrow key) s = Ok (f_expire k s key, RetThrew).
  Proof using. intros T Hup. destruct (top_facts s T Hup) as (Hi & Ht & HJ). rewrite step_eq. unfold step_with. rewrite Hup. simpl. unfold emplace_throw. by rewrite (proj1 (proj1 (expire_ends k g0 s key Hi Ht))). Qed.
  Lemma step_goe s key v : top s -> m_up (me s) = true -> holds k s v = true ->
    step k false (OGetOrEmplace key v) s = Ok (match (f_goe k s key v).2 with RV w => ret_value k (f_goe k s key v).1 w | _ => ((f_goe k s key v).1, RetThrew) end).
  Proof using. intros T Hup Hh. destruct (top_facts s T Hup) as (Hi & Ht & HJ). rewrite step_eq. unfold step_with. rewrite Hup. simpl. rewrite Hh, (proj1 (goe_ends k g0 s key v Hi Ht)). simpl. by destruct (f_goe k s key v). Qed.
  (** [give] is invisible *)
  Lemma give_look s v key incl : J k s -> look (give k s v) key incl = look s key incl.
  Proof using Hta. intros HJ. apply free_look; try done. by apply give_path. Qed.

  (** an operation of a fine history, on both levels *)
  Lemma after_snoc l o sc sc' : fine (l ++ [o]) -> after k l sc -> after k (l ++ [o]) sc' ->
    exists (sa sa' : sta) r, srel sa sc /\ srel sa' sc' /\ top sa /\ top sa' /\ step k false o sa = Ok (sa', r) /\ step k false o sc = Ok (sc', r).
  Proof using Hk.
    intros Hf Ha Ha'. apply fine_app in Hf as [Hf1 Hf2]. apply fine_one in Hf2.
    destruct (after_abs k Hk l sc Hf1 Ha) as (sa & _ & S & T & _). destruct (fine_step k Hk o sa sc Hf2 S T) as (sa' & sc2 & r & E & Ec & S' & T' & _).
    apply after_app in Ha' as (s1 & Ha1 & R). assert (s1 = sc) as -> by (unfold after in *; congruence).
    rewrite (run_cons k o []), Ec in R. unfold rbind in R. simpl in R. injection R as ->. exists sa, sa', r. done.
  Qed.
  Lemma look_up (sa : sta) (sc : cache) : srel sa sc -> m_up (me sc) = m_up (me sa).
  Proof using. intros S. by rewrite (srel_me _ _ S). Qed.
  Lemma step_up (sa sa' : sta) o r : top sa -> fine_op false o = true -> o <> ODestroy -> step k false o sa = Ok (sa', r) -> m_up (me sa') = m_up (me sa).
  Proof using Hk.
    intros T Hf Hn E. destruct (top_step k Hk o sa T Hf) as (s' & r' & E' & _ & _ & _ & Hu & Hd). rewrite E in E'. injection E' as -> ->.
    destruct (m_up (me sa)); [by apply Hu|by apply Hd].
  Qed.

  (** ** C13 *)
  Lemma erase_peek l key sc sc' : fine l -> after k l sc -> after k (l ++ [OErase key]) sc' ->
    forall key', peek k sc' key' = if k_eq k key key' then None else peek k sc key'.
  Proof using Hk Hta Hq.
    intros Hf Ha Ha' key'. destruct (after_snoc l (OErase key) sc sc') as (sa & sa' & r & S & S' & T & T' & E & _); try done; [by apply fine_app|].
    rewrite (peek_look sa sc) by done. rewrite (peek_look sa' sc') by done. rewrite (look_up _ _ S), (look_up _ _ S').
    rewrite (step_up sa sa' (OErase key) r T eq_refl ltac:(done) E). destruct (m_up (me sa)) eqn:Hup; [|by destruct (k_eq k key key')].
    rewrite (step_erase sa key T Hup) in E. injection E as <- <-. destruct (top_facts sa T Hup) as (Hi & Ht & HJ).
    destruct (k_eq k key key') eqn:Ek.
    - rewrite (erase_self k g0); try done. by apply Hq.
    - by rewrite (erase_other k g0).
  Qed.
  (** ** C14 *)
  Lemma clear_peek l sc sc' : fine l -> after k l sc -> after k (l ++ [OClear]) sc' ->
    (forall key, peek k sc' key = None) /\ (m_up (me sc') = true -> live_count k sc' = Some 0).
  Proof using Hk Hta.
    intros Hf Ha Ha'. destruct (after_snoc l OClear sc sc') as (sa & sa' & r & S & S' & T & T' & E & _); try done; [by apply fine_app|].
    pose proof (step_up sa sa' OClear r T eq_refl ltac:(done) E) as U. split.
    - intros key. rewrite (peek_look sa' sc') by done. rewrite (look_up _ _ S'), U. destruct (m_up (me sa)) eqn:Hup; [|done].
      rewrite (step_clear sa T Hup) in E. injection E as <- <-. destruct (top_facts sa T Hup) as (Hi & Ht & HJ). by rewrite (clear_look k g0).
    - rewrite (look_up _ _ S'). intros Hup'. assert (m_up (me sa) = true) as Hup by congruence.
      pose proof (step_count sa' T' Hup') as Ec. destruct (step_c k _ _ _ _ _ _ S' Ec) as (sc2 & Ec' & _). unfold live_count, answer. rewrite Ec'.
      rewrite (step_clear sa T Hup) in E. injection E as <- <-. destruct (top_facts sa T Hup) as (Hi & Ht & HJ). by rewrite (clear_count k g0).
  Qed.

  (** ** What cannot come back *)
  Lemma nohope_lookup g s key : inv k g s -> a_torn (cs s) = None -> nohope k s key -> p_lookup k s key = R0.
  Proof using.
    intros Hi Ht Hn. apply firstv_none. intros x Hx. pose proof (bucket_in _ _ _ Hx) as Htab. unfold ans.
    destruct (i_tab _ _ _ Hi x) as [el Hel]; [by apply tab_LT|]. rewrite (i_hash _ _ _ Hi x el) by (done || by apply tab_LT). rewrite Hel.
    destruct (bool_decide _ && _ && _) eqn:E; [|done]. apply andb_true_iff in E as [[E1%bool_decide_eq_true E2]%andb_true_iff E3%negb_true_iff].
    pose proof (Hn x (with_rc el 0) (tv_some s x el Htab Hel) ltac:(done)) as Hh. simpl in Hh.
    unfold el_expired in E3. rewrite !orb_false_iff in E3. destruct E3 as ((((_ & X2) & _) & _) & _).
    destruct (el_map el) as [p|v|[v|]|y| |]; simpl in *; done.
  Qed.
  Lemma nohope_peek (sa : sta) (sc : cache) key : srel sa sc -> top sa -> (m_up (me sa) = true -> nohope k sa key) -> peek k sc key = None.
  Proof using.
    intros S T Hn. unfold peek, answer.
    assert (step k false (OGetIf key) sa = Ok (sa, RetNone)) as E.
    { rewrite step_eq. unfold step_with. destruct (m_up (me sa)) eqn:Hup; simpl; [|done].
      destruct (top_facts sa T Hup) as (Hi & Ht & HJ). rewrite (lookup_eq k g0 sa key Hi Ht). simpl. by rewrite (nohope_lookup g0) by (try done; by apply Hn). }
    by destruct (step_c k _ _ _ _ _ _ S E) as (sc' & -> & _).
  Qed.
  Lemma nohope_run key l : forall (s s' : sta), top s -> fine l -> forallb (fun o => negb (enters (same k key) o)) l = true -> run k l s = Ok s' ->
    (m_up (me s) = true -> nohope k s key) -> m_up (me s') = true -> nohope k s' key.
  Proof using Hk.
    induction l as [|o l IH]; intros s s' T Hf He R HN Hup'; [injection R as <-; by apply HN|].
    rewrite run_cons in R. unfold fine in Hf. simpl in Hf, He. apply andb_true_iff in Hf as [Hf1 Hf2]. apply andb_true_iff in He as [He1%negb_true_iff He2].
    destruct (top_step k Hk o s T Hf1) as (s1 & r1 & E1 & T1 & _ & _ & Hu & Hd). rewrite E1 in R. unfold rbind in R.
    apply (IH s1 s' T1 Hf2 He2 R); [|done]. intros Hup1. destruct (m_up (me s)) eqn:Hup; [|by rewrite Hd in Hup1].
    assert (o <> ODestroy) as Hn.
    { intros ->. destruct T as [Hi _ _]. destruct (destroy_ends k g0 s Hi eq_refl) as (s2 & E2 & _ & _ & _ & U2 & _).
      rewrite step_eq in E1. unfold step_with in E1. rewrite Hup in E1. change (negb true) with false in E1. cbv beta iota in E1. rewrite E2 in E1. unfold rbind in E1. injection E1 as <- <-. congruence. }
    destruct (Hu eq_refl Hn) as (_ & _ & _ & Hnh). by apply Hnh; [|apply HN].
  Qed.
  Lemma clear_nohope g s key : inv k g s -> a_torn (cs s) = None -> nohope k (f_expire_all k s) key.
  Proof using. intros Hi Ht x el Hx _. destruct (expire_all_nohope k g s Hi Ht x el Hx) as (p & -> & Ep). simpl. by rewrite Ep. Qed.
  (** ** C14, C25 *)
  Lemma enters_ext P Q : (forall key, P key = Q key) -> forall o, enters P o = enters Q o.
  Proof using.
    intros H. fix IH 1.
    assert (forall l, existsb (enters P) l = existsb (enters Q) l) as L by (fix IL 1; intros [|o l]; simpl; [done|]; by rewrite IH, IL).
    intros o; destruct o; simpl; try done; rewrite ?H, ?L; try done.
    induction items as [|[[s r] b] l IHl]; simpl; [done|]. by rewrite L, IHl.
  Qed.
  Lemma removed key l1 o l2 sc : fine (l1 ++ o :: l2) -> removes k key o = true -> forallb (fun o => negb (enters (fun key' => k_eq k key' key) o)) l2 = true ->
    after k (l1 ++ o :: l2) sc -> peek k sc key = None.
  Proof using Hk Hq.
    intros Hf Hr He0 Ha. assert (forallb (fun o => negb (enters (same k key) o)) l2 = true) as He.
    { rewrite <-He0. clear -Hq. induction l2 as [|o l IH]; simpl; [done|]. rewrite IH. do 2 f_equal. apply enters_ext. intros key'. unfold same.
      destruct (k_eq k key' key) eqn:E; [|by rewrite andb_false_r]. destruct Hq as (_ & _ & _ & Hh). by rewrite (bool_decide_true _ (Hh _ _ E)). }
    destruct (after_abs k Hk _ sc Hf Ha) as (sa & R & S & T & _). apply fine_app in Hf as [Hf1 Hf2].
    destruct (fine_runs k Hk l1 Hf1) as (sa1 & sc1 & R1 & _ & _ & T1 & _). rewrite run_app, R1 in R. unfold rbind in R at 1. rewrite run_cons in R.
    unfold fine in Hf2. simpl in Hf2. apply andb_true_iff in Hf2 as [Hf2 Hf3].
    destruct (top_step k Hk o sa1 T1 Hf2) as (sa2 & r & E & T2 & _ & _ & _ & Hd). rewrite E in R. unfold rbind in R.
    apply (nohope_peek sa sc key S T). apply (nohope_run key l2 sa2 sa T2 Hf3 He R). intros Hup2.
    destruct (m_up (me sa1)) eqn:Hup1; [|by rewrite Hd in Hup2]. destruct (top_facts sa1 T1 Hup1) as (Hi & Ht & HJ). destruct o; try done; simpl in Hr.
    - rewrite (step_erase sa1 key0 T1 Hup1) in E. injection E as <- <-. eapply nohope_eq; [done|apply Hq; exact Hr|]. by eapply expire_nohope.
    - rewrite (step_clear sa1 T1 Hup1) in E. injection E as <- <-. by eapply clear_nohope.
  Qed.

  (** ** C11 *)
  Section map.
    Context (Hr : k_resolver k = RNone) (Hs : k_max_size k = None) (Hm : k_max_age k = None) (Hrf : k_refresh k = None) (Hp : k_pointer k = false).
    Lemma map_ages : ages_ok k.
    Proof using Hm Hrf. split; intros; congruence. Qed.
    Lemma map_holds (s : sta) v : holds k s v = true.
    Proof using Hp. unfold holds. by rewrite Hp. Qed.
    Lemma map_give (s : sta) v : give k s v = s.
    Proof using Hp. unfold give. by rewrite Hp. Qed.
    Lemma map_incl s key : J k s -> look s key true = look s key false.
    Proof using Hr.
      intros HJ. destruct (j_sync _ _ HJ) as [?|[_ Hn]]; [congruence|]. unfold looki. apply firstv_ext. intros x _. unfold cand.
      destruct (tv s x) as [el|] eqn:T; [|done]. destruct (k_eq k (el_key el) key); [|done]. specialize (Hn x el T). unfold el_pending in Hn. unfold vis. by destruct (el_map el).
    Qed.
    Lemma look_val s key : look s key false = match val (look s key false) with Some v => RV v | None => R0 end.
    Proof using.
      unfold looki. induction (hseq s (k_hash k key)) as [|x M IH]; simpl; [done|].
      assert (cand k s key false x = R0 \/ exists v, cand k s key false x = RV v) as [-> |[v ->]]; [|done|done].
      unfold cand, vis. destruct (tv s x) as [el|]; [|by left]. destruct (k_eq k (el_key el) key); [|by left]. destruct (el_map el); try (by left). destruct (late (me s) el); eauto.
    Qed.
    Lemma map_step o (s s' : sta) r m : top s -> m_up (me s) = true -> fine_op false o = true -> o <> ODestroy -> step k false o s = Ok (s', r) ->
      (forall key, val (look s key false) = m key) -> (forall key, val (look s' key false) = map_op k o m key).
    Proof using Hk Hta Hq Hr Hs Hm Hrf Hp.
      intros T Hup Hf Hn E Hc. destruct (top_facts s T Hup) as (Hi & Ht & HJ).
      assert ((forall key, leaves k key o = true) -> forall key, val (look s' key false) = m key) as Hsame.
      { intros Hl key. rewrite <-Hc. f_equal. destruct (top_step k Hk o s T Hf) as (s1 & r1 & E1 & _ & _ & _ & Hu & _).
        assert (s1 = s') as -> by congruence. eapply leaves_look; try done; [apply map_ages|by apply Hu]. }
      destruct o; simpl; try (apply Hsame; intros key0; simpl; rewrite ?Hr, ?Hs, ?Hm, ?Hrf; done); try done.
      - rewrite (step_emplace s key v T Hup (map_holds s v)) in E. injection E as <- <-. intros key'. destruct (k_eq k key key') eqn:Ek.
        + by rewrite (emplace_self k g0) by (done || apply map_ages || by left).
        + by rewrite (emplace_other k g0) by (done || by left).
      - rewrite (step_emplace_throw s key T Hup) in E. injection E as <- <-. intros key'. destruct (k_eq k key key') eqn:Ek.
        + rewrite (erase_self k g0); try done. by apply Hq.
        + by rewrite (erase_other k g0).
      - rewrite (step_goe s key v T Hup (map_holds s v)) in E. intros key'.
        assert (s' = (f_goe k s key v).1) as ->. { destruct (f_goe k s key v).2; unfold ret_value in E; rewrite ?map_give in E; congruence. }
        rewrite <-!Hc. destruct (val (look s key false)) as [w|] eqn:Ev.
        + rewrite <-Hc. destruct (goe_hit k g0 s key v key' false) as [_ ->]; try done; [apply map_ages| |by left]. rewrite map_incl by done. by destruct (look s key false).
        + assert (look s key false = R0) as E0 by (rewrite look_val; by rewrite Ev).
          destruct (goe_miss k g0 s key v key' false) as [_ ->]; try done; [apply map_ages|by rewrite map_incl| |by left]. by destruct (k_eq k key key').
      - rewrite (step_erase s key T Hup) in E. injection E as <- <-. intros key'. destruct (k_eq k key key') eqn:Ek.
        + rewrite (erase_self k g0); try done. by apply Hq.
        + by rewrite (erase_other k g0).
      - rewrite (step_clear s T Hup) in E. injection E as <- <-. intros key'. by rewrite (clear_look k g0).
    Qed.
    Lemma map_run l : forall (s s' : sta) m, top s -> m_up (me s) = true -> fine l -> (ODestroy ∉ l) -> run k l s = Ok s' ->
      (forall key, val (look s key false) = m key) -> m_up (me s') = true /\ forall key, val (look s' key false) = foldl (fun m o => map_op k o m) m l key.
    Proof using Hk Hta Hq Hr Hs Hm Hrf Hp.
      induction l as [|o l IH]; intros s s' m T Hup Hf Hd R Hc; [by injection R as <-|].
      rewrite run_cons in R. unfold fine in Hf. simpl in Hf. apply andb_true_iff in Hf as [Hf1 Hf2].
      assert (o <> ODestroy) as Hn by (intros ->; apply Hd; left).
      destruct (top_step k Hk o s T Hf1) as (s1 & r1 & E1 & T1 & _ & _ & Hu & _). destruct (Hu Hup Hn) as (U1 & _ & _). rewrite E1 in R. unfold rbind in R.
      simpl. apply (IH s1 s' _ T1 U1 Hf2); [intros ?; apply Hd; by right|exact R|]. exact (map_step o s s1 r1 m T Hup Hf1 Hn E1 Hc).
    Qed.
    Lemma map_contents l sc : fine l -> ODestroy ∉ l -> after k l sc -> forall key,
      peek k sc key = contents k l key /\
      (forall script out, answer k sc (OGet key script out) = Some (match contents k l key with Some v => RetVal v | None => RetNone end)) /\
      (forall v, answer k sc (OGetOrEmplace key v) = Some (RetVal (default v (contents k l key)))).
    Proof using Hk Hta Hq Hr Hs Hm Hrf Hp.
      intros Hf Hd Ha key. destruct (after_abs k Hk l sc Hf Ha) as (sa & R & S & T & _).
      destruct (map_run l st_init sa (fun _ => None) (top_init k) eq_refl Hf Hd R) as [Hup Hc]; [done|]. fold (contents k l) in Hc.
      destruct (top_facts sa T Hup) as (Hi & Ht & HJ). split_and!.
      - rewrite (peek_look sa sc) by done. by rewrite (look_up _ _ S), Hup.
      - intros script out. unfold answer.
        assert (exists s', step k false (OGet key script out) sa = Ok (s', match contents k l key with Some v => RetVal v | None => RetNone end)) as (sa' & E).
        { rewrite step_eq. unfold step_with. rewrite Hup. simpl. rewrite Hr. unfold get. rewrite Hr. rewrite (proj1 (get_ends k g0 sa key false Hi Ht)). simpl.
          pose proof (get_answer k g0 sa key false Hta Hi Ht HJ) as Hg. rewrite <-(get_result k) in Hg. rewrite <-Hc, look_val in *. destruct (f_get k sa key false) as [s1 r1]. simpl in *.
          destruct (val (look sa key false)) as [v|]; simpl in *; [destruct Hg as [e ->]|rewrite Hg]; unfold ret_value; rewrite ?map_give; by eexists. }
        by destruct (step_c k _ _ _ _ _ _ S E) as (sc' & -> & _).
      - intros v. unfold answer.
        assert (exists s', step k false (OGetOrEmplace key v) sa = Ok (s', RetVal (default v (contents k l key)))) as (sa' & E).
        { rewrite (step_goe sa key v T Hup (map_holds sa v)). rewrite <-Hc. destruct (val (look sa key false)) as [w|] eqn:Ev.
          - destruct (goe_hit k g0 sa key v key false) as [-> _]; try done; [apply map_ages|rewrite map_incl by done; by destruct (look sa key false)|].
            rewrite map_incl by done. destruct (look sa key false); try done. injection Ev as ->. by eexists.
          - assert (look sa key false = R0) as E0 by (rewrite look_val; by rewrite Ev).
            destruct (goe_miss k g0 sa key v key false) as [-> _]; try done; [apply map_ages|by rewrite map_incl|]. by eexists. }
        by destruct (step_c k _ _ _ _ _ _ S E) as (sc' & -> & _).
    Qed.
  End map.
End lookups.
