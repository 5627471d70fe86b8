(** The refresh queue and the rounds of the refresh worker (lemmas for PropertiesRounds.v). *)
From stdpp Require Import sorting.
From Verif Require Import Base LinkedList AQueue ATable BasicHashtable LinkedListProofs QueueProofs BasicHashtableProofs ContainersProofs Mapped Cache CachePtr CacheAbs CompSim CacheSim AbsInv AbsPrim AbsPrim2 AbsSweep AbsOps AbsComp Trace AbsTrace TraceInv Delay AbsTraceCb Histories AbsResolve AbsStep AbsLook Effects Observe Transfer Lookups Origins.

Section rounds.
  Context (k : cfg) (Hk : fine_cfg k) (delay idle : Z) (Hrf : k_refresh k = Some (delay, idle)).
  Notation srel := (srel comp_abs comp_ptr crel).
  Notation top := (top k).

  Lemma srel_cs (sa : sta) (sc : cache) : srel sa sc -> crel (cs sa) (cs sc).
  Proof using. by intros []. Qed.
  Lemma queue_obs (sa : sta) (sc : cache) : srel sa sc -> elements 0 (p_d (cs sc)) = Ok (a_dq (cs sa)) /\ refresh_queue sc = a_dq (cs sa).
  Proof using.
    intros S. destruct (cr_d _ _ (srel_cs _ _ S)) as [Hl _]. pose proof (elements_ok _ _ _ Hl) as E. unfold refresh_queue. by rewrite E.
  Qed.
  Lemma table_obs (sa : sta) (sc : cache) : srel sa sc -> a_torn (cs sa) = None -> table_entries sc = tab sa.
  Proof using.
    intros S Ht. pose proof (cr_tab _ _ (srel_cs _ _ S)) as H. unfold trel in H. rewrite Ht in H. unfold table_entries. by rewrite (ht_elements_ok _ _ _ H).
  Qed.

  Lemma nopop o n e : fine_op false o = true -> match o with OTick _ => False | _ => True end -> ~ upto (okind k o) n (KPop e).
  Proof using. intros Hf Ho [H|(i & ? & _)]; [|done]. revert H. destruct o; try done; by apply okind_nopop. Qed.

  (** ** the queue along histories *)
  Lemma run_DQ l : forall s s' : sta, top s -> fine l -> run k l s = Ok s' -> (m_up (me s) = true -> DQ delay s) -> m_up (me s') = true -> DQ delay s'.
  Proof using Hk Hrf.
    induction l as [|o l IH]; intros s s' T Hf R Hd Hup'; [injection R as <-; by apply Hd|].
    rewrite run_cons in R. unfold fine in Hf. simpl in Hf. apply andb_true_iff in Hf as [Hf1 Hf2].
    destruct (top_step k Hk o s T Hf1) as (s1 & r1 & E1 & T1 & _ & _ & Hs & _). rewrite E1 in R. unfold rbind in R.
    apply (IH s1 s' T1 Hf2 R); [|done]. intros Hup1. destruct (up_step k Hk o s s1 r1 T Hf1 E1 Hup1) as [Hup Hn].
    destruct (Hs Hup Hn) as (_ & P & _). eapply (path_DQ k delay idle Hrf); [exact P|by apply Hd].
  Qed.
  Lemma DQ_init : DQ delay (st_init : sta).
  Proof using. split; simpl; [by intros x ?%elem_of_nil|constructor|constructor]. Qed.
  Lemma cover_init X : cover X (st_init : sta).
  Proof using. intros x el T. apply tv_elim in T as (Ht & _). by apply elem_of_nil in Ht. Qed.

  Lemma step_cover o (s s' : sta) r : tame k -> top s -> m_up (me s) = true -> fine_op false o = true -> o <> ODestroy -> k_steady k = true \/ sets_back o = false ->
    step k false o s = Ok (s', r) -> cover (fun _ => False) s -> cover (fun _ => False) s'.
  Proof using Hk Hrf.
    intros Hta T Hup Hf Hn Hb E HC. destruct (top_facts k s T Hup) as (Hi & Ht & HJ).
    destruct (match o with OTick _ => true | _ => false end) eqn:Et.
    - destruct o; try done. destruct (tick_ends k Hk items g0 s Hf eq_refl eq_refl Hi Hup HJ) as (s1 & E1 & C & _); [by rewrite Hrf|].
      rewrite E in E1. injection E1 as -> ->. apply C; try done. intros i o κ Hin Ho Hκ. destruct Hb as [?|Hb]; [by left|right].
      eapply (okind_back k o κ); [|exact Hκ|].
      + pose proof (forallb_in _ _ _ Hf Hin) as H. simpl in H. rewrite !andb_true_iff in H. destruct H as ((H & _) & _). by eapply forallb_in.
      + simpl in Hb. pose proof (existsb_false _ _ _ Hb Hin) as H. simpl in H. exact (existsb_false _ _ _ H Ho).
    - destruct (top_step k Hk o s T Hf) as (s1 & r1 & E1 & T1 & _ & _ & Hs & _). rewrite E in E1. injection E1 as -> ->.
      destruct (Hs Hup Hn) as (_ & P & _). eapply (path_cover k delay idle Hrf); [done|exact HJ| | |exact P|done].
      + intros κ HA. destruct Hb as [?|Hb]; [by left|right]. by eapply top_back.
      + intros e HA. eapply nopop; [done| |exact HA]. by destruct o.
  Qed.
  Lemma run_cover l : tame k -> k_steady k = true \/ existsb sets_back l = false -> forall s s' : sta, top s -> fine l -> run k l s = Ok s' ->
    (m_up (me s) = true -> cover (fun _ => False) s) -> m_up (me s') = true -> cover (fun _ => False) s'.
  Proof using Hk Hrf.
    intros Hta. induction l as [|o l IH]; intros Hb s s' T Hf R Hd Hup'; [injection R as <-; by apply Hd|].
    rewrite run_cons in R. unfold fine in Hf. simpl in Hf. apply andb_true_iff in Hf as [Hf1 Hf2]. simpl in Hb. rewrite orb_false_iff in Hb.
    destruct (top_step k Hk o s T Hf1) as (s1 & r1 & E1 & T1 & _ & _ & Hs & _). rewrite E1 in R. unfold rbind in R.
    apply (IH ltac:(tauto) s1 s' T1 Hf2 R); [|done]. intros Hup1. destruct (up_step k Hk o s s1 r1 T Hf1 E1 Hup1) as [Hup Hn].
    eapply step_cover; [done|exact T|done|done|done|tauto|exact E1|by apply Hd].
  Qed.

  (** ** C42 *)
  Lemma after_DQ l sc : fine l -> after k l sc -> m_up (me sc) = true -> exists sa : sta, srel sa sc /\ top sa /\ run k l st_init = Ok sa /\ m_up (me sa) = true /\ DQ delay sa.
  Proof using Hk Hrf.
    intros Hf Ha Hup. destruct (after_abs k Hk l sc Hf Ha) as (sa & R & S & T & _). assert (m_up (me sa) = true) as Hupa by (by rewrite (srel_me _ _ S)).
    exists sa. split_and!; try done. eapply run_DQ; [apply top_init|exact Hf|exact R| |done]. intros _. apply DQ_init.
  Qed.
  Lemma tv_obs (sa : sta) (sc : cache) x el : srel sa sc -> a_torn (cs sa) = None -> tv sa x = Some el ->
    x ∈ table_entries sc /\ exists el0, m_els (me sc) !! x = Some el0 /\ el = with_rc el0 0.
  Proof using. intros S Ht (T1 & el0 & T2 & ->)%tv_elim. rewrite (table_obs sa sc S Ht), <-(srel_me _ _ S). eauto. Qed.
  Lemma queue_order l sc : fine l -> after k l sc -> m_up (me sc) = true ->
    elements 0 (p_d (cs sc)) = Ok (refresh_queue sc) /\ NoDup (refresh_queue sc) /\
    (forall e, e ∈ refresh_queue sc -> e ∈ table_entries sc /\ exists el, m_els (me sc) !! e = Some el /\ m_pending (el_map el) = false /\ (el_rf el <= m_steady (me sc) + delay)%Z) /\
    (forall i j e e' t t', i < j -> refresh_queue sc !! i = Some e -> refresh_queue sc !! j = Some e' -> due_at sc e = Some t -> due_at sc e' = Some t' -> (t <= t')%Z).
  Proof using Hk Hrf.
    intros Hf Ha Hup. destruct (after_DQ l sc Hf Ha Hup) as (sa & S & T & R & Hupa & [D1 D2 D3]). destruct (top_facts k sa T Hupa) as (Hi & Ht & HJ).
    destruct (queue_obs sa sc S) as [Q1 Q2]. rewrite Q2. split_and!; [done|done|..].
    - intros e He. destruct (D1 e He) as (el & Te & Hp & Hle). destruct (tv_obs sa sc e el S Ht Te) as (H1 & el0 & H2 & ->). split; [done|]. exists el0.
      rewrite <-(srel_me _ _ S). split_and!; [by rewrite (srel_me _ _ S)|done|done].
    - intros i j e e' t t' Hij Hi1 Hj. unfold due_at. rewrite <-(srel_me _ _ S).
      assert (due sa e <= due sa e')%Z as Hle.
      { clear -D2 Hij Hi1 Hj. revert i j Hij Hi1 Hj. induction (a_dq (cs sa)) as [|x q IH]; intros i j Hij Hi1 Hj; [done|]. apply StronglySorted_inv in D2 as [S1 S2].
        destruct j as [|j]; [lia|]. simpl in Hj. destruct i as [|i].
        - simpl in Hi1. injection Hi1 as ->. rewrite Forall_forall in S2. apply S2. by eapply elem_of_list_lookup_2.
        - simpl in Hi1. apply (IH S1 i j); [lia|done|done]. }
      destruct (D1 e) as (el & Te & _); [by eapply elem_of_list_lookup_2|]. destruct (D1 e') as (el' & Te' & _); [by eapply elem_of_list_lookup_2|].
      unfold due in Hle. rewrite Te, Te' in Hle. apply tv_elim in Te as (_ & e0 & -> & ->). apply tv_elim in Te' as (_ & e0' & -> & ->). simpl in *. intros [= <-] [= <-]. done.
  Qed.
  Lemma in_time_late (sc : cache) el : in_time sc el <-> late (me sc) el = false.
  Proof using.
    unfold in_time, late, reached. rewrite !orb_false_iff. split.
    - intros (H1 & H2 & H3). split_and!; [destruct (el_xw el) as [t|]; [|done]|destruct (el_xs el) as [t|]; [|done]|destruct (el_cn el) as [t|]; [|done]]; apply bool_decide_eq_false;
        [specialize (H1 t eq_refl)|specialize (H2 t eq_refl)|specialize (H3 t eq_refl)]; lia.
    - intros ((H1 & H2) & H3). split_and!; intros t E; rewrite E in *; match goal with H : bool_decide _ = false |- _ => apply bool_decide_eq_false in H; lia end.
  Qed.
  Lemma queue_complete l sc e el v : tame k -> fine l -> after k l sc -> m_up (me sc) = true -> k_steady k = true \/ existsb sets_back l = false ->
    e ∈ table_entries sc -> m_els (me sc) !! e = Some el -> el_map el = MVal v -> el_rs el = false -> in_time sc el -> e ∈ refresh_queue sc.
  Proof using Hk Hrf.
    intros Hta Hf Ha Hup Hb He Hel Hm Hrs Hin. destruct (after_DQ l sc Hf Ha Hup) as (sa & S & T & R & Hupa & _). destruct (top_facts k sa T Hupa) as (Hi & Ht & HJ).
    destruct (queue_obs sa sc S) as [_ Q2]. rewrite Q2. rewrite (table_obs sa sc S Ht) in He. rewrite <-(srel_me _ _ S) in Hel.
    assert (cover (fun _ => False) sa) as HC. { eapply run_cover; [done|exact Hb|apply top_init|exact Hf|exact R| |done]. intros _. apply cover_init. }
    destruct (HC e (with_rc el 0)) as [?|[]]; try done; [by apply tv_some|simpl; by rewrite Hm|]. apply in_time_late in Hin. rewrite (srel_me _ _ S). done.
  Qed.
  Lemma found_queued l sc key v : tame k -> fine l -> after k l sc -> k_steady k = true \/ existsb sets_back l = false -> peek k sc key = Some v ->
    exists e el, e ∈ table_entries sc /\ m_els (me sc) !! e = Some el /\ k_eq k (el_key el) key = true /\ el_map el = MVal v /\ (e ∈ refresh_queue sc \/ el_rs el = true).
  Proof using Hk Hrf.
    intros Hta Hf Ha Hb Hp. destruct (after_abs k Hk l sc Hf Ha) as (sa & R & S & T & _).
    destruct (peek_entry k sa sc key v S T Hp) as (Hupa & x & el & Tx & Ek & Hv & Hx). destruct (top_facts k sa T Hupa) as (Hi & Ht & HJ).
    destruct (tv_obs sa sc x el S Ht Tx) as (H1 & el0 & H2 & ->). exists x, el0.
    assert (el_map el0 = MVal v) as Hm.
    { destruct (j_tame _ _ HJ x _ Hta Tx) as [Hw _]. simpl in Hv, Hw. destruct (el_map el0) as [p|w|[w|]|y| |]; try done; [by injection Hv as ->|by destruct (Hw w)]. }
    split_and!; try done. destruct (el_rs el0) eqn:Ers; [by right|left].
    eapply queue_complete; try done; [by rewrite <-(srel_me _ _ S)|]. apply in_time_late. rewrite <-(srel_me _ _ S). unfold el_expired in Hx. rewrite !orb_false_iff in Hx.
    destruct Hx as [[[_ X1] X2] X3]. simpl in *. unfold late. by rewrite X1, X2, X3.
  Qed.

  (** ** C30 *)
  Lemma dues_obs (sa : sta) (sc : cache) t : srel sa sc -> a_torn (cs sa) = None -> DQ delay sa -> overdue t sc = dues t sa.
  Proof using.
    intros S Ht HD. unfold overdue, dues. destruct (queue_obs sa sc S) as [_ ->].
    assert (forall q, (forall x, x ∈ q -> x ∈ a_dq (cs sa)) -> List.filter (due_by t sc) q = filter (fun x => (due sa x <= t)%Z) q) as H.
    { induction q as [|x q IH]; intros Hq; [done|]. simpl. rewrite filter_cons, <-IH by (intros; apply Hq; by right).
      destruct (d_tv _ _ HD x) as (el & Tx & _); [apply Hq; by left|]. unfold due_by, due_at, due. rewrite Tx. apply tv_elim in Tx as (_ & e0 & He0 & ->).
      rewrite <-(srel_me _ _ S), He0. simpl. destruct (decide (el_rf e0 <= t)%Z); [by rewrite bool_decide_true|by rewrite bool_decide_false]. }
    by apply H.
  Qed.
  (** a round in which the worker has nothing left to do ignores what the resolver would do next *)
  Lemma worker_more (D : comp) (now : Z) extra : forall items (s s' : @st D), worker k s now items = Ok s' ->
    (exists o, c_dfront D (cs s') = Ok o /\ forall e, o = Some e -> exists el, m_els (me s') !! e = Some el /\ (now < el_rf el)%Z) -> worker k s now (items ++ extra) = Ok s'.
  Proof using.
    induction items as [|[[u out] [keep throw]] items IH]; intros s s' E Hend.
    - simpl in E. injection E as ->. simpl app. destruct extra as [|[[u out] [keep throw]] extra]; [done|]. simpl. destruct Hend as (o & -> & Hend). simpl.
      destruct o as [e|]; [|done]. destruct (Hend e eq_refl) as (el & E & Hlt). unfold s_el, rd_el. rewrite E. simpl.
      by rewrite bool_decide_false by lia.
    - simpl app. simpl in E |- *. destruct (c_dfront D (cs s)) as [[e|]| | |]; try done. simpl in E |- *.
      destruct (s_el s e) as [el| | |]; unfold rbind in E |- *; try done. destruct (bool_decide _); [|done]. destruct (c_dunlink _ _ _) as [c| | |]; try done.
      destruct (refresh _ _ _ _ _ _ _) as [s1| | |]; try done. by apply IH.
  Qed.
  Lemma tick_more items extra (s s' : cache) r : m_up (me s) = true -> step k false (OTick items) s = Ok (s', r) ->
    (exists o, c_dfront comp_ptr (cs s') = Ok o /\ forall e, o = Some e -> exists el, m_els (me s') !! e = Some el /\ (m_steady (me s) < el_rf el)%Z) ->
    step k false (OTick (items ++ extra)) s = Ok (s', r).
  Proof using Hrf.
    intros Hup E1 Hend. rewrite step_eq in E1 |- *. unfold step_with in E1 |- *. rewrite Hup in E1 |- *. simpl negb in E1 |- *. simpl andb in E1 |- *. cbv iota in E1 |- *. rewrite Hrf in E1 |- *.
    rewrite map_app. destruct (worker k s (m_steady (me s)) (map _ items)) as [s2| | |] eqn:Ew; unfold rbind in E1; try done. injection E1 as -> <-.
    by rewrite (worker_more _ _ _ _ _ _ Ew Hend).
  Qed.
  Lemma run_one l o (s s1 s' : cache) r : run k l s = Ok s1 -> step k false o s1 = Ok (s', r) -> run k (l ++ [o]) s = Ok s'.
  Proof using.
    intros E1 E2. revert s E1. induction l as [|x l IH]; intros s E1; [injection E1 as ->; simpl; by rewrite E2|].
    simpl app. cbn [run] in E1 |- *. destruct (step k false x s) as [[s2 r2]| | |]; unfold rbind in E1 |- *; try done. by apply IH.
  Qed.
  Lemma round_ends l items sc : fine (l ++ [OTick items]) -> (0 < delay)%Z -> after k l sc -> m_up (me sc) = true -> length (overdue (m_steady (me sc)) sc) <= length items ->
    exists sc', after k (l ++ [OTick items]) sc' /\ m_up (me sc') = true /\ overdue (m_steady (me sc)) sc' = [] /\ forall extra, after k (l ++ [OTick (items ++ extra)]) sc'.
  Proof using Hk Hrf.
    intros (Hf & Hf1)%fine_app Hd Ha Hup Hlen. destruct (after_DQ l sc Hf Ha Hup) as (sa & S & T & R & Hupa & HD). destruct (top_facts k sa T Hupa) as (Hi & Ht & HJ).
    assert (fine_op false (OTick items) = true) as Hfo. { unfold fine in Hf1. simpl forallb in Hf1. by rewrite andb_true_r in Hf1. }
    destruct (tick_ends k Hk items g0 sa Hfo eq_refl eq_refl Hi Hupa HJ) as (s1 & E1 & _ & D & _); [by rewrite Hrf|].
    rewrite (dues_obs sa sc _ S Ht HD) in Hlen. rewrite (srel_me _ _ S) in D. specialize (D _ _ Hrf Hd HD Hlen).
    destruct (top_step k Hk _ sa T Hfo) as (s1' & r1 & E1' & T1 & _ & _ & Hs & _). rewrite E1 in E1'. injection E1' as <- <-.
    destruct (Hs Hupa ltac:(done)) as (Hup1 & P & _). pose proof (path_DQ k delay idle Hrf _ _ _ P HD) as HD1. destruct (top_facts k s1 T1 Hup1) as (Hi1 & Ht1 & HJ1).
    destruct (step_c k _ _ _ _ _ sc S E1) as (sc1 & Ec1 & S1).
    exists sc1. split_and!; [by eapply run_one|by rewrite <-(srel_me _ _ S1)|by rewrite (dues_obs s1 sc1 _ S1 Ht1 HD1)|]. intros extra.
    eapply run_one; [exact Ha|]. apply (tick_more items extra sc sc1 RetNone Hup Ec1).
    pose proof (sim_dfront _ _ _ comp_ptr_sim _ _ (srel_cs _ _ S1)) as Hfr. simpl in Hfr. destruct Hfr as (o & Ho & <-).
    exists (head (a_dq (cs s1))). split; [exact Ho|]. intros e He. apply head_Some_elem_of in He as He'. destruct (d_tv _ _ HD1 e He') as (el & Te & _).
    apply tv_elim in Te as Te'. destruct Te' as (_ & e0 & He0 & ->). exists e0. rewrite <-(srel_me _ _ S1). split; [done|].
    destruct (decide (el_rf e0 <= m_steady (me sc))%Z) as [Hle|]; [|lia]. exfalso. unfold dues in D.
    assert (e ∈ filter (fun x => (due s1 x <= m_steady (me sc))%Z) (a_dq (cs s1))) as Hin; [|rewrite D in Hin; by apply elem_of_nil in Hin].
    apply elem_of_list_filter. split; [|done]. unfold due. by rewrite Te.
  Qed.
  (** after a round every value that is due is being refreshed *)
  Lemma round_serves l items sc sc' e el v : tame k -> fine (l ++ [OTick items]) -> (0 < delay)%Z -> after k l sc -> m_up (me sc) = true -> length (overdue (m_steady (me sc)) sc) <= length items ->
    k_steady k = true \/ existsb sets_back (l ++ [OTick items]) = false -> after k (l ++ [OTick items]) sc' ->
    e ∈ table_entries sc' -> m_els (me sc') !! e = Some el -> el_map el = MVal v -> in_time sc' el -> (el_rf el <= m_steady (me sc))%Z -> el_rs el = true.
  Proof using Hk Hrf.
    intros Hta Hf Hd Ha Hup Hlen Hb Ha' He Hel Hm Hin Hle. destruct (el_rs el) eqn:Ers; [done|exfalso].
    destruct (round_ends l items sc Hf Hd Ha Hup Hlen) as (sc1 & Ha1 & Hup1 & Hov & _). assert (sc1 = sc') as -> by (unfold after in *; congruence).
    pose proof (queue_complete _ sc' e el v Hta Hf Ha' Hup1 Hb He Hel Hm Ers Hin) as Hq.
    assert (In e (overdue (m_steady (me sc)) sc')) as HI; [|by rewrite Hov in HI].
    unfold overdue. apply filter_In. split; [by apply elem_of_list_In|]. unfold due_by, due_at. rewrite Hel. simpl. by apply bool_decide_true.
  Qed.
End rounds.
