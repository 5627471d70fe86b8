(** The entries of a key: uniqueness, get_or_emplace (lemmas for PropertiesEntries.v). *)
From stdpp Require Import sorting.
From Verif Require Import Base LinkedList AQueue ATable BasicHashtable LinkedListProofs QueueProofs BasicHashtableProofs ContainersProofs Mapped Cache CachePtr CacheAbs CompSim CacheSim AbsInv AbsPrim AbsPrim2 AbsSweep AbsOps AbsComp Trace AbsTrace TraceInv Delay AbsTraceCb Histories AbsResolve AbsStep AbsLook Effects Observe Transfer Lookups Waiters Answers Calls Cancel Origins Rounds.

Section unique.
  Context (k : cfg) (Hk : fine_cfg k) (Hta : tame k) (Hq : eq_ok k).
  Notation srel := (srel comp_abs comp_ptr crel).
  Notation top := (top k).

  Lemma run_unique l : forall s s' : sta, top s -> fine l -> forallb (plain_op k) l = true -> run k l s = Ok s' -> (m_up (me s) = true -> uq k none s) -> m_up (me s') = true -> uq k none s'.
  Proof using Hk Hq.
    induction l as [|o l IH]; intros s s' T Hf Hp R Hu Hup'; [injection R as <-; by apply Hu|].
    rewrite run_cons in R. unfold fine in Hf. simpl in Hf, Hp. apply andb_true_iff in Hf as [Hf1 Hf2]. apply andb_true_iff in Hp as [Hp1 Hp2].
    destruct (top_step k Hk o s T Hf1) as (s1 & r1 & E1 & T1 & _ & _ & Hs & _). rewrite E1 in R. unfold rbind in R.
    apply (IH s1 s' T1 Hf2 Hp2 R); [|done]. intros Hup1. destruct (up_step k Hk o s s1 r1 T Hf1 E1 Hup1) as [Hup Hn].
    destruct (Hs Hup Hn) as (_ & _ & Hsu & _). apply Hsu; [done|by apply plain_clean|by apply Hu].
  Qed.
  Lemma after_unique l sc : fine l -> forallb (plain_op k) l = true -> after k l sc -> m_up (me sc) = true ->
    exists sa : sta, srel sa sc /\ inv k g0 sa /\ m_up (me sa) = true /\ a_torn (cs sa) = None /\ J k sa /\ uq k none sa.
  Proof using Hk Hq.
    intros Hf Hp Ha Hup. destruct (after_abs k Hk l sc Hf Ha) as (sa & R & S & T & _). assert (m_up (me sa) = true) as Hupa by (by rewrite (srel_me _ _ S)).
    destruct (top_facts k sa T Hupa) as (Hi & Ht & HJ).
    exists sa. split_and!; try done. eapply run_unique; [apply top_init|exact Hf|exact Hp|exact R| |done]. intros _. apply uq_init.
  Qed.

  Lemma live_tv (sa : sta) (sc : cache) e key : srel sa sc -> a_torn (cs sa) = None -> live_entry sc e key ->
    exists el, tv sa e = Some el /\ el_key el = key /\ hopeful (el_map el) = true.
  Proof using.
    intros S Ht (He & el & Hel & Hkey & Hm). rewrite (table_obs sa sc S Ht) in He. rewrite <-(srel_me _ _ S) in Hel.
    exists (with_rc el 0). split; [by apply tv_some|]. split; [done|]. simpl. destruct Hm as [(v & [-> | ->])|(p & -> & Hp)]; [done..|]. simpl. by rewrite Hp.
  Qed.
  Lemma linked_obs (sa : sta) (sc : cache) n o : srel sa sc -> linked sa n o -> replaces sc n o.
  Proof using.
    intros S (en & p & Tn & Em & Ho). apply tv_elim in Tn as (_ & el & Hel & ->). apply olds_iff in Ho as (m & Ho).
    exists el, p, m. by rewrite <-(srel_me _ _ S).
  Qed.
  Lemma linked_value (s : sta) n o eo : J k s -> linked s n o -> tv s o = Some eo -> el_pending eo = false.
  Proof using. intros HJ (en & p & Tn & Em & Ho) To. apply olds_iff in Ho as (m & Ho). by destruct (j_rs _ _ HJ n en p m o eo Tn Em Ho To) as (_ & _ & ?). Qed.
  Lemma linked_once (s : sta) n o1 o2 : J k s -> linked s n o1 -> linked s n o2 -> o1 = o2.
  Proof using.
    intros HJ (en & p & Tn & Em & Ho1) (en' & p' & Tn' & Em' & Ho2). assert (en' = en) as -> by congruence. assert (p' = p) as -> by congruence.
    pose proof (j_one _ _ HJ n en p Tn Em) as H. destruct (olds_of (p_cbq p)) as [|a [|? ?]]; [by apply elem_of_nil in Ho1| |simpl in H; lia].
    apply elem_of_list_singleton in Ho1 as ->. by apply elem_of_list_singleton in Ho2 as ->.
  Qed.
  Lemma linked_by (s : sta) n1 n2 o : J k s -> linked s n1 o -> linked s n2 o -> n1 = n2.
  Proof using. intros HJ (e1 & p1 & T1 & M1 & H1) (e2 & p2 & T2 & M2 & H2). by eapply (j_uref _ _ HJ). Qed.

  Lemma two_live l sc x y key key' : fine l -> forallb (plain_op k) l = true -> after k l sc -> m_up (me sc) = true ->
    live_entry sc x key -> live_entry sc y key' -> k_eq k key key' = true ->
    x = y \/ k_refresh k <> None /\ (replaces sc x y \/ replaces sc y x).
  Proof using Hk Hq.
    intros Hf Hp Ha Hup Lx Ly Ek. destruct (after_unique l sc Hf Hp Ha Hup) as (sa & S & Hi & Hupa & Ht & HJ & Hu).
    destruct (live_tv sa sc x key S Ht Lx) as (ex & Tx & <- & Hx). destruct (live_tv sa sc y key' S Ht Ly) as (ey & Ty & <- & Hy).
    destruct (decide (x = y)) as [->|Hne]; [by left|right].
    assert (forall n o, linked sa n o -> k_refresh k <> None) as Hr.
    { intros n o (en & p & Tn & Em & Ho) Hr. destruct (j_cn _ _ HJ n en Hr Tn) as [_ Hc]. rewrite Em in Hc. simpl in Hc. rewrite Hc in Ho. by apply elem_of_nil in Ho. }
    destruct (Hu x y ex ey Tx Ty Hne Ek Hx Hy) as [H|[H|[[]|[]]]]; (split; [by eapply Hr|]); [left|right]; by eapply linked_obs.
  Qed.
  Lemma three_live l sc x y z kx ky kz : fine l -> forallb (plain_op k) l = true -> after k l sc -> m_up (me sc) = true ->
    live_entry sc x kx -> live_entry sc y ky -> live_entry sc z kz -> k_eq k kx ky = true -> k_eq k ky kz = true -> x = y \/ y = z \/ x = z.
  Proof using Hk Hq.
    intros Hf Hp Ha Hup Lx Ly Lz E1 E2. destruct (after_unique l sc Hf Hp Ha Hup) as (sa & S & Hi & Hupa & Ht & HJ & Hu).
    destruct (live_tv sa sc x kx S Ht Lx) as (ex & Tx & <- & Hx). destruct (live_tv sa sc y ky S Ht Ly) as (ey & Ty & <- & Hy). destruct (live_tv sa sc z kz S Ht Lz) as (ez & Tz & <- & Hz).
    destruct (decide (x = y)) as [|N1]; [by left|]. destruct (decide (y = z)) as [|N2]; [right; by left|]. destruct (decide (x = z)) as [|N3]; [right; by right|]. exfalso.
    assert (k_eq k (el_key ex) (el_key ez) = true) as E3. { destruct Hq as (_ & _ & H3 & _). by eapply H3. }
    assert (forall n o m eo, linked sa n o -> tv sa o = Some eo -> linked sa o m -> False) as Hno.
    { intros n o m eo H1 To (eo' & p & To' & Em & _). pose proof (linked_value sa n o eo HJ H1 To) as Hv. assert (eo' = eo) as -> by congruence. unfold el_pending in Hv. by rewrite Em in Hv. }
    destruct (Hu x y ex ey Tx Ty N1 E1 Hx Hy) as [H1|[H1|[[]|[]]]]; destruct (Hu y z ey ez Ty Tz N2 E2 Hy Hz) as [H2|[H2|[[]|[]]]]; destruct (Hu x z ex ez Tx Tz N3 E3 Hx Hz) as [H3|[H3|[[]|[]]]].
    all: first [by eapply (Hno _ _ _ _ H1 Ty H2) | by apply N2; eapply linked_once; [exact HJ|exact H1|exact H3] | by apply N1; symmetry; eapply linked_once; [exact HJ|exact H2|exact H3]
      | by apply N1; eapply linked_by; [exact HJ|exact H3|exact H2] | idtac].
    all: try solve [eapply Hno; eassumption | exfalso; eauto using linked_once, linked_by].
  Qed.
  Lemma any_live l sc e el key v : fine l -> forallb (plain_op k) l = true -> after k l sc -> m_up (me sc) = true ->
    e ∈ table_entries sc -> m_els (me sc) !! e = Some el -> el_map el = MVal v -> in_time sc el -> k_eq k (el_key el) key = true -> peek k sc key = Some v.
  Proof using Hk Hta Hq.
    intros Hf Hp Ha Hup He Hel Hm Hin Ek. destruct (after_unique l sc Hf Hp Ha Hup) as (sa & S & Hi & Hupa & Ht & HJ & Hu).
    rewrite (table_obs sa sc S Ht) in He. rewrite <-(srel_me _ _ S) in Hel. apply in_time_late in Hin. rewrite <-(srel_me _ _ S) in Hin.
    rewrite (peek_inv k Hta g0 sa sc key S Hi HJ Hupa). assert (tv sa e = Some (with_rc el 0)) as Te by (by apply tv_some).
    destruct Hq as (E1 & E2 & E3 & E4).
    rewrite (firm_look k false sa key v e (with_rc el 0)); [done| |done]. split_and!; try done.
    assert (e ∈ hseq sa (k_hash k key)) as Hh.
    { apply elem_of_list_filter. split; [|done]. rewrite (i_hash _ _ _ Hi e el ltac:(by apply tab_LT) Hel). f_equal. by apply E4. }
    apply elem_of_list_split in Hh as (l1 & l2 & Eh). exists l1, l2. split; [done|]. intros y ey Hy Ty Eky. left.
    destruct (hopeful (el_map ey)) eqn:Hh; [|done]. exfalso.
    assert (e <> y) as Hne.
    { intros <-. assert (NoDup (hseq sa (k_hash k key))) as Hnd. { apply NoDup_filter. by eapply tab_nodup. } rewrite Eh in Hnd. apply NoDup_app in Hnd as (_ & Hd & _). apply (Hd e Hy). by left. }
    destruct (Hu e y (with_rc el 0) ey Te Ty Hne) as [H|[H|[[]|[]]]].
    - simpl. eapply E3; [exact Ek|by apply E2].
    - simpl. by rewrite Hm.
    - done.
    - destruct H as (en & p & Tn & Em & _). rewrite Te in Tn. injection Tn as <-. simpl in Em. congruence.
    - destruct H as (en & p & Tn & Em & Ho). pose proof (j_lt _ _ HJ y en p e Tn Em Ho) as Hlt.
      destruct (j_sync _ _ HJ) as [Hr|[_ Hs]]; [|specialize (Hs y en Tn); unfold el_pending in Hs; by rewrite Em in Hs].
      pose proof (j_sorted _ _ HJ (k_hash k key) Hr) as Hs. rewrite Eh in Hs.
      assert (y < e)%N; [|lia]. clear -Hs Hy. induction l1 as [|z l1 IH]; [by apply not_elem_of_nil in Hy|]. simpl in Hs. apply StronglySorted_inv in Hs as [Hs Hz].
      apply elem_of_cons in Hy as [->|Hy]; [|by apply IH]. rewrite Forall_forall in Hz. apply Hz. apply elem_of_app. right. left.
  Qed.

  (** ** C15 *)
  Lemma look_give (s : sta) v key incl : looki k (give k s v) key incl = looki k s key incl.
  Proof using. unfold give. by destruct (k_pointer k). Qed.
  Lemma un_give (s s' : sta) v key : unevicted k s (give k s' v) key -> unevicted k s s' key.
  Proof using. unfold give. by destruct (k_pointer k). Qed.
  Lemma goe_answers l key v sc sc' : ages_ok k -> fine l -> after k l sc -> after k (l ++ [OGetOrEmplace key v]) sc' -> m_up (me sc) = true ->
    (k_pointer k = true -> v ∉ m_dropped (me sc)) ->
    match peek k sc key with
    | Some u => answer k sc (OGetOrEmplace key v) = Some (RetVal u) /\ forall key', spared k sc sc' key' -> peek k sc' key' = peek k sc key'
    | None =>
      (exists i, underway k sc i key) /\ answer k sc (OGetOrEmplace key v) = Some RetThrew /\ (forall key', spared k sc sc' key' -> peek k sc' key' = peek k sc key') \/
      (forall i, ~ underway k sc i key) /\ answer k sc (OGetOrEmplace key v) = Some (RetVal v) /\
        forall key', spared k sc sc' key' -> peek k sc' key' = if k_eq k key key' then Some v else peek k sc key'
    end.
  Proof using Hk Hta Hq.
    intros Hag Hf Ha Ha' Hup Hdr. destruct (after_ready k Hk Hta Hq l sc Hf Ha) as (sa & S & R). pose proof (look_up sa sc S) as U. rewrite Hup in U. symmetry in U. pose proof (srel_me sa sc S) as M.
    destruct (ready_facts k sa R U) as (Hi & Ht & HJ & Hu).
    assert (holds k sa v = true) as Hh. { unfold holds. destruct (k_pointer k); [simpl|done]. apply bool_decide_eq_true. rewrite M. by apply Hdr. }
    pose proof (step_goe k sa key v (proj1 R) U Hh) as E.
    assert (forall sa' r, step k false (OGetOrEmplace key v) sa = Ok (sa', r) -> answer k sc (OGetOrEmplace key v) = Some r /\ (forall key', peek k sc' key' = val (looki k sa' key' false)) /\ (forall key', spared k sc sc' key' -> unevicted k sa sa' key')) as Hc.
    { intros sa' r E'. destruct (step_c k _ _ _ _ _ _ S E') as (sc2 & Ec2 & S'). rewrite (after_step k l _ sc sc' sc2 r Ha Ha' Ec2). unfold answer. rewrite Ec2. split; [done|].
      split; [|intros key'; by apply spared_un].
      assert (ready k sa') as R' by (eapply (ready_step k Hk Hta Hq); [exact R| |exact E']; done).
      assert (m_up (me sa') = true) as U'. { destruct (top_step k Hk (OGetOrEmplace key v) sa (proj1 R) eq_refl) as (s1 & r1 & E1 & _ & _ & _ & Hs & _).
        rewrite E' in E1. injection E1 as -> ->. destruct (Hs U ltac:(done)) as (-> & _). done. }
      destruct (ready_facts k sa' R' U') as (Hi' & Ht' & HJ' & _). intros key'. by apply (peek_inv k Hta g0). }
    assert (forall key', peek k sc key' = val (looki k sa key' false)) as Hp by (intros; by apply (peek_inv k Hta g0)).
    destruct (peek k sc key) as [u|] eqn:Hpk.
    - pose proof (peek_some k Hta sa sc key u S R U Hpk) as L. pose proof (look_false k Hta Hq g0 sa key u Hi Ht HJ Hu L) as L1.
      destruct (goe_hit k g0 sa key v key false) as [Hr _]; try done; [by rewrite L1|]. rewrite L1 in Hr. rewrite Hr in E. destruct (Hc _ _ E) as (-> & Hc2 & Hev).
      split; [done|]. intros key' Hs. apply Hev, un_give in Hs. rewrite Hc2, Hp, look_give. destruct (goe_hit k g0 sa key v key' false) as [_ ->]; try done. by rewrite L1.
    - pose proof (peek_none k Hta sa sc key S R U Hpk) as L. destruct (look_kinds k sa key true) as [L1|[(u & L1)|(_ & L1)]].
      + right. split_and!.
        * intros i Hu'. destruct (underway_open k sa sc i key S (proj1 R) Hup Hu') as [_ [e Ho]]. by apply (open_look k Hq sa i e key R U Ho).
        * destruct (goe_miss k g0 sa key v key false) as [Hr _]; try done. rewrite Hr in E. by destruct (Hc _ _ E).
        * destruct (goe_miss k g0 sa key v key false) as [Hr _]; try done. rewrite Hr in E. destruct (Hc _ _ E) as (_ & Hc2 & Hev). intros key' Hs. apply Hev, un_give in Hs. rewrite Hc2, Hp, look_give.
          destruct (goe_miss k g0 sa key v key' false) as [_ ->]; try done. by destruct (k_eq k key key').
      + apply (look_true k) in L1. congruence.
      + left. assert (k_resolver k = RAsync) as Hra.
        { destruct (j_sync _ _ HJ) as [?|[_ Hs]]; [done|]. exfalso. destruct (firstv_split _ _ _ L1) as (l1 & x & l2 & _ & Ex & _); [done|]. unfold cand in Ex.
          destruct (tv sa x) as [el|] eqn:Tx; [|done]. specialize (Hs x el Tx). unfold el_pending in Hs. destruct (k_eq k (el_key el) key); [|done]. unfold vis in Ex. destruct (el_map el); try done. by destruct (late (me sa) el). }
        destruct (goe_hit k g0 sa key v key false) as [Hr _]; try done; [by rewrite L1|]. rewrite L1 in Hr. rewrite Hr in E. destruct (Hc _ _ E) as (-> & Hc2 & Hev).
        split_and!; [|done|].
        * destruct (look_open k sa key Hta HJ Hra L1) as (i & Ho). exists i. by eapply open_underway.
        * intros key' Hs. apply Hev in Hs. rewrite Hc2, Hp. destruct (goe_hit k g0 sa key v key' false) as [_ ->]; try done. by rewrite L1.
  Qed.
End unique.

Section forget.
  Context (k : cfg) (Hk : fine_cfg k) (Hta : tame k) (Hq : eq_ok k).
  (** ** C19 *)
  Lemma forgotten l key x script out sc sc1 sc2 : ages_ok k -> k_resolver k = RSync -> fine ((l ++ [OGet key [] (RThrow x)]) ++ [OGet key script out]) ->
    after k l sc -> after k (l ++ [OGet key [] (RThrow x)]) sc1 -> after k ((l ++ [OGet key [] (RThrow x)]) ++ [OGet key script out]) sc2 -> m_up (me sc) = true -> peek k sc key = None ->
    peek k sc1 key = None /\ exists l', m_log (me sc2) = l' ++ EvResolve key :: m_log (me sc1).
  Proof using Hk Hta Hq.
    intros Hag Hr Hf Ha Ha1 Ha2 Hup Hp. apply fine_app in Hf as [Hf1 Hf2%fine_one]. simpl in Hf2. apply andb_true_iff in Hf2 as [Hf2 Hf3].
    destruct (sync_miss k Hk Hta Hq l key [] (RThrow x) sc sc1 Hag Hf1 Ha Ha1 Hup Hr Hp) as (s0 & s1 & _ & P0 & [= <-] & _ & _ & P1).
    assert (peek k sc1 key = None) as Hp1 by (by rewrite P1, P0). split; [done|].
    destruct (after_ready k Hk Hta Hq _ sc1 Hf1 Ha1) as (sa & S & R).
    assert (m_up (me sa) = true) as U.
    { destruct (after_snoc k Hk l _ sc sc1 Hf1 Ha Ha1) as (sb & sb' & r & Sb & Sb' & T & T' & E & Ec). rewrite <-(look_up sa sc1 S), (look_up sb' sc1 Sb').
      rewrite (step_up k Hk sb sb' (OGet key [] (RThrow x)) _ T eq_refl ltac:(done) E). by rewrite <-(look_up sb sc Sb). }
    pose proof (peek_none k Hta sa sc1 key S R U Hp1) as L.
    destruct (get_sync k Hk Hta sa key script out R U Hr Hf2 Hf3 L) as (s1 & s2 & s3 & sa' & E & _ & (l' & L' & _) & _).
    destruct (step_c k _ _ _ _ _ _ S E) as (sc' & Ec & S'). rewrite (after_step k _ _ sc1 sc2 sc' _ Ha1 Ha2 Ec).
    exists l'. by rewrite <-(srel_me _ _ S'), <-(srel_me _ _ S).
  Qed.
End forget.
