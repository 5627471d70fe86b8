(** The refresh thread (lemmas for PropertiesWorker.v). *)
From stdpp Require Import sorting.
From Verif Require Import Base LinkedList AQueue ATable BasicHashtable LinkedListProofs QueueProofs BasicHashtableProofs ContainersProofs Mapped Cache CachePtr CacheAbs CompSim CacheSim AbsInv AbsPrim AbsPrim2 AbsSweep AbsOps AbsComp Trace AbsTrace TraceInv Delay AbsTraceCb Histories AbsResolve AbsStep AbsLook Effects Observe Transfer Lookups Origins Rounds Stable Worker.

Section worker.
  Context (k : cfg) (Hk : fine_cfg k) (delay idle : Z) (Hrf : k_refresh k = Some (delay, idle)).
  Notation srel := (srel comp_abs comp_ptr crel).
  Notation top := (top k).

  (** nothing in the queue is due before [t] *)
  Definition soon (t : Z) (s : cache) : Prop := (t <= m_steady (me s) + delay)%Z /\ forall x d, x ∈ refresh_queue s -> due_at s x = Some d -> (t <= d)%Z.
  (** the due time of [e] is [t] as long as [e] exists *)
  Definition keeps (e : N) (t : Z) (s : cache) : Prop := (e < m_nxt (me s))%N /\ forall el, m_els (me s) !! e = Some el -> el_pending el = false /\ el_rf el = t.
  Definition ok_wait (s : cache) (w : wait) : Prop :=
    match w with WIdle => m_up (me s) = true | WTimed e t => m_up (me s) = true /\ soon t s /\ keeps e t s | WStopped => m_up (me s) = false end.

  Lemma soon_early (sa : sta) (sc : cache) t : srel sa sc -> DQ delay sa -> soon t sc <-> early delay t sa.
  Proof using.
    intros S HD. unfold soon, early. destruct (queue_obs sa sc S) as [_ ->]. unfold due_at. rewrite <-(srel_me _ _ S). split; intros [H1 H2]; (split; [done|]).
    - intros x Hx. destruct (d_tv _ _ HD x Hx) as (el & T & _). unfold due. rewrite T. apply tv_elim in T as (_ & e0 & He & ->). apply (H2 x); [done|]. by rewrite He.
    - intros x d Hx Hd. destruct (d_tv _ _ HD x Hx) as (el & T & _). specialize (H2 x Hx). unfold due in H2. rewrite T in H2. apply tv_elim in T as (_ & e0 & He & ->). rewrite He in Hd. by injection Hd as <-.
  Qed.
  Lemma front_c (sa : sta) (sc : cache) : srel sa sc -> c_dfront comp_ptr (cs sc) = Ok (head (a_dq (cs sa))).
  Proof using.
    intros S. pose proof (sim_dfront _ _ _ comp_ptr_sim _ _ (srel_cs _ _ S)) as Hfr. simpl in Hfr. destruct Hfr as (o & Ho & <-). exact Ho.
  Qed.
  Lemma step_soon l o sc : fine l -> after k l sc -> m_up (me sc) = true -> fine_op false o = true ->
    exists sc' r, step k false o sc = Ok (sc', r) /\ (m_up (me sc') = true -> forall t, soon t sc -> soon t sc') /\ forall e t, keeps e t sc -> keeps e t sc'.
  Proof using Hk Hrf.
    intros Hf Ha Hup Ho. destruct (after_DQ k Hk delay idle Hrf l sc Hf Ha Hup) as (sa & S & T & R & Hupa & HD).
    destruct (top_step k Hk o sa T Ho) as (s1 & r & E & T1 & _ & _ & Hs & Hd). destruct (step_c k _ _ _ _ _ sc S E) as (sc1 & Ec & S1). exists sc1, r. split; [done|]. split.
    2: { intros e t [Hn He]. unfold keeps. rewrite <-(srel_me _ _ S) in Hn, He. rewrite <-(srel_me _ _ S1). destruct (step_h k (N.succ e) o false sa s1 r E) as [Hn1 H1]; [lia|]. split; [lia|].
      intros el' Hel'. destruct (H1 e ltac:(lia)) as [_ H2]. destruct (H2 el' Hel') as (el & Hel & _ & L). destruct (He el Hel) as [Hp <-]. by apply L. }
    intros Hup1 t Ht. rewrite <-(srel_me _ _ S1) in Hup1. destruct (up_step k Hk o sa s1 r T Ho E Hup1) as [_ Hn]. destruct (Hs Hupa Hn) as (_ & P & _).
    pose proof (path_DQ k delay idle Hrf _ _ _ P HD) as HD1. apply (soon_early s1 sc1 t S1 HD1). apply (soon_early sa sc t S HD) in Ht. by eapply (path_early k delay idle Hrf).
  Qed.
  Lemma sleep_ok l sc : fine l -> after k l sc -> m_up (me sc) = true -> exists w, sleep sc = Ok w /\ ok_wait sc w /\
    match w with WIdle => refresh_queue sc = [] | WTimed e t => head (refresh_queue sc) = Some e /\ due_at sc e = Some t | WStopped => False end.
  Proof using Hk Hrf.
    intros Hf Ha Hup. destruct (after_DQ k Hk delay idle Hrf l sc Hf Ha Hup) as (sa & S & T & R & Hupa & HD). destruct (queue_obs sa sc S) as [_ Q].
    unfold sleep. rewrite (front_c sa sc S). unfold rbind at 1.
    destruct (a_dq (cs sa)) as [|e q] eqn:Eq; simpl head; [by exists WIdle|].
    destruct (d_tv _ _ HD e) as (el & Te & Hnp & Hle); [rewrite Eq; by left|]. apply tv_elim in Te as Te'. destruct Te' as (_ & e0 & He0 & ->). simpl in Hle.
    assert (m_els (me sc) !! e = Some e0) as He1 by (by rewrite <-(srel_me _ _ S)). unfold s_el, rd_el. rewrite He1. exists (WTimed e (el_rf e0)). split; [done|]. rewrite Q. split; [|unfold due_at; by rewrite He1].
    split; [done|]. split.
    2: { unfold keeps. rewrite <-(srel_me _ _ S). split; [apply (i_nxt _ _ _ (t_inv _ _ T)); eauto|]. intros el1 He2. rewrite He0 in He2. injection He2 as <-. split; [exact Hnp|done]. }
    apply (soon_early sa sc _ S HD). split; [done|]. intros x Hx. rewrite Eq in Hx. apply elem_of_cons in Hx as [->|Hx]; [unfold due; by rewrite Te|].
    pose proof (d_sorted _ _ HD) as Hs. rewrite Eq in Hs. apply StronglySorted_inv in Hs as [_ Hs]. rewrite Forall_forall in Hs. specialize (Hs x Hx). unfold due in *. by rewrite Te in Hs.
  Qed.
  Lemma front_ok l sc : fine l -> after k l sc -> m_up (me sc) = true -> c_dfront comp_ptr (cs sc) = Ok (head (refresh_queue sc)).
  Proof using Hk Hrf.
    intros Hf Ha Hup. destruct (after_DQ k Hk delay idle Hrf l sc Hf Ha Hup) as (sa & S & _). destruct (queue_obs sa sc S) as [_ ->].
    by apply front_c.
  Qed.
  Lemma fine_one o : fine [o] <-> fine_op false o = true.
  Proof using. unfold fine. simpl forallb. by rewrite andb_true_r. Qed.
  Lemma round_ok l items sc : fine l -> after k l sc -> m_up (me sc) = true -> fine_op false (OTick items) = true ->
    exists sc' w, round k sc items = Ok (sc', w) /\ after k (l ++ [OTick items]) sc' /\ ok_wait sc' w /\
    match w with WIdle => refresh_queue sc' = [] | WTimed e t => head (refresh_queue sc') = Some e /\ due_at sc' e = Some t | WStopped => False end.
  Proof using Hk Hrf.
    intros Hf Ha Hup Ho. destruct (after_abs k Hk l sc Hf Ha) as (sa & R & S & T & _). destruct (fine_step k Hk _ sa sc Ho S T) as (s1 & sc1 & r & E & Ec & S1 & T1 & _).
    rewrite <-(srel_me _ _ S) in Hup. destruct (top_step k Hk _ sa T Ho) as (s2 & r2 & E2 & _ & _ & _ & Hs & _). rewrite E in E2. injection E2 as <- <-.
    destruct (Hs Hup ltac:(done)) as (Hup1 & _). rewrite (srel_me _ _ S1) in Hup1.
    assert (after k (l ++ [OTick items]) sc1) as Ha1 by (by eapply run_one).
    destruct (sleep_ok (l ++ [OTick items]) sc1) as (w & Ew & Hw & Hm); [apply fine_app; by rewrite fine_one|done|done|].
    exists sc1, w. unfold round. rewrite Ec. unfold rbind at 1. rewrite Ew. done.
  Qed.

  Lemma thread_step_ok l v sc w : fine l -> after k l sc -> ok_wait sc w -> fine_event v = true ->
    (exists items e t, v = TWake items /\ w = WTimed e t /\ m_els (me sc) !! e = None /\ thread_step k v sc w = UB) \/
    exists sc' w' l', thread_step k v sc w = Ok (sc', w') /\ done_by v l' /\ fine l' /\ after k (l ++ l') sc' /\ ok_wait sc' w'.
  Proof using Hk Hrf.
    intros Hf Ha Hw Hv. destruct v as [o|items|items].
    - right. simpl in Hv. apply andb_true_iff in Hv as [Ho _]. unfold thread_step.
      assert (forall sc' r, step k false o sc = Ok (sc', r) -> after k (l ++ [o]) sc') as Hat by (intros; by eapply run_one).
      destruct (m_up (me sc)) eqn:Hup.
      + destruct (step_soon l o sc Hf Ha Hup Ho) as (sc' & r & E & Hs & Hkp). rewrite E. exists sc', (if m_up (me sc') then w else WStopped), [o].
        split_and!; [done|done|by apply fine_one|by eapply Hat|]. destruct (m_up (me sc')) eqn:Hup'; [|done]. destruct w as [|e t|]; simpl in *; [done| |congruence]. split; [done|]. split; [apply Hs; tauto|apply Hkp; tauto].
      + destruct w as [|e t|]; simpl in Hw; [congruence|destruct Hw; congruence|]. destruct (after_abs k Hk l sc Hf Ha) as (sa & R & S & T & _).
        destruct (fine_step k Hk o sa sc Ho S T) as (s1 & sc1 & r & E & Ec & S1 & T1 & _). rewrite Ec. exists sc1, WStopped, [o].
        split_and!; [simpl; by destruct (m_up (me sc1))|done|by apply fine_one|by eapply Hat|]. simpl. destruct (m_up (me sc1)) eqn:Hup1; [|done].
        rewrite <-(srel_me _ _ S1) in Hup1. destruct (up_step k Hk o sa s1 r T Ho E Hup1) as [Hup2 _]. rewrite (srel_me _ _ S) in Hup2. congruence.
    - simpl in Hv. destruct w as [|e t|].
      + right. simpl in Hw. unfold thread_step. rewrite (front_ok l sc Hf Ha Hw). unfold rbind at 1. destruct (head (refresh_queue sc)) as [e|].
        * destruct (round_ok l items sc Hf Ha Hw Hv) as (sc' & w' & E & A & O & _). rewrite E. exists sc', w', [OTick items]. split_and!; [done|by right|by apply fine_one|done|done].
        * exists sc, WIdle, []. rewrite app_nil_r. split_and!; [done|by left|done|done|done].
      + unfold thread_step, s_el, rd_el. destruct (m_els (me sc) !! e) as [el|] eqn:Ee; [|left; by exists items, e, t]. right.
        assert (el_rf el = t) as Et by (by apply (proj2 (proj2 (proj2 Hw)) el)). exists sc, (WTimed e t), []. rewrite app_nil_r. split_and!; [simpl; by rewrite Et|by left|done|done|done].
      + right. exists sc, WStopped, []. rewrite app_nil_r. split_and!; [done|by left|done|done|done].
    - right. simpl in Hv. destruct w as [|e t|]; [exists sc, WIdle, []; rewrite app_nil_r; by split_and!; [|left|..]| |exists sc, WStopped, []; rewrite app_nil_r; by split_and!; [|left|..]].
      unfold thread_step. case_bool_decide; [|exists sc, (WTimed e t), []; rewrite app_nil_r; by split_and!; [|left|..]].
      destruct Hw as [Hup _]. destruct (round_ok l items sc Hf Ha Hup Hv) as (sc' & w' & E & A & O & _). rewrite E. exists sc', w', [OTick items]. split_and!; [done|by right|by apply fine_one|done|done].
  Qed.
  (** the thread only ever does what the model of whole histories lets the worker do *)
  Lemma thread_run_ok vs : forall l sc w, fine l -> after k l sc -> ok_wait sc w -> forallb fine_event vs = true ->
    (exists vs1 items vs2 sc1 e t, vs = vs1 ++ TWake items :: vs2 /\ thread_run k vs1 sc w = Ok (sc1, WTimed e t) /\ m_els (me sc1) !! e = None /\ thread_run k vs sc w = UB) \/
    exists sc' w' ls, thread_run k vs sc w = Ok (sc', w') /\ Forall2 done_by vs ls /\ fine (concat ls) /\ after k (l ++ concat ls) sc' /\ ok_wait sc' w'.
  Proof using Hk Hrf.
    induction vs as [|v vs IH]; intros l sc w Hf Ha Hw Hv.
    { right. exists sc, w, []. simpl. rewrite app_nil_r. split_and!; try done. }
    simpl in Hv. apply andb_true_iff in Hv as [Hv Hvs]. destruct (thread_step_ok l v sc w Hf Ha Hw Hv) as [(items & e & t & -> & -> & He & E)|(sc1 & w1 & l1 & E & Hd & Hf1 & Ha1 & Hw1)].
    { left. exists [], items, vs, sc, e, t. split_and!; try done. cbn [thread_run]. by rewrite E. }
    destruct (IH (l ++ l1) sc1 w1) as [(vs1 & items & vs2 & sc2 & e & t & -> & E2 & He & E3)|(sc2 & w2 & ls & E2 & Hd2 & Hf2 & Ha2 & Hw2)]; [by apply fine_app|done|done|done|..].
    - left. exists (v :: vs1), items, vs2, sc2, e, t. split_and!; try done; cbn [thread_run]; rewrite E; done.
    - right. exists sc2, w2, (l1 :: ls). cbn [thread_run concat]. rewrite E. split_and!; [done|by constructor|by apply fine_app|by rewrite app_assoc|done].
  Qed.
  Lemma thread_safe vs : forallb fine_event vs = true ->
    (exists vs1 items vs2 s e t, vs = vs1 ++ TWake items :: vs2 /\ thread_run k vs1 st_init WIdle = Ok (s, WTimed e t) /\ m_els (me (s : cache)) !! e = None /\ thread_run (C := comp_ptr) k vs st_init WIdle = UB) \/
    exists (s : cache) w ls, thread_run k vs st_init WIdle = Ok (s, w) /\ Forall2 done_by vs ls /\ fine (concat ls) /\ after k (concat ls) s.
  Proof using Hk Hrf.
    intros Hv. destruct (thread_run_ok vs [] st_init WIdle) as [H|(s & w & ls & E & Hd & Hf & Ha & _)]; try done; [by left|right]. by exists s, w, ls.
  Qed.
  Lemma thread_prompt vs (s : cache) e t : forallb fine_event vs = true -> thread_run k vs st_init WIdle = Ok (s, WTimed e t) ->
    (forall x d, x ∈ refresh_queue s -> due_at s x = Some d -> (t <= d)%Z) /\ (t <= m_steady (me s) + delay)%Z.
  Proof using Hk Hrf.
    intros Hv E. destruct (thread_run_ok vs [] st_init WIdle) as [(? & ? & ? & ? & ? & ? & _ & _ & _ & E')|(s' & w & ls & E' & _ & _ & _ & Hw)]; try done; [congruence|].
    rewrite E in E'. injection E' as <- <-. destruct Hw as [_ [[H1 H2] _]]. split; [exact H2|exact H1].
  Qed.
  Lemma thread_alive vs (s : cache) w : forallb fine_event vs = true -> thread_run k vs st_init WIdle = Ok (s, w) -> w = WStopped <-> m_up (me s) = false.
  Proof using Hk Hrf.
    intros Hv E. destruct (thread_run_ok vs [] st_init WIdle) as [(? & ? & ? & ? & ? & ? & _ & _ & _ & E')|(s' & w' & ls & E' & _ & _ & _ & Hw)]; try done; [congruence|].
    rewrite E in E'. injection E' as <- <-. destruct w as [|e t|]; simpl in Hw; [rewrite Hw|destruct Hw as [-> _]|]; split; done.
  Qed.
  Lemma thread_time vs (s : cache) e t d : forallb fine_event vs = true -> thread_run k vs st_init WIdle = Ok (s, WTimed e t) -> due_at s e = Some d -> d = t.
  Proof using Hk Hrf.
    intros Hv E Hd. destruct (thread_run_ok vs [] st_init WIdle) as [(? & ? & ? & ? & ? & ? & _ & _ & _ & E')|(s' & w & ls & E' & _ & _ & _ & Hw)]; try done; [congruence|].
    rewrite E in E'. injection E' as <- <-. unfold due_at in Hd. apply fmap_Some in Hd as (el & Hel & ->). by apply (proj2 (proj2 (proj2 Hw)) el).
  Qed.
  (** when the time is over, a round takes place and the thread goes to sleep until the new first entry is due *)
  Lemma thread_serves vs (s : cache) e t items : forallb fine_event vs = true -> fine_op false (OTick items) = true -> (0 < delay)%Z -> thread_run k vs st_init WIdle = Ok (s, WTimed e t) ->
    overdue (m_steady (me s)) s <> [] -> length (overdue (m_steady (me s)) s) <= length items ->
    exists s' w, thread_run k (vs ++ [TTimeout items]) st_init WIdle = Ok (s', w) /\ overdue (m_steady (me s)) s' = [] /\
      match w with WIdle => refresh_queue s' = [] | WTimed e' t' => head (refresh_queue s') = Some e' /\ due_at s' e' = Some t' /\ (m_steady (me s) < t')%Z | WStopped => False end.
  Proof using Hk Hrf.
    intros Hv Hi Hd E Hov Hlen. destruct (thread_prompt vs s e t Hv E) as [Hp _].
    destruct (thread_run_ok vs [] st_init WIdle) as [(? & ? & ? & ? & ? & ? & _ & _ & _ & E')|(s' & w' & ls & E' & _ & Hf & Ha & Hw)]; try done; [congruence|].
    rewrite E in E'. injection E' as <- <-. destruct Hw as [Hup _]. simpl app in Ha.
    assert (t <= m_steady (me s))%Z as Ht.
    { destruct (overdue (m_steady (me s)) s) as [|x q] eqn:Eq; [done|]. assert (In x (overdue (m_steady (me s)) s)) as Hin by (rewrite Eq; by left).
      unfold overdue in Hin. apply filter_In in Hin as [H1 H2]. unfold due_by in H2. destruct (due_at s x) as [d|] eqn:Ed; [|done]. apply bool_decide_eq_true in H2.
      specialize (Hp x d ltac:(by apply elem_of_list_In) Ed). lia. }
    destruct (round_ok (concat ls) items s Hf Ha Hup Hi) as (s1 & w1 & E1 & A1 & _ & Hm). exists s1, w1.
    destruct (round_ends k Hk delay idle Hrf (concat ls) items s) as (s2 & A2 & _ & Ho & _); try done; [apply fine_app; by rewrite fine_one|].
    assert (s2 = s1) as -> by (unfold after in *; congruence). split_and!; [|done|].
    - clear -E E1 Ht. revert E. generalize WIdle (st_init : cache). induction vs as [|v vs IH]; intros w s0 E.
      + injection E as -> ->. cbn [app thread_run thread_step]. rewrite bool_decide_true by done. rewrite E1. done.
      + cbn [app thread_run] in *. destruct (thread_step k v s0 w) as [[s3 w3]| | |]; try done. by apply IH.
    - destruct w1 as [|e' t'|]; try done. destruct Hm as [H1 H2]. split_and!; try done. destruct (decide (t' <= m_steady (me s))%Z) as [Hle|]; [|lia]. exfalso.
      assert (In e' (overdue (m_steady (me s)) s1)) as Hin; [|by rewrite Ho in Hin]. unfold overdue. apply filter_In. split; [apply elem_of_list_In; by apply head_Some_elem_of|].
      unfold due_by. rewrite H2. by apply bool_decide_true.
  Qed.
  Lemma thread_run_app vs1 : forall vs2 (s : cache) w, thread_run k (vs1 ++ vs2) s w = ('(s, w) <- thread_run k vs1 s w;; thread_run k vs2 s w).
  Proof using.
    induction vs1 as [|v vs1 IH]; intros vs2 s w; [done|]. cbn [app thread_run]. destruct (thread_step k v s w) as [[s1 w1]| | |]; try done. simpl. apply IH.
  Qed.
  Lemma thread_run_snoc vs v (s : cache) w : thread_run k (vs ++ [v]) st_init WIdle = Ok (s, w) -> exists s0 w0, thread_run k vs st_init WIdle = Ok (s0, w0) /\ thread_step k v s0 w0 = Ok (s, w).
  Proof using.
    rewrite thread_run_app. destruct (thread_run k vs st_init WIdle) as [[s0 w0]| | |]; try done. cbn [rbind thread_run]. intros E. exists s0, w0. split; [done|].
    by destruct (thread_step k v s0 w0) as [[s1 w1]| | |].
  Qed.
  (** a thread that sleeps without limit over a queue that is not empty has been notified *)
  Lemma thread_notified vs : forall (s : cache), forallb fine_event vs = true -> thread_run k vs st_init WIdle = Ok (s, WIdle) -> refresh_queue s <> [] ->
    exists vs1 o vs2 (s1 s2 : cache), vs = vs1 ++ TOp o :: vs2 /\ thread_run k vs1 st_init WIdle = Ok (s1, WIdle) /\ refresh_queue s1 = [] /\
      thread_run k (vs1 ++ [TOp o]) st_init WIdle = Ok (s2, WIdle) /\ refresh_queue s2 <> [] /\ forall items, TWake items ∉ vs2.
  Proof using Hk Hrf.
    induction vs as [|v vs IH] using rev_ind; intros s Hv E Hq.
    { simpl in E. injection E as <-. done. }
    pose proof E as E1. apply thread_run_snoc in E as (s0 & w0 & E0 & Es). rewrite forallb_app in Hv. apply andb_true_iff in Hv as [Hv Hv1]. simpl in Hv1. rewrite andb_true_r in Hv1.
    destruct (thread_run_ok vs [] st_init WIdle) as [(? & ? & ? & ? & ? & ? & _ & _ & _ & E')|(s' & w' & ls & E' & _ & Hf & Ha & Hw)]; try done; [congruence|]. rewrite E0 in E'. injection E' as <- <-. simpl app in Ha.
    assert (forall items s, fine_op false (OTick items) = true -> m_up (me s0) = true -> round k s0 items = Ok (s, WIdle) -> refresh_queue s = []) as HR.
    { intros items s3 Hi Hup R. destruct (round_ok (concat ls) items s0 Hf Ha Hup Hi) as (sc' & w & R' & _ & _ & Hm). rewrite R in R'. by injection R' as <- <-. }
    assert (forall v, (forall items, v <> TWake items) -> w0 = WIdle -> refresh_queue s0 <> [] -> exists vs1 o vs2 (s1 s2 : cache), vs ++ [v] = vs1 ++ TOp o :: vs2 /\ thread_run k vs1 st_init WIdle = Ok (s1, WIdle) /\ refresh_queue s1 = [] /\
      thread_run k (vs1 ++ [TOp o]) st_init WIdle = Ok (s2, WIdle) /\ refresh_queue s2 <> [] /\ forall items, TWake items ∉ vs2) as HI.
    { intros v0 Hn -> Hq0. destruct (IH s0 Hv E0 Hq0) as (vs1 & o & vs2 & s1 & s2 & -> & R1 & Q1 & R2 & Q2 & N). exists vs1, o, (vs2 ++ [v0]), s1, s2. split_and!; try done; [by rewrite <-app_assoc|].
      intros items Hin. apply elem_of_app in Hin as [Hin|Hin]; [by apply (N items)|]. apply elem_of_list_singleton in Hin as <-. by apply (Hn items). }
    destruct v as [o|items|items].
    - assert (w0 = WIdle) as -> by (unfold thread_step in Es; destruct (step k false o s0) as [[s3 r3]| | |]; try done; simpl in Es; destruct (m_up (me s3)); [by injection Es|done]).
      destruct (refresh_queue s0) as [|x q] eqn:Eq; [|by apply HI; rewrite ?Eq]. exists vs, o, [], s0, s. split_and!; try done. intros items. apply not_elem_of_nil.
    - simpl in Hv1. exfalso. destruct w0 as [|e t|]; simpl in Hw; [|unfold thread_step in Es; destruct (s_el s0 e); done|done].
      unfold thread_step in Es. rewrite (front_ok (concat ls) s0 Hf Ha Hw) in Es. unfold rbind at 1 in Es. destruct (refresh_queue s0) as [|x q] eqn:Eq; simpl head in Es; [|by apply Hq, (HR items)].
      injection Es as <-. done.
    - simpl in Hv1. destruct w0 as [|e t|]; [|exfalso|done].
      + unfold thread_step in Es. injection Es as <-. by apply HI.
      + unfold thread_step in Es. destruct (bool_decide (t <= m_steady (me s0))%Z); [|done]. apply Hq, (HR items); [done|apply Hw|done].
  Qed.
  Lemma down_after l (sc : cache) : fine (l ++ [ODestroy]) -> after k (l ++ [ODestroy]) sc -> m_up (me sc) = false.
  Proof using Hk.
    intros Hf Ha. destruct (after_abs k Hk _ _ Hf Ha) as (sa & E & S & _). rewrite <-(srel_me _ _ S). apply fine_app in Hf as [Hf _].
    rewrite run_app in E. destruct (top_run k Hk l st_init (top_init _) Hf) as (sa0 & E0 & T0 & _). rewrite E0 in E. unfold rbind in E at 1. rewrite run_cons in E.
    destruct (step k false ODestroy sa0) as [[sa1 r]| | |] eqn:Ed; try done. simpl in E. injection E as <-.
    rewrite step_eq in Ed. unfold step_with in Ed. destruct (m_up (me sa0)) eqn:Hup; simpl negb in Ed; simpl andb in Ed; cbv iota in Ed.
    - destruct T0 as [Hi _ _]. destruct (destroy_ends k g0 sa0 Hi eq_refl) as (s2 & E2 & I2 & Hw & T2 & U2 & L2). rewrite E2 in Ed. simpl in Ed. by injection Ed as <- <-.
    - by injection Ed as <- <-.
  Qed.
  Lemma thread_destroyed vs (s0 : cache) w0 : forallb fine_event vs = true -> thread_run k vs st_init WIdle = Ok (s0, w0) ->
    exists s, thread_run k (vs ++ [TOp ODestroy]) st_init WIdle = Ok (s, WStopped) /\ (forall e, entry s e -> outstanding s e) /\ (m_cbs (me s) = ∅ -> m_els (me s) = ∅) /\ (forall v, waiting v s = 0) /\
    forall v, waiting v s0 + length (deliveries v s0) <= length (deliveries v s).
  Proof using Hk Hrf.
    intros Hv E0. destruct (thread_run_ok vs [] st_init WIdle) as [(? & ? & ? & ? & ? & ? & _ & _ & _ & E')|(s' & w' & ls & E' & _ & Hf & Ha & _)]; try done; [congruence|].
    rewrite E0 in E'. injection E' as <- <-. simpl app in Ha.
    assert (fine (concat ls ++ [ODestroy])) as Hf2 by (apply fine_app; split; [done|by apply fine_one]).
    destruct (fine_runs k Hk _ Hf2) as (_ & s2 & _ & Ha2 & _). pose proof (down_after _ _ Hf2 Ha2) as Hd. pose proof Ha2 as R. apply after_app in R as (s1 & Ha1 & R). assert (s1 = s0) as -> by (unfold after in *; congruence).
    rewrite (run_cons k _ []) in R. destruct (step k false ODestroy s0) as [[s3 r3]| | |] eqn:Es; try done.
    unfold rbind in R. cbn [run] in R. injection R as ->. exists s2. split; [rewrite thread_run_app, E0; cbn [rbind thread_run thread_step]; rewrite Es; cbn [rbind]; by rewrite Hd|].
    exact (destroyed k Hk (concat ls) [] s0 s2 Hf2 Ha Ha2).
  Qed.
End worker.

Lemma witness_ok {A B} (r : res A) (f : A -> res B) (P : B -> bool) : match (x <- r;; f x) with Ok b => P b | _ => false end = true -> exists a b, r = Ok a /\ f a = Ok b /\ P b = true.
Proof. destruct r as [a| | |]; try done. simpl. destruct (f a) as [b| | |] eqn:E; try done. intros H. by exists a, b. Qed.
Lemma witness_ub {A B} (r : res A) (f : A -> res B) : match r with Ok a => match f a with UB => true | _ => false end | _ => false end = true -> exists a, r = Ok a /\ f a = UB.
Proof. destruct r as [a| | |]; try done. intros H. exists a. split; [done|]. by destruct (f a). Qed.
