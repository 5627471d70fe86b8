(** Timers whose handlers run at once do what the refresh thread does (lemmas for PropertiesAsio.v). *)
From Verif Require Import Base Mapped Cache CachePtr CacheAbs CompSim CacheSim AbsInv AbsStep Histories Observe Transfer Lookups Effects WorkerProofs Asio.

Section asio.
  Context (k : cfg) (Hk : fine_cfg k).
  Notation srel := (srel comp_abs comp_ptr crel).
  Notation top := (top k).

  Lemma strong_in (m : mem) v : strong m v = true <-> exists e el, m_els m !! e = Some el /\ el_map el = MVal v.
  Proof using.
    unfold strong. rewrite existsb_exists. split.
    - intros ([e el] & Hi & Hm). apply elem_of_list_In, elem_of_map_to_list in Hi. simpl in Hm. exists e, el. split; [done|].
      destruct (el_map el); try done. by apply bool_decide_eq_true in Hm as ->.
    - intros (e & el & He & Hm). exists (e, el). split; [by apply elem_of_list_In, elem_of_map_to_list|]. simpl. rewrite Hm. by apply bool_decide_eq_true.
  Qed.
  Lemma alive_rc (m : mem) e el n v : m_els m !! e = Some el -> alive (wr_el m e (with_rc el n)) v = alive m v.
  Proof using.
    intros He. unfold alive. f_equal. apply eq_true_iff_eq. rewrite !strong_in. unfold wr_el, set_els. simpl m_els. split.
    - intros (x & ex & Hx & Hm). destruct (decide (x = e)) as [->|Hn]; [|rewrite lookup_insert_ne in Hx by done; eauto].
      rewrite lookup_insert in Hx. injection Hx as <-. exists e, el. done.
    - intros (x & ex & Hx & Hm). destruct (decide (x = e)) as [->|Hn]; [|exists x, ex; by rewrite lookup_insert_ne by done].
      exists e, (with_rc el n). rewrite lookup_insert. split; [done|]. rewrite He in Hx. by injection Hx as ->.
  Qed.
  Lemma m_expired_ext b f g (m : mapped) : (forall v, f v = g v) -> m_expired b f m = m_expired b g m.
  Proof using. intros H. destruct m; simpl; try done. case_match; by rewrite ?H. Qed.
  Lemma expired_rc (m : mem) e el n : m_els m !! e = Some el -> el_expired k (wr_el m e (with_rc el n)) (with_rc el n) = el_expired k m el.
  Proof using.
    intros He. unfold el_expired. rewrite (m_expired_ext _ _ (alive m)); [done|]. intros v. by apply alive_rc.
  Qed.

  (** the timer of the first value runs out and its handler is run *)
  Lemma fire_handle (sa : sta) (sc sc' : cache) item r : srel sa sc -> top sa -> fine_op false (OTick [item]) = true ->
    step k false (OTick [item]) sc = Ok (sc', r) -> arun k [AFire; AHandle 0 item] (ASt sc []) = Ok (ASt sc' []).
  Proof using.
    intros Sr T Hf E. destruct item as [[script out] [keep throw]]. simpl in Hf. rewrite andb_true_r in Hf. apply andb_true_iff in Hf as [Hf Ht]. destruct throw; [done|]. clear Hf Ht.
    pose proof (front_c sa sc Sr) as Hfr.
    assert (forall e el, m_els (me sc) !! e = Some el -> el_rc el <> 0) as Hrc.
    { rewrite <-(srel_me _ _ Sr). intros e el He. by destruct (i_rc _ _ _ (t_inv _ _ T) e el He). }
    rewrite step_eq in E. unfold step_with in E. cbn [arun astep]. unfold fire, run_out. cbn [a_cache a_queued].
    destruct (m_up (me sc)) eqn:Hup; cbn [negb andb] in E |- *; [|injection E as <- _; cbn [rbind a_queued lookup list_lookup]; done].
    destruct (k_refresh k) as [di|] eqn:Hrf.
    2: { injection E as <- _. rewrite Hfr. assert (a_dq (cs sa) = []) as ->; [|done].
         destruct (a_dq (cs sa)) as [|e q] eqn:Ed; [done|]. destruct (i_dq _ _ _ (t_inv _ _ T) e) as [_ H]; [rewrite Ed; by left|]. done. }
    cbn [map worker] in E. rewrite Hfr in E |- *. cbn [rbind] in E |- *. destruct (head (a_dq (cs sa))) as [e|]; [|injection E as <- _; done].
    destruct (s_el sc e) as [el| | |] eqn:Hel; try done. cbn [rbind] in E |- *. destruct (bool_decide (el_rf el <= m_steady (me sc))%Z); [|injection E as <- _; done].
    destruct (c_dunlink comp_ptr (cs sc) e) as [c| | |] eqn:Hc; try done. cbn [rbind fst snd] in E |- *.
    assert (m_els (me sc) !! e = Some el) as He. { unfold s_el, rd_el in Hel. destruct (m_els (me sc) !! e); [by injection Hel as ->|done]. }
    set (s1 := with_cs sc c) in *. assert (me s1 = me sc) as Hm1 by done.
    set (s2 := with_me s1 (wr_el (me sc) e (with_rc el (S (el_rc el))))).
    assert (inc_ref s1 e = Ok s2) as Hinc. { unfold inc_ref, s_upd, upd_el, rd_el. rewrite Hm1, He. done. }
    rewrite Hinc. cbn [rbind app a_queued a_cache lookup list_lookup take drop]. unfold handler.
    assert (m_up (me s2) = true) as -> by done. cbn [negb]. unfold refresh in E.
    assert (s_el s1 e = Ok el) as Hel1 by done. rewrite Hel1 in E. cbn [rbind] in E.
    assert (m_els (me s2) !! e = Some (with_rc el (S (el_rc el)))) as He2. { unfold s2, wr_el, set_els. simpl. by rewrite lookup_insert. }
    assert (s_el s2 e = Ok (with_rc el (S (el_rc el)))) as Hel2. { unfold s_el, rd_el. by rewrite He2. }
    rewrite Hel2. cbn [rbind]. rewrite (expired_rc (me sc) e el _ He : el_expired k (me s2) _ = _).
    assert (el_rs (with_rc el (S (el_rc el))) = el_rs el) as -> by done. rewrite Hm1 in E.
    destruct (el_rs el || el_expired k (me sc) el).
    - assert (drop_ref s2 e = Ok s1) as ->.
      { unfold drop_ref. rewrite Hel2. cbn [rbind]. simpl el_rc. destruct (el_rc el) as [|n] eqn:Hn; [by specialize (Hrc e el He)|].
        unfold s_upd, upd_el, rd_el. rewrite He2. cbn [rbind deref]. unfold with_me. f_equal. unfold s1, with_cs. f_equal. simpl.
        unfold wr_el, set_els, s2. simpl. rewrite insert_insert. rewrite insert_id; [by destruct (me sc)|]. rewrite He. f_equal. destruct el; simpl in *. by subst. }
      cbn [rbind] in E |- *. by injection E as <- _.
    - rewrite Hinc in E. cbn [rbind] in E. destruct (c_hashof comp_ptr (cs s2) e) as [h| | |]; try done. cbn [rbind] in E |- *.
      assert (el_key (with_rc el (S (el_rc el))) = el_key el) as -> by done.
      destruct (k_resolver k); try done.
      + destruct (resolve_sync _ _ _ _ _ _) as [[s3 x]| | |]; try done. cbn [rbind] in E |- *.
        destruct (s_upd s3 e _) as [s4| | |]; try done. cbn [rbind] in E |- *. destruct (s_el s4 x) as [ll| | |]; try done. cbn [rbind] in E |- *.
        destruct (match el_map ll with MPend p => _ | _ => _ end) as [s5| | |]; try done. cbn [rbind] in E |- *.
        destruct (drop_ref s5 x) as [s6| | |]; try done. cbn [rbind] in E |- *. destruct (drop_ref s6 e) as [s7| | |]; try done. cbn [rbind] in E |- *. by injection E as <- _.
      + destruct (resolve_async _ _ _ _ _ _ _) as [[s3 [x|]]| | |]; try done. cbn [rbind] in E |- *.
        destruct (s_upd s3 e _) as [s4| | |]; try done. cbn [rbind] in E |- *. destruct (s_el s4 x) as [ll| | |]; try done. cbn [rbind] in E |- *.
        destruct (match el_map ll with MPend p => _ | _ => _ end) as [s5| | |]; try done. cbn [rbind] in E |- *.
        destruct (drop_ref s5 x) as [s6| | |]; try done. cbn [rbind] in E |- *. destruct (drop_ref s6 e) as [s7| | |]; try done. cbn [rbind] in E |- *. by injection E as <- _.
  Qed.
  Lemma prompt_run n : forall l l' (sa : sta) (sc sc' : cache), length l <= n -> prompt l = Some l' -> srel sa sc -> top sa -> fine l' -> run k l' sc = Ok sc' ->
    arun k l (ASt sc []) = Ok (ASt sc' []).
  Proof using Hk.
    induction n as [|n IH]; intros l l' sa sc sc' Hn Hp Sr T Hf E.
    { destruct l; [|simpl in Hn; lia]. injection Hp as <-. by injection E as <-. }
    assert (forall o r', fine (o :: r') -> run k (o :: r') sc = Ok sc' -> exists sc1 sa1 x, step k false o sc = Ok (sc1, x) /\ srel sa1 sc1 /\ top sa1 /\ fine r' /\ run k r' sc1 = Ok sc') as Hstep.
    { intros o r' Hf' E'. unfold fine in Hf'. simpl in Hf'. apply andb_true_iff in Hf' as [Ho Hr']. destruct (fine_step k Hk o sa sc Ho Sr T) as (s1 & sc1 & x & _ & Ec & S1 & T1 & _).
      cbn [run] in E'. rewrite Ec in E'. cbn [rbind] in E'. by exists sc1, s1, x. }
    destruct l as [|[o| |du x|m item] l]; simpl in Hp.
    - injection Hp as <-. by injection E as <-.
    - assert ((exists items, o = OTick items) \/ ~ exists items, o = OTick items) as [[items ->]|Ho] by (destruct o; (by left; eauto) || (right; by intros [??])); [done|].
      assert (cons o <$> prompt l = Some l') as Hp' by (destruct o; [done..|by destruct Ho; eauto|done]). clear Hp.
      destruct (prompt l) as [r'|] eqn:Hr; [|done]. injection Hp' as <-. destruct (Hstep _ _ Hf E) as (sc1 & sa1 & x & Ec & S1 & T1 & Hf1 & E1).
      cbn [arun]. assert (astep k (ACall o) (ASt sc []) = Ok (ASt sc1 [], x)) as ->.
      { unfold astep. cbn [a_cache a_queued]. rewrite Ec. destruct o; done || by destruct Ho; eauto. }
      cbn [rbind]. simpl in Hn. eapply (IH l r'); [lia|done..].
    - destruct l as [|[|  | |[|m] item] l]; try done. destruct (prompt l) as [r'|] eqn:Hr; [|done]. injection Hp as <-.
      assert (fine_op false (OTick [item]) = true) as Ho. { unfold fine in Hf. cbn [forallb] in Hf. by apply andb_true_iff in Hf as [? _]. }
      destruct (Hstep _ _ Hf E) as (sc1 & sa1 & x & Ec & S1 & T1 & Hf1 & E1).
      pose proof (fire_handle sa sc sc1 item x Sr T Ho Ec) as Ea. change (AFire :: AHandle 0 item :: l) with ([AFire; AHandle 0 item] ++ l).
      assert (forall l1 l2 a, arun k (l1 ++ l2) a = (a <- arun k l1 a;; arun (C := comp_ptr) k l2 a)) as Happ.
      { clear. induction l1 as [|o l1 IH]; intros l2 a; [done|]. cbn [app arun]. destruct (astep k o a) as [[a1 y]| | |]; [|done..]. cbn [rbind]. apply IH. }
      rewrite Happ, Ea. cbn [rbind]. simpl in Hn. eapply (IH l r'); [lia|done..].
    - done.
    - done.
  Qed.
  Lemma prompt_after l l' s : prompt l = Some l' -> fine l' -> after k l' s -> arun k l a_init = Ok (ASt s []).
  Proof using Hk.
    intros Hp Hf Ha. eapply (prompt_run (length l)); [done|done| |apply (top_init k)|done|exact Ha]. exact (h_init _ _ _ comp_ptr_sim).
  Qed.
  Lemma prompt_split n l1 o l2 l' : length l1 <= n -> prompt (l1 ++ ACall o :: l2) = Some l' ->
    exists l1' l2', l' = l1' ++ o :: l2' /\ prompt l2 = Some l2'.
  Proof using.
    revert l1 l'. induction n as [|n IH]; intros l1 l' Hn Hp.
    all: assert (forall x r l', prompt (ACall x :: r) = Some l' -> exists r', prompt r = Some r' /\ l' = x :: r') as Hc by
      (clear; intros x r l'; simpl; destruct x; (done || (destruct (prompt r) as [r'|]; [intros [= <-]; eauto|done]))).
    { destruct l1; [|simpl in Hn; lia]. apply Hc in Hp as (r' & Hr & ->). by exists [], r'. }
    destruct l1 as [|[x| |du x|m it] l1].
    - apply Hc in Hp as (r' & Hr & ->). by exists [], r'.
    - simpl app in Hp. apply Hc in Hp as (r' & Hr & ->). simpl in Hn. destruct (IH l1 r') as (l1' & l2' & -> & H); [lia|done|]. by exists (x :: l1'), l2'.
    - destruct l1 as [|[x| | |[|m] it] l1]; try done. simpl in Hp. destruct (prompt (l1 ++ ACall o :: l2)) as [r'|] eqn:Hr; [|done]. injection Hp as <-.
      simpl in Hn. destruct (IH l1 r') as (l1' & l2' & -> & H); [lia|done|]. by exists (OTick [it] :: l1'), l2'.
    - done.
    - done.
  Qed.
  Lemma prompt_enters n P l l' : length l <= n -> prompt l = Some l' -> forallb (fun o => negb (aenters P o)) l = true -> forallb (fun o => negb (enters P o)) l' = true.
  Proof using.
    revert l l'. induction n as [|n IH]; intros l l' Hn Hp Hf. { destruct l; [|simpl in Hn; lia]. by injection Hp as <-. }
    destruct l as [|[o| |du x|m item] l].
    - by injection Hp as <-.
    - assert (exists r', prompt l = Some r' /\ l' = o :: r') as (r' & Hr & ->) by (clear -Hp; destruct o; simpl in Hp; (done || (destruct (prompt l) as [r'|]; [injection Hp as <-; eauto|done]))).
      simpl in Hf, Hn |- *. apply andb_true_iff in Hf as [-> Hf]. simpl. apply (IH l); [lia|done..].
    - destruct l as [|[x| | |[|m] it] l]; try done. simpl in Hp. destruct (prompt l) as [r'|] eqn:Hr; [|done]. injection Hp as <-.
      simpl in Hf, Hn |- *. apply andb_true_iff in Hf as [H1 Hf]. rewrite orb_false_r, H1. simpl. apply (IH l); [lia|done..].
    - done.
    - done.
  Qed.
  Lemma prompt_removed l1 o l2 l' key (a : ast comp_ptr) : eq_ok k -> prompt (l1 ++ ACall o :: l2) = Some l' -> fine l' -> removes k key o = true ->
    forallb (fun o => negb (aenters (fun key' => k_eq k key' key) o)) l2 = true -> arun k (l1 ++ ACall o :: l2) a_init = Ok a ->
    a_queued a = [] /\ after k l' (a_cache a) /\ peek k (a_cache a) key = None.
  Proof using Hk.
    intros Hq Hp Hf Hr He Ea. destruct (fine_runs k Hk l' Hf) as (sa & sc & _ & Ha & _). pose proof (prompt_after _ _ _ Hp Hf Ha) as E. rewrite Ea in E. injection E as ->.
    split; [done|]. split; [done|]. destruct (prompt_split (length l1) l1 o l2 l') as (l1' & l2' & -> & Hp2); [done|done|].
    apply (removed k Hk Hq key l1' o l2' sc); try done. by apply (prompt_enters (length l2) _ l2).
  Qed.
End asio.
