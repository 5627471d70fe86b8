(** What no operation does to an existing element: its hash field stays, and [refresh_started_] is never
    reset, a value that is gone does not come back, and the due time of an element that has its result
    stays (lemmas for the asio files and WorkerProofs.v). *)
From Verif Require Import Base AQueue ATable Mapped Cache CacheAbs CompSim CacheSim AbsInv Histories Trace Asio.

Section stable.
  Context (k : cfg) (n : N).
  Definition later (el el' : elem) : Prop :=
    (el_rs el' = false -> el_rs el = false) /\
    (el_pending el = false -> (el_pending el' = false /\ el_rf el' = el_rf el) /\ (hopeful (el_map el') = true -> hopeful (el_map el) = true)).
  Lemma later_refl el : later el el.
  Proof. by split. Qed.
  Lemma later_trans a b c : later a b -> later b c -> later a c.
  Proof. intros [A1 A2] [B1 B2]. split; [auto|]. intros Hp. destruct (A2 Hp) as [[Hp2 E2] H2]. destruct (B2 Hp2) as [[Hp3 E3] H3]. split; [split; [done|congruence]|auto]. Qed.
  (** seen from the later state, for the elements below [n] *)
  Definition hs (s s' : sta) : Prop := (n <= m_nxt (me s))%N -> (n <= m_nxt (me s'))%N /\
    forall e, (e < n)%N -> (forall h, a_hash (cs s') !! e = Some h -> a_hash (cs s) !! e = Some h) /\
      (forall el', m_els (me s') !! e = Some el' -> exists el, m_els (me s) !! e = Some el /\ later el el').
  Definition uhs (u : sta -> res sta) : Prop := forall s s', u s = Ok s' -> hs s s'.
  Lemma hs_refl s : hs s s.
  Proof. intros Hn. split; [done|]. intros e He. split; [done|]. intros el' H. exists el'. by split; [|apply later_refl]. Qed.
  Lemma hs_trans s1 s2 s3 : hs s1 s2 -> hs s2 s3 -> hs s1 s3.
  Proof.
    intros H1 H2 Hn. destruct (H1 Hn) as [Hn2 K1]. destruct (H2 Hn2) as [Hn3 K2]. split; [done|]. intros e He.
    destruct (K1 e He) as [A1 B1]. destruct (K2 e He) as [A2 B2]. split; [auto|]. intros el' H. destruct (B2 el' H) as (el2 & E2 & R2). destruct (B1 el2 E2) as (el & E & R). exists el. split; [done|]. by eapply later_trans.
  Qed.
  Lemma hs_w s s' : ((n <= m_nxt (me s))%N -> hs s s') -> hs s s'.
  Proof. unfold hs. naive_solver. Qed.
  Lemma hs_hash (s : sta) (c : acs) : (forall e h, (e < n)%N -> a_hash c !! e = Some h -> a_hash (cs s) !! e = Some h) -> hs s (with_cs s c).
  Proof. intros H Hn. split; [done|]. intros e He. split; [intros h; by apply H|]. intros el' H'. exists el'. by split; [|apply later_refl]. Qed.
  Lemma hs_same (s s' : sta) : cs s' = cs s -> m_els (me s') = m_els (me s) -> m_nxt (me s') = m_nxt (me s) -> hs s s'.
  Proof. intros E1 E2 E3 Hn. rewrite E1, E2, E3. by apply hs_refl. Qed.
  Lemma hs_log s v : hs s (s_log s v).
  Proof. by apply hs_same. Qed.
  Lemma hs_give s v : hs s (give k s v).
  Proof. unfold give. case_match; [by apply hs_same|apply hs_refl]. Qed.
  Lemma hs_cbs (s : sta) c : hs s (with_me s (set_cbs (me s) c)).
  Proof. by apply hs_same. Qed.
  Lemma hs_ncb (s : sta) c m : hs s (with_me s (set_ncb (set_cbs (me s) c) m)).
  Proof. by apply hs_same. Qed.

  Lemma need_ok {A} P `{Decision P} (m : res A) x : need P m = Ok x -> P /\ m = Ok x.
  Proof. unfold need. by destruct (decide P). Qed.
  Local Ltac un H := repeat first [apply need_ok in H as [_ H]|match type of H with (match ?y with _ => _ end) = _ => destruct y; try discriminate H end].
  Local Ltac hc := intros H; simpl in H; un H; injection H; clear H; intros; subst; apply hs_hash; simpl; try done.
  Lemma free_h s e c : c_free comp_abs (cs s) e = Ok c -> hs s (with_cs s c).
  Proof. hc. intros x h _. rewrite lookup_delete_Some. naive_solver. Qed.
  Lemma unlink_h s b c e : c_unlink comp_abs (cs s) b = Ok (c, e) -> hs s (with_cs s c).
  Proof. hc. Qed.
  Lemma rehash_h s m c : c_rehash comp_abs (cs s) m = Ok c -> hs s (with_cs s c).
  Proof. hc. Qed.
  Lemma pop_h s c e : c_pop comp_abs (cs s) = Ok (Some (c, e)) -> hs s (with_cs s c).
  Proof. simpl. intros [= H]. destruct (a_tab (cs s)); [done|]. injection H as <- <-. by apply hs_hash. Qed.
  Lemma qcreate_h s e c o : c_qcreate comp_abs (cs s) e = Ok (c, o) -> hs s (with_cs s c).
  Proof. hc. Qed.
  Lemma qhit_h s e c : c_qhit comp_abs (cs s) e = Ok c -> hs s (with_cs s c).
  Proof. hc. Qed.
  Lemma qunlink_h s e c : c_qunlink comp_abs (cs s) e = Ok c -> hs s (with_cs s c).
  Proof. hc. Qed.
  Lemma dlink_h s e c : c_dlink comp_abs (cs s) e = Ok c -> hs s (with_cs s c).
  Proof. hc. Qed.
  Lemma dunlink_h s e c : c_dunlink comp_abs (cs s) e = Ok c -> hs s (with_cs s c).
  Proof. hc. Qed.
  Lemma link_h s x e c : (n <= e)%N -> c_link comp_abs (cs s) x e = Ok c -> hs s (with_cs s c).
  Proof. intros Hn. hc. intros y h Hy. rewrite lookup_insert_ne by lia. done. Qed.
  Hint Resolve unlink_h rehash_h pop_h qcreate_h qhit_h qunlink_h dlink_h dunlink_h : hsc.

  Local Ltac ok1 := match goal with
    | H : Ok _ = Ok _ |- _ => injection H; clear H; intros; subst
    | H : ?x = Ok _ |- _ =>
      match x with
      | rbind ?m ?f => let E := fresh "E" in let r := fresh "r" in destruct m as [r| | |] eqn:E;
          [change (f r = _) in H || change (rbind (Ok r) f) with (f r) in H; cbv beta in H|discriminate H..]
      | (match ?y with _ => _ end) => let E := fresh "E" in destruct y eqn:E; try discriminate H
      | (let '(_, _) := ?y in _) => let E := fresh "E" in destruct y eqn:E
      | UB => discriminate H | Term => discriminate H | Fuel => discriminate H
      end
    | H : Some _ = Some _ |- _ => injection H; clear H; intros; subst
    | H : (_, _) = (_, _) |- _ => injection H; clear H; intros; subst
    end.
  Local Ltac oks := repeat ok1.
  Local Ltac kp := repeat match goal with
    | H : ?m = Ok ?r |- _ =>
      let s' := match type of r with
                | st => r
                | (st * _)%type => match r with (?s, _) => s end
                | option st => match r with Some ?s => s end
                end in
      lazymatch goal with H' : hs _ s' |- _ => fail | _ => idtac end;
      let K := fresh "K" in eassert (hs _ s') as K by eauto 4 with hs
    end.
  (** goal [hs s s']: walk back from [s'] *)
  Local Ltac walk := repeat match goal with
    | |- hs ?s ?s => apply hs_refl
    | H : hs ?b ?s' |- hs _ ?s' => refine (hs_trans _ b _ _ H); clear H
    | |- hs _ (s_log ?b ?v) => refine (hs_trans _ b _ _ (hs_log b v))
    | |- hs _ (give k ?b ?v) => refine (hs_trans _ b _ _ (hs_give b v))
    | |- hs _ (with_me ?b (set_cbs (me ?b) ?c)) => refine (hs_trans _ b _ _ (hs_cbs b c))
    | |- hs _ (with_cs ?b ?c) => refine (hs_trans _ b _ _ _); [|by eauto 3 with hsc]
    end.
  Local Ltac ht f := intros; unfold f in *; oks; kp; walk.

  Lemma s_upd_h s e f s' : (forall el, m_els (me s) !! e = Some el -> later el (f el)) -> s_upd s e f = Ok s' -> hs s s'.
  Proof.
    intros Hf H. unfold s_upd, upd_el, rd_el in H. destruct (m_els (me s) !! e) as [el|] eqn:He; [|done]. simpl in H. injection H as <-.
    intros Hn. split; [done|]. intros x Hx. split; [done|]. simpl. intros el'. destruct (decide (x = e)) as [->|Hne].
    - rewrite lookup_insert. intros [= <-]. exists el. auto.
    - rewrite lookup_insert_ne by done. intros H. exists el'. split; [done|apply later_refl].
  Qed.
  Lemma later_map el m : (el_pending el = false -> m_pending m = false /\ (hopeful m = true -> hopeful (el_map el) = true)) -> later el (with_map el m).
  Proof. intros H. split; [done|]. intros Hp. destruct (H Hp). done. Qed.
  Hint Extern 1 (hs _ _) => (eapply s_upd_h; [|eassumption]; intros ? _; split; [done|by split]) : hs.
  Lemma s_upd_pend_h s e r p m s' : s_el s e = Ok r -> el_map r = MPend p -> s_upd s e (fun el => with_map el m) = Ok s' -> hs s s'.
  Proof.
    intros E Ep. apply s_upd_h. intros el He. unfold s_el, rd_el in E. rewrite He in E. injection E as <-.
    apply later_map. unfold el_pending. by rewrite Ep.
  Qed.
  Hint Resolve s_upd_pend_h : hs.
  Lemma settle_h s e r p m s' : s_el s e = Ok r -> m_settle (k_pointer k) p (el_map r) = Ok m -> s_upd s e (fun el => with_map el m) = Ok s' -> hs s s'.
  Proof.
    intros E Em. apply s_upd_h. intros el He. unfold s_el, rd_el in E. rewrite He in E. injection E as <-.
    apply later_map. unfold el_pending, m_settle in *. intros Hp. destruct (el_map el); destruct (k_pointer k), (p_exp p), (p_weak p); simpl in *; try done; injection Em as <-; done.
  Qed.
  Lemma settle_error_h s e x p s' : s_upd s e (fun el => with_map el (m_settle_error (k_pointer k) x p)) = Ok s' -> hs s s'.
  Proof. apply s_upd_h. intros el _. apply later_map. unfold m_settle_error, m_dead. by destruct (p_exp p), (p_weak p), (k_pointer k). Qed.
  Lemma add_h s e x s' :
    s_upd s e (fun el => with_map el match el_map el with MPend p => MPend (p_add p x) | m => m end) = Ok s' -> hs s s'.
  Proof. apply s_upd_h. intros el _. apply later_map. unfold el_pending. by destruct (el_map el). Qed.
  Hint Resolve settle_h settle_error_h add_h : hs.
  Lemma mark_expired_h s e s' : mark_expired k s e = Ok s' -> hs s s'.
  Proof. apply s_upd_h. intros el _. apply later_map. unfold el_pending. destruct (el_map el); by unfold m_mark_expired, m_dead; destruct (k_pointer k). Qed.
  Lemma weaken_h s e s' : weaken k s e = Ok s' -> hs s s'.
  Proof. apply s_upd_h. intros el _. apply later_map. unfold el_pending. destruct (el_map el); by unfold m_weaken, m_dead; destruct (k_pointer k). Qed.
  Lemma strengthen_h s e s' : strengthen k s e = Ok s' -> hs s s'.
  Proof. apply s_upd_h. intros el _. apply later_map. unfold el_pending. destruct (el_map el) as [| |[]| | |]; try done; simpl; by case_match. Qed.
  Lemma inc_ref_h (s : sta) e s' : inc_ref s e = Ok s' -> hs s s'.
  Proof. apply s_upd_h. intros ? _. split; [done|by split]. Qed.
  Hint Resolve mark_expired_h weaken_h strengthen_h inc_ref_h : hs.
  Lemma destroy_h (s : sta) e el s' : destroy s e el = Ok s' -> hs s s'.
  Proof.
    intros H. unfold destroy in H. assert (exists c, c_free comp_abs (cs s) e = Ok c /\ s' = St c (set_els (me s) (delete e (m_els (me s))))) as (c & Hc & ->).
    { destruct (el_map el) as [[[|]]| | | | |]; try done; (destruct (c_free comp_abs (cs s) e) as [c| | |]; [|done..]); injection H as <-; by exists c. }
    apply free_h in Hc. intros Hn. destruct (Hc Hn) as [_ K]. split; [done|]. intros x Hx. destruct (K x Hx) as [K1 _]. split; [done|]. simpl. intros el'. rewrite lookup_delete_Some. intros [_ H']. exists el'. split; [done|apply later_refl].
  Qed.
  Hint Resolve destroy_h : hs.
  Lemma drop_ref_h (s : sta) e s' : drop_ref s e = Ok s' -> hs s s'.
  Proof. ht @drop_ref. Qed.
  Hint Resolve drop_ref_h : hs.
  Lemma drop_pcb_h (s : sta) p s' : drop_pcb s p = Ok s' -> hs s s'.
  Proof. ht @drop_pcb. Qed.
  Hint Resolve drop_pcb_h : hs.
  Lemma drop_pcbs_h ps : forall (s s' : sta), drop_pcbs s ps = Ok s' -> hs s s'.
  Proof. induction ps as [|p ps IH]; simpl; intros; oks; kp; walk. Qed.
  Lemma free_pcbs_h ps : forall (s s' : sta), free_pcbs s ps = Ok s' -> hs s s'.
  Proof. induction ps as [|p ps IH]; simpl; intros; oks; kp; walk. Qed.
  Hint Resolve drop_pcbs_h free_pcbs_h : hs.
  Lemma el_cancel_h (s : sta) e s' : el_cancel s e = Ok s' -> hs s s'.
  Proof. ht @el_cancel. Qed.
  Hint Resolve el_cancel_h : hs.
  Lemma on_create_h s e s' : on_create_ k s e = Ok s' -> hs s s'.
  Proof. ht @on_create_. Qed.
  Lemma on_hit_h s e s' : on_hit_ k s e = Ok s' -> hs s s'.
  Proof. ht @on_hit_. Qed.
  Lemma on_unlink_h s e s' : on_unlink_ k s e = Ok s' -> hs s s'.
  Proof. ht @on_unlink_. Qed.
  Lemma on_assign_age_h (s : sta) e d s' : on_assign_age k s e d = Ok s' -> hs s s'.
  Proof. apply s_upd_h. intros ? _. split; [done|by split]. Qed.
  Hint Resolve on_create_h on_hit_h on_unlink_h on_assign_age_h : hs.
  Lemma on_assign_error_h s e s' : on_assign_ k s e false = Ok s' -> hs s s'.
  Proof. ht @on_assign_. Qed.
  Hint Resolve on_assign_error_h : hs.
  (** an assignment of a value writes the due time of its element only *)
  Definition fr (e : N) (s s' : sta) : Prop := m_nxt (me s') = m_nxt (me s) /\ a_hash (cs s') = a_hash (cs s) /\
    forall x el', m_els (me s') !! x = Some el' -> exists el, m_els (me s) !! x = Some el /\ el_rs el' = el_rs el /\ el_map el' = el_map el /\ (x <> e -> el_rf el' = el_rf el).
  Lemma fr_refl e s : fr e s s.
  Proof. split_and!; try done. intros x el' H. by exists el'. Qed.
  Lemma fr_trans e a b c : fr e a b -> fr e b c -> fr e a c.
  Proof.
    intros (A1 & A2 & A3) (B1 & B2 & B3). split_and!; [congruence|congruence|]. intros x el' H. destruct (B3 x el' H) as (e1 & H1 & R1 & M1 & F1). destruct (A3 x e1 H1) as (e2 & H2 & R2 & M2 & F2).
    exists e2. split_and!; [done|congruence|congruence|]. intros Hx. rewrite F1, F2; done.
  Qed.
  Lemma fr_upd (s : sta) e f s' : (forall el, el_rs (f el) = el_rs el /\ el_map (f el) = el_map el) -> s_upd s e f = Ok s' -> fr e s s'.
  Proof.
    intros Hf H. unfold s_upd, upd_el, rd_el in H. destruct (m_els (me s) !! e) as [el|] eqn:He; [|done]. simpl in H. injection H as <-.
    split_and!; [done|done|]. simpl. intros x el'. destruct (decide (x = e)) as [->|Hne].
    - rewrite lookup_insert. intros [= <-]. exists el. split_and!; try done; apply Hf.
    - rewrite lookup_insert_ne by done. intros H. by exists el'.
  Qed.
  Lemma on_assign_fr s e b s' : on_assign_ k s e b = Ok s' -> fr e s s'.
  Proof.
    intros H. unfold on_assign_, on_assign_refresh, on_assign_age in H. simpl c_dlink in H. oks.
    all: repeat match goal with
    | H : need _ _ = Ok _ |- _ => apply need_ok in H as [_ H]
    | H : Ok _ = Ok _ |- _ => injection H; clear H; intros; subst
    | H : s_upd ?b _ _ = Ok ?s' |- fr _ _ ?s' => refine (fr_trans _ _ b _ _ _); [|by eapply fr_upd; [|exact H]]; clear H
    | |- fr _ _ (with_cs ?b _) => refine (fr_trans _ _ b _ _ _); [|split_and!; [done|done|intros ? ? ?; eexists; by split_and!]]
    | |- fr _ ?s ?s => apply fr_refl
    end.
  Qed.
  Lemma assigned_h s s1 s2 e b : hs s s1 -> ((e < n)%N -> forall el, m_els (me s) !! e = Some el -> el_pending el = true) -> on_assign_ k s1 e b = Ok s2 -> hs s s2.
  Proof.
    intros H He Ha Hn. apply on_assign_fr in Ha as (F1 & F2 & F3). destruct (H Hn) as [Hn1 K]. split; [by rewrite F1|]. intros x Hx. destruct (K x Hx) as [K1 K2]. split; [by rewrite F2|].
    intros el' Hel'. destruct (F3 x el' Hel') as (el1 & Hel1 & R & M & F). destruct (K2 el1 Hel1) as (el & Hel & L1 & L2). exists el. split; [done|]. split; [by rewrite R|].
    intros Hp. destruct (L2 Hp) as [[P1 P2] P3]. unfold el_pending in *. rewrite M. split; [split; [done|]|done]. rewrite F; [done|].
    intros ->. unfold el_pending in He. specialize (He Hx el Hel). congruence.
  Qed.
  Lemma dispose_h s e s' : dispose k s e = Ok s' -> hs s s'.
  Proof. ht @dispose. Qed.
  Hint Resolve dispose_h : hs.
  Lemma sweep_h fuel visit : (forall s e s' a, visit s e = Ok (s', a) -> hs s s') ->
    forall s bi be s' r, sweep k fuel visit s bi be = Ok (s', r) -> hs s s'.
  Proof. intros Hv. induction fuel as [|f IH]; cbn [sweep]; intros; oks; kp; walk. Qed.
  Lemma sweep_bucket_h visit : (forall s e s' a, visit s e = Ok (s', a) -> hs s s') ->
    forall s h s' r, sweep_bucket k visit s h = Ok (s', r) -> hs s s'.
  Proof. intros Hv s h s' r H. unfold sweep_bucket in H. oks. by apply sweep_h in H. Qed.
  Lemma sweep_all_h visit : (forall s e s' a, visit s e = Ok (s', a) -> hs s s') ->
    forall s s', sweep_all k visit s = Ok s' -> hs s s'.
  Proof. intros Hv s s' H. unfold sweep_all in H. oks. by eapply sweep_h. Qed.
  Lemma unlink_expired_h s s' : unlink_expired k s = Ok s' -> hs s s'.
  Proof. apply sweep_all_h. ht @unlink_expired_visit. Qed.
  Lemma get__h s key b s' r : get_ k s key b = Ok (s', r) -> hs s s'.
  Proof.
    intros H. unfold get_ in H. oks.
    all: match goal with E : sweep_bucket _ _ _ _ = _ |- _ => apply sweep_bucket_h in E; [|ht @get_visit] end; kp; walk.
  Qed.
  Lemma expire_h s key s' : expire k s key = Ok s' -> hs s s'.
  Proof.
    intros H. unfold expire in H. oks.
    match goal with E : sweep_bucket _ _ _ _ = _ |- _ => apply sweep_bucket_h in E; [done|ht @expire_visit] end.
  Qed.
  Lemma expire_all_h s s' : expire_all k s = Ok s' -> hs s s'.
  Proof. apply sweep_all_h. ht @expire_all_visit. Qed.
  Hint Resolve unlink_expired_h get__h expire_h expire_all_h : hs.
  Lemma maybe_rehash_h s s' : maybe_rehash k s = Ok s' -> hs s s'.
  Proof. ht @maybe_rehash. Qed.
  Hint Resolve maybe_rehash_h : hs.
  Lemma link_h' s h e s' : (n <= e)%N -> link k s h e = Ok s' -> hs s s'.
  Proof.
    intros He H. unfold link in H. oks; kp; try match goal with H : on_assign_ _ ?s1 _ _ = Ok _ |- hs ?s _ => refine (assigned_h s s1 _ _ _ _ _ H); [|lia] end; walk.
    all: match goal with |- hs _ (with_cs ?b ?c) => refine (hs_trans _ b _ _ _); [|by eapply link_h] end; walk.
  Qed.
  Lemma reserve_h s m s' : reserve k s m = Ok s' -> hs s s'.
  Proof. ht @reserve. Qed.
  Lemma allocate_h (s : sta) key m s' e : allocate s key m = Ok (s', e) -> hs s s' /\ e = m_nxt (me s).
  Proof.
    intros H. unfold allocate in H. destruct (c_alloc comp_abs (cs s) (m_nxt (me s))) as [c| | |] eqn:Ec; [|done..]. simpl in H. injection H as <- <-. split; [|done].
    simpl in Ec. apply need_ok in Ec as [_ Ec]. injection Ec as <-. intros Hn. simpl. split; [lia|]. intros x Hx. split; [intros h; by rewrite lookup_insert_ne by lia|].
    intros el'. rewrite lookup_insert_ne by lia. intros H. exists el'. split; [done|apply later_refl].
  Qed.
  Lemma expire_victims_h l : forall s s', expire_victims k s l = Ok s' -> hs s s'.
  Proof. induction l as [|p ps IH]; simpl; intros; oks; kp; walk; destruct (m_live _); walk. Qed.
  Hint Resolve reserve_h expire_victims_h : hs.
  Lemma maintenance_h s s' : maintenance_ k s = Ok s' -> hs s s'.
  Proof. ht @maintenance_. Qed.
  Hint Resolve maintenance_h : hs.
  Local Ltac al Hn := match goal with E : allocate ?s _ _ = Ok (?s', ?e) |- _ =>
    let K := fresh "K" in let Ee := fresh "Ee" in destruct (allocate_h _ _ _ _ _ E) as [K Ee]; clear E end.
  Lemma emplace_h s key v s' : emplace k s key v = Ok s' -> hs s s'.
  Proof.
    intros H. apply hs_w. intros Hn. unfold emplace in H. oks. kp. al Hn.
    match goal with K : hs s ?r, Ee : _ = m_nxt (me ?r) |- _ => destruct (K Hn) as [Hn' _] end.
    match goal with E : link _ _ _ _ = _ |- _ => apply link_h' in E; [|lia] end. walk.
  Qed.
  Lemma get_or_emplace_h s key v s' r : get_or_emplace k s key v = Ok (s', r) -> hs s s'.
  Proof.
    intros H. apply hs_w. intros Hn. unfold get_or_emplace in H. oks; kp; try al Hn; walk.
    match goal with K : hs s ?r, Ee : _ = m_nxt (me ?r) |- _ => destruct (K Hn) as [Hn' _] end.
    match goal with E : link _ _ _ _ = _ |- _ => apply link_h' in E; [|lia] end. walk.
  Qed.
  Lemma refresh_event_h s a b s' : refresh_event k s a b = Ok s' -> hs s s'.
  Proof. ht @refresh_event. Qed.
  Hint Resolve emplace_h get_or_emplace_h refresh_event_h : hs.

  (** ** Programs of the user *)
  Lemma deliver_h cbq : forall s e v us s', Forall uhs us -> deliver k s e v cbq us = Ok s' -> hs s s'.
  Proof.
    induction cbq as [|[w|a b] cbq IH]; simpl; intros s e v us s' Hu H; [by oks; walk|oks..].
    - apply IH in H; [|done]. walk.
    - inversion_clear Hu as [|? ? Hu1 Hu2]. apply IH in H; [|done]. match goal with E : _ = Ok ?r |- hs _ _ => apply Hu1 in E end. walk.
    - apply IH in H; [|done]. kp. walk.
  Qed.
  Lemma deliver_error_h cbq : forall s e x all us s', Forall uhs us -> deliver_error k s e x all cbq us = Ok s' -> hs s s'.
  Proof.
    induction cbq as [|[w|a b] cbq IH]; simpl; intros s e x all us s' Hu H; [by oks; walk|oks..].
    - apply IH in H; [|done]. walk.
    - inversion_clear Hu as [|? ? Hu1 Hu2]. apply IH in H; [|done]. match goal with E : _ = Ok ?r |- hs _ _ => apply Hu1 in E end. walk.
    - apply IH in H; [|done]. kp. walk.
  Qed.
  Lemma el_assign_h s e v us s' : Forall uhs us -> el_assign k s e v us = Ok (Some s') -> hs s s'.
  Proof.
    intros Hu H. unfold el_assign in H. oks. match goal with E : deliver _ _ _ _ _ _ = _ |- _ => apply deliver_h in E; [|done] end.
    kp. walk.
  Qed.
  Lemma el_fail_h s e x us s' : Forall uhs us -> el_fail k s e x us = Ok s' -> hs s s'.
  Proof.
    intros Hu H. unfold el_fail in H. oks. match goal with E : deliver_error _ _ _ _ _ _ _ = _ |- _ => apply deliver_error_h in E; [|done] end.
    kp. walk.
  Qed.
  Hint Resolve el_assign_h el_fail_h Forall_nil_2 : hs.
  Lemma resolve_sync_h s h key u out s' e : uhs u -> resolve_sync k s h key u out = Ok (s', e) -> hs s s' /\ ((n <= m_nxt (me s))%N -> (n <= e)%N).
  Proof.
    intros Hu H. assert ((n <= m_nxt (me s))%N -> hs s s' /\ (n <= e)%N) as K; [|split; [apply hs_w; intros Hn; apply K, Hn|intros Hn; apply K, Hn]]. intros Hn.
    unfold resolve_sync in H. oks; match goal with E : u _ = _ |- _ => apply Hu in E end; al Hn.
    all: match goal with E : link _ _ _ _ = _ |- _ => apply link_h' in E; [|lia] end; kp; split; [walk|lia].
  Qed.

  (** ** Callbacks *)
  Lemma cb_cancel_h (s : sta) j c s' b : cb_cancel s j c = Ok (s', b) -> hs s s'.
  Proof. ht @cb_cancel. Qed.
  Hint Resolve cb_cancel_h : hs.
  Lemma cb_holders_h (s : sta) j o p s' : cb_holders s j o p = Ok s' -> hs s s'.
  Proof. ht @cb_holders. Qed.
  Hint Resolve cb_holders_h : hs.
  Lemma resolve_async_h s h key u kp th s' o : uhs u -> resolve_async k s h key u kp th = Ok (s', o) -> hs s s'.
  Proof.
    intros Hu H. apply hs_w. intros Hn. unfold resolve_async in H. oks; match goal with E : u _ = _ |- _ => apply Hu in E end; al Hn.
    all: match goal with E : link _ _ _ _ = _ |- _ => apply link_h' in E; [|lia] end; kp; walk.
    all: match goal with |- hs _ (with_me ?b _) => refine (hs_trans _ b _ _ (hs_ncb b _ _)) end; walk.
  Qed.
  Hint Resolve resolve_async_h : hs.
  Lemma get_h s key u out s' r : uhs u -> get k s key u out = Ok (s', r) -> hs s s'.
  Proof. intros Hu H. unfold get, ret_value in H. oks; try match goal with E : resolve_sync _ _ _ _ _ _ = _ |- _ => apply resolve_sync_h in E as [E _]; [|done] end; kp; walk. Qed.
  Lemma async_finish_h s w e r u s' : uhs u -> async_finish k s w e r u = Ok s' -> hs s s'.
  Proof. intros Hu H. unfold async_finish in H. oks; try (apply Hu in H); kp; walk. Qed.
  Hint Resolve async_finish_h : hs.
  Lemma async_get_h s w key u kp th uc s' r : uhs u -> uhs uc -> async_get k s w key u kp th uc = Ok (s', r) -> hs s s'.
  Proof. intros Hu Huc H. unfold async_get in H. oks; kp; walk. Qed.
  Lemma cb_assign_h s j v us s' r : Forall uhs us -> cb_assign k s j v us = Ok (s', r) -> hs s s'.
  Proof.
    intros Hu H. unfold cb_assign in H. oks; try match goal with E : el_assign _ ?s0 ?e _ _ = _ |- _ =>
      assert (forall el, m_els (me s0) !! e = Some el -> el_pending el = true) as Hp;
      [clear -E; unfold el_assign, s_el, rd_el in E; intros el He; rewrite He in E; simpl in E; unfold el_pending; by destruct (el_map el)|]; apply el_assign_h in E; [|done] end;
    kp; walk.
    all: match goal with H : on_assign_ _ ?s1 _ _ = Ok _ |- hs ?s _ => refine (assigned_h s s1 _ _ _ _ _ H); [|by intros _] end; walk.
  Qed.
  Lemma cb_fail_h s j x us s' r : Forall uhs us -> cb_fail k s j x us = Ok (s', r) -> hs s s'.
  Proof.
    intros Hu H. unfold cb_fail in H. oks; try match goal with E : el_fail _ _ _ _ _ = _ |- _ => apply el_fail_h in E; [|done] end; kp; walk.
  Qed.
  Lemma refresh_h s e u out kp th s' : uhs u -> refresh k s e u out kp th = Ok s' -> hs s s'.
  Proof. intros Hu H. unfold refresh in H. oks; try match goal with E : resolve_sync _ _ _ _ _ _ = _ |- _ => apply resolve_sync_h in E as [E _]; [|done] end; kp; walk. Qed.
  Hint Resolve refresh_h : hs.
  Lemma handler_h s e u out kp th s' : uhs u -> handler k s e u out kp th = Ok s' -> hs s s'.
  Proof. intros Hu H. unfold handler in H. oks; try match goal with E : resolve_sync _ _ _ _ _ _ = _ |- _ => apply resolve_sync_h in E as [E _]; [|done] end; kp; walk. Qed.
  Lemma fire_h a a' : fire a = Ok a' -> hs (a_cache a) (a_cache a').
  Proof. intros H. unfold fire, run_out in H. oks; try apply hs_refl. kp. walk. Qed.
  Lemma worker_h items : forall s now s', Forall (fun x => uhs x.1.1) items -> worker k s now items = Ok s' -> hs s s'.
  Proof.
    induction items as [|[[u out] [kp th]] items IH]; cbn [worker]; intros s now s' Hu H; [oks; apply hs_refl|].
    inversion_clear Hu as [|? ? Hu1 Hu2]. simpl in Hu1. oks; try apply hs_refl. apply IH in H; [|done]. kp. walk.
  Qed.
  Lemma destroy_loop_h fuel : forall s s', destroy_loop k fuel s = Ok s' -> hs s s'.
  Proof.
    induction fuel as [|f IH]; cbn [destroy_loop]; intros s s' H; oks; kp; walk.
  Qed.
  Lemma nested_h l : Forall (fun o => forall nested s s' r, step k nested o s = Ok (s', r) -> hs s s') l -> uhs (run_nested k l).
  Proof.
    induction 1 as [|o l Ho _ IH]; simpl; intros s s' H; [injection H as ->; apply hs_refl|].
    destruct (step k true o s) as [[s1 r]| | |] eqn:E; try done. simpl in H. eapply hs_trans; [by eapply Ho|by apply IH].
  Qed.
  Lemma step_h o : forall nested s s' r, step k nested o s = Ok (s', r) -> hs s s'.
  Proof.
    induction o as [o IH] using op_ind'. intros nested s s' r H. rewrite step_eq in H. unfold step_with in H.
    match type of H with (if ?b then _ else _) = _ => destruct b end; [injection H as <- <-; apply hs_refl|].
    destruct o.
    - unfold ret_value in H. oks; repeat (case_match; simplify_eq); walk.
    - oks. apply hs_refl.
    - case_match; [by eapply get_h; [|exact H]; apply nested_h..|oks; apply hs_refl].
    - destruct IH as [IH1 IH2]. case_match; [oks; apply hs_refl..|]. eapply async_get_h; [| |exact H]; by apply nested_h.
    - oks; kp; walk.
    - unfold emplace_throw in H. oks; kp; walk.
    - unfold ret_value in H. oks; kp; repeat (case_match; simplify_eq); walk.
    - oks; kp; walk.
    - oks; kp; walk.
    - oks; kp; walk.
    - eapply cb_assign_h; [|exact H]. apply Forall_forall. intros u Hu. apply elem_of_list_In, in_map_iff in Hu as (y & <- & Hx). apply nested_h. eapply Forall_forall in IH; [exact IH|]. by apply elem_of_list_In.
    - unfold cb_assign_throw in H. oks; kp; walk.
    - eapply cb_fail_h; [|exact H]. apply Forall_forall. intros u Hu. apply elem_of_list_In, in_map_iff in Hu as (y & <- & Hx). apply nested_h. eapply Forall_forall in IH; [exact IH|]. by apply elem_of_list_In.
    - oks; kp; walk.
    - oks; kp; walk.
    - oks. by apply hs_same.
    - oks. by apply hs_same.
    - destruct nested; [done|]. destruct (k_refresh k); [|oks; apply hs_refl]. oks. eapply worker_h; [|done].
      apply Forall_forall. intros u Hu. apply elem_of_list_In, in_map_iff in Hu as (x & <- & Hx). simpl. apply nested_h.
      eapply Forall_forall in IH; [exact IH|]. by apply elem_of_list_In.
    - destruct nested; [done|]. oks. match goal with E : destroy_loop _ _ _ = _ |- _ => apply destroy_loop_h in E end. eapply hs_trans; [|done]. by apply hs_same.
  Qed.
End stable.
