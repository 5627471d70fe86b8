(** Completion of lookups: running the stored callbacks, resolver callbacks, and the invariant. *)
From Verif Require Import Base AQueue ATable BasicHashtable QueueProofs BasicHashtableProofs ContainersProofs Mapped Cache CacheAbs AbsInv AbsPrim AbsPrim2 AbsSweep AbsOps.

(** how the clocks move, and the pointers that the user holds *)
Inductive drift :=
| Still      (** not at all *)
| Forward    (** not backwards *)
| Anyhow.    (** the clock of the age policies may jump back, unless it is steady *)
Definition clk (k : cfg) (δ : drift) (m m' : mem) : Prop :=
  (m_steady m <= m_steady m')%Z /\
  (k_steady k = true \/ δ <> Anyhow -> (m_wall m <= m_wall m')%Z) /\
  (δ = Still -> m_wall m' = m_wall m /\ m_steady m' = m_steady m /\ m_dropped m' ⊆ m_dropped m).
Definition drift_le (a b : drift) : bool :=
  match a, b with Still, _ | Forward, Forward | _, Anyhow => true | _, _ => false end.
Definition drift_max (a b : drift) : drift := if drift_le a b then b else a.
Lemma drift_le_l a b : drift_le a (drift_max a b) = true.
Proof. by destruct a, b. Qed.
Lemma drift_le_r a b : drift_le b (drift_max a b) = true.
Proof. by destruct a, b. Qed.
Lemma clk_eq k δ m m' : m_wall m' = m_wall m -> m_steady m' = m_steady m -> m_dropped m' ⊆ m_dropped m -> clk k δ m m'.
Proof. intros E1 E2 E3. split_and!; [lia|lia|done]. Qed.
Lemma clk_refl k δ m : clk k δ m m.
Proof. by apply clk_eq. Qed.
Lemma clk_trans k δ m1 m2 m3 : clk k δ m1 m2 -> clk k δ m2 m3 -> clk k δ m1 m3.
Proof.
  intros (A1 & A2 & A3) (B1 & B2 & B3). split_and!; [lia| |].
  - intros H. specialize (A2 H). specialize (B2 H). lia.
  - intros H. destruct (A3 H) as (? & ? & ?), (B3 H) as (? & ? & ?). split_and!; [congruence..|set_solver].
Qed.
Lemma clk_le k a b m m' : drift_le a b = true -> clk k a m m' -> clk k b m m'.
Proof.
  intros Hab (A1 & A2 & A3). split_and!; [done| |].
  - intros [H|H]; apply A2; [by left|right]. by destruct a, b.
  - intros ->. apply A3. by destruct a.
Qed.
Lemma clk_congr k δ m1 m1' m2 m2' : m_wall m1' = m_wall m1 -> m_steady m1' = m_steady m1 -> m_dropped m1' = m_dropped m1 ->
  m_wall m2' = m_wall m2 -> m_steady m2' = m_steady m2 -> m_dropped m2' = m_dropped m2 -> clk k δ m1 m2 -> clk k δ m1' m2'.
Proof. unfold clk. intros -> -> -> -> -> ->. done. Qed.

(** states that differ in clocks and in what the user holds *)
Record calm (k : cfg) (δ : drift) (s s' : sta) : Prop := {
  q_cs : cs s' = cs s;
  q_els : m_els (me s') = m_els (me s);
  q_nxt : m_nxt (me s') = m_nxt (me s);
  q_cbs : m_cbs (me s') = m_cbs (me s);
  q_ncb : m_ncb (me s') = m_ncb (me s);
  q_up : m_up (me s') = m_up (me s);
  q_log : m_log (me s') = m_log (me s);
  q_clk : clk k δ (me s) (me s')
}.
Lemma calm_refl k δ s : calm k δ s s.
Proof. by split. Qed.
Lemma calm_trans k δ s1 s2 s3 : calm k δ s1 s2 -> calm k δ s2 s3 -> calm k δ s1 s3.
Proof. intros [] []. split; try congruence. by eapply clk_trans. Qed.
Lemma calm_le k a b s s' : drift_le a b = true -> calm k a s s' -> calm k b s s'.
Proof. intros H []. split; try done. by eapply clk_le. Qed.

(** time points: earlier or equal; [None] is never *)
Definition tp_le (a b : option Z) : Prop := match a, b with _, None => True | None, Some _ => False | Some x, Some y => (x <= y)%Z end.
Lemma tp_le_refl a : tp_le a a.
Proof. destruct a; simpl; [lia|done]. Qed.
Lemma tp_le_trans a b c : tp_le a b -> tp_le b c -> tp_le a c.
Proof. destruct a, b, c; simpl; try done; lia. Qed.
Lemma tp_min_l a b : tp_le (tp_min a b) a.
Proof. destruct a, b; simpl; try done; lia. Qed.
Lemma tp_min_r a b : tp_le (tp_min a b) b.
Proof. destruct a, b; simpl; try done; lia. Qed.
Lemma reached_mono t a b : tp_le a b -> reached t b = true -> reached t a = true.
Proof. destruct a, b; simpl; try done. rewrite !bool_decide_eq_true. lia. Qed.
Lemma reached_min t a b : reached t (tp_min a b) = reached t a || reached t b.
Proof. destruct a, b; simpl; rewrite ?orb_false_r; try done. repeat case_bool_decide; simpl; try done; lia. Qed.
(** equal up to the reference count *)
Definition eqrc (a b : elem) : Prop := with_rc a 0 = with_rc b 0.

Section comp.
  Context (k : cfg).
  Notation inv := (inv k).
  Notation ends := (ends k).
  Notation calm := (calm k).

  Lemma inv_calm δ g s s' : inv g s -> calm δ s s' -> inv g s'.
  Proof.
    intros Hi [E1 E2 E3 E4 E5 E6 E7 _]. assert (s' = with_me s (me s')) as -> by (destruct s, s'; simpl in *; by subst).
    by apply inv_mem.
  Qed.
  Lemma ext_calm δ g s s' : calm δ s s' -> ext [] g s g s'.
  Proof.
    intros [E1 E2 E3 E4 E5 E6 E7 [E8 _]]. split; rewrite ?E3, ?E5, ?E6, ?E7, ?E2; try done; try lia.
    - intros e el el' H1 H2. replace el' with el by congruence. done.
    - by exists [].
    - intros w. unfold wtot. rewrite E2, E7. simpl. lia.
  Qed.

  (** ** Reading *)
  Fixpoint firstv (f : N -> mres) (M : list N) : mres :=
    match M with [] => R0 | e :: M => match f e with R0 => firstv f M | r => r end end.
  Definition p_lookup (s : sta) (key : Z) : mres := firstv (ans k s (k_hash k key) key false) (bucket s (k_hash k key)).
  Lemma lookup_eq g s key : inv g s -> a_torn (cs s) = None -> get_if_exists k s key = Ok (p_lookup s key).
  Proof.
    intros Hi Ht. rewrite get_if_exists_fl; [|by eapply tab_nodup|done|by eapply tab_dom].
    unfold p_lookup. assert (forall e, e ∈ bucket s (k_hash k key) -> e ∈ concat (a_bs (cs s))) as Hin by apply bucket_in.
    revert Hin. generalize (bucket s (k_hash k key)) as M. induction M as [|e M IH]; intros Hin; [done|]. simpl.
    assert (e ∈ LT g (cs s)) as He. { apply tab_LT; [done|]. apply Hin. by left. }
    destruct (i_tab _ _ _ Hi e He) as [el Hel].
    assert (el_answer k s (k_hash k key) key e = Ok (ans k s (k_hash k key) key false e)) as ->.
    { unfold el_answer, ans, s_el, rd_el. rewrite (i_hash _ _ _ Hi e el) by done. rewrite Hel. simpl. do 2 f_equal.
      by destruct (bool_decide _), (el_expired k (me s) el), (k_eq k (el_key el) key). }
    simpl. rewrite IH; [by destruct (ans k s (k_hash k key) key false e)|]. intros x Hx. apply Hin. by right.
  Qed.
  Definition live (s : sta) (e : N) : bool := match m_els (me s) !! e with Some el => negb (el_expired k (me s) el) | None => false end.
  Definition p_count (s : sta) : nat := length (filter (fun e => live s e) (concat (a_bs (cs s)))).
  Lemma count_eq g s : inv g s -> a_torn (cs s) = None -> count k s = Ok (p_count s).
  Proof.
    intros Hi Ht. rewrite count_cl; [|by eapply tab_nodup|done|by eapply tab_dom].
    unfold p_count. assert (forall e, e ∈ concat (a_bs (cs s)) -> is_Some (m_els (me s) !! e)) as Hin by (by eapply tab_dom).
    revert Hin. generalize (concat (a_bs (cs s))) as M. induction M as [|e M IH]; intros Hin; [done|]. simpl.
    destruct (Hin e) as [el Hel]; [by left|]. unfold s_el, rd_el. rewrite Hel. simpl.
    rewrite IH by (intros x Hx; apply Hin; by right). simpl. rewrite filter_cons.
    assert (live s e = negb (el_expired k (me s) el)) as -> by (unfold live; by rewrite Hel).
    destruct (el_expired k (me s) el); simpl; done.
  Qed.

  (** ** User code *)
  Definition quiet (δ : drift) (u : sta -> res sta) : Prop :=
    forall g s, inv g s -> m_up (me s) = true -> exists s', u s = Ok s' /\ calm δ s s'.

  (** ** Dropping invoked callbacks *)
  Definition f_free (s : sta) (p : pcb) : sta := match p with PWait w => s | PRefresh _ o => f_dec s o end.
  Definition f_frees (s : sta) (ps : list pcb) : sta := foldl f_free s ps.
  Definition held (ps : list pcb) (g : gh) : gh := with_pins g (olds_of ps ++ g_pins g).
  Lemma frees_ends ps : forall g s, inv (held ps g) s -> ends [] (held ps g) s (free_pcbs s ps) g (f_frees s ps).
  Proof.
    induction ps as [|p ps IH]; intros g s Hi; simpl.
    - assert (held [] g = g) as E by (by destruct g). rewrite E in *. by apply ends_ret.
    - destruct p as [w|n o].
      + apply (IH g s Hi).
      + assert (held (PRefresh n o :: ps) g = pin o (held ps g)) as E by done. rewrite E in *.
        destruct (drop_ok k _ _ _ Hi) as (E1 & I1 & X1). eapply ends_bind; [done|split_and!; [exact E1|exact I1|exact X1]|].
        by apply IH.
  Qed.
  Lemma f_frees_els ps s x : x ∉ olds_of ps -> m_els (me (f_frees s ps)) !! x = m_els (me s) !! x.
  Proof.
    revert s. induction ps as [|p ps IH]; intros s Hx; [done|]. simpl.
    assert (x ∉ olds_of ps) as Hx'. { intros H. apply Hx. unfold olds_of; simpl. apply elem_of_app. by right. }
    unfold f_frees in IH. rewrite (IH _ Hx'). destruct p as [w|n o]; simpl; [done|]. apply f_dec_els.
    intros ->. apply Hx. unfold olds_of; simpl. by left.
  Qed.
  Lemma f_dec_sub s o x el : m_els (me (f_dec s o)) !! x = Some el -> exists el0, m_els (me s) !! x = Some el0 /\ eqrc el el0.
  Proof.
    unfold f_dec, eqrc. destruct (m_els (me s) !! o) as [eo|] eqn:E; [|eauto].
    destruct (el_rc eo) as [|[|n]]; simpl; rewrite ?lookup_delete_Some, ?lookup_insert_Some; naive_solver.
  Qed.
  Lemma f_frees_sub ps : forall s x el, m_els (me (f_frees s ps)) !! x = Some el -> exists el0, m_els (me s) !! x = Some el0 /\ eqrc el el0.
  Proof.
    induction ps as [|p ps IH]; intros s x el; [unfold eqrc; simpl; eauto|]. simpl. intros (el1 & H1 & E1)%IH.
    destruct p as [w|n o]; simpl in H1; [eauto|]. apply f_dec_sub in H1 as (el0 & ? & ?). exists el0. split; [done|unfold eqrc in *; congruence].
  Qed.
  Lemma f_dec_me s o : m_nxt (me (f_dec s o)) = m_nxt (me s) /\ m_cbs (me (f_dec s o)) = m_cbs (me s) /\ m_log (me (f_dec s o)) = m_log (me s) /\
    m_up (me (f_dec s o)) = m_up (me s) /\ m_ncb (me (f_dec s o)) = m_ncb (me s) /\ m_wall (me (f_dec s o)) = m_wall (me s) /\
    m_steady (me (f_dec s o)) = m_steady (me s) /\ m_dropped (me (f_dec s o)) = m_dropped (me s).
  Proof. unfold f_dec. destruct (m_els (me s) !! o) as [eo|]; [|done]. by destruct (el_rc eo) as [|[|n]]. Qed.
  Lemma f_frees_me ps s : m_nxt (me (f_frees s ps)) = m_nxt (me s) /\ m_cbs (me (f_frees s ps)) = m_cbs (me s) /\ m_log (me (f_frees s ps)) = m_log (me s) /\
    m_up (me (f_frees s ps)) = m_up (me s) /\ m_ncb (me (f_frees s ps)) = m_ncb (me s) /\
    m_wall (me (f_frees s ps)) = m_wall (me s) /\ m_steady (me (f_frees s ps)) = m_steady (me s) /\ m_dropped (me (f_frees s ps)) = m_dropped (me s).
  Proof.
    revert s. induction ps as [|p ps IH]; intros s; [done|]. simpl. destruct (IH (f_free s p)) as (E1 & E2 & E3 & E4 & E5 & E6 & E7 & E8).
    unfold f_frees in *. rewrite E1, E2, E3, E4, E5, E6, E7, E8. destruct p; simpl; [done|]. apply f_dec_me.
  Qed.
  Lemma f_frees_cs ps s : a_bs (cs (f_frees s ps)) = a_bs (cs s) /\ a_torn (cs (f_frees s ps)) = a_torn (cs s) /\
    a_q (cs (f_frees s ps)) = a_q (cs s) /\ a_dq (cs (f_frees s ps)) = a_dq (cs s).
  Proof.
    revert s. induction ps as [|p ps IH]; intros s; [done|]. simpl. destruct (IH (f_free s p)) as (E1 & E2 & E3 & E4).
    unfold f_frees in *. rewrite E1, E2, E3, E4. destruct p; [done|]. apply f_dec_cs.
  Qed.

  (** ** Refresh callbacks *)
  Lemma p_upd_els s e f : m_els (me (p_upd s e f)) = alter f e (m_els (me s)).
  Proof.
    apply map_eq. intros x. rewrite p_upd_lookup. destruct (decide (x = e)) as [->|]; [by rewrite lookup_alter|by rewrite lookup_alter_ne].
  Qed.
  Lemma p_upd_me s e f : m_nxt (me (p_upd s e f)) = m_nxt (me s) /\ m_cbs (me (p_upd s e f)) = m_cbs (me s) /\ m_log (me (p_upd s e f)) = m_log (me s) /\
    m_up (me (p_upd s e f)) = m_up (me s) /\ m_ncb (me (p_upd s e f)) = m_ncb (me s) /\ m_wall (me (p_upd s e f)) = m_wall (me s) /\
    m_steady (me (p_upd s e f)) = m_steady (me s) /\ m_dropped (me (p_upd s e f)) = m_dropped (me s).
  Proof. unfold p_upd. by destruct (m_els (me s) !! e). Qed.
  Definition f_revent (s : sta) (new old : N) : sta :=
    let cn := match m_els (me s) !! old with Some o => el_cn o | None => None end in
    f_mark k (if bool_decide (is_Some (k_refresh k)) then p_upd s new (fun el => with_cn el (tp_min (el_cn el) cn)) else s) old.
  Definition re_els (els : gmap N elem) (new old : N) : gmap N elem :=
    let cn := match els !! old with Some o => el_cn o | None => None end in
    alter (fun el => with_map el (m_mark_expired (k_pointer k) (el_map el))) old
      (if bool_decide (is_Some (k_refresh k)) then alter (fun el => with_cn el (tp_min (el_cn el) cn)) new els else els).
  Lemma f_revent_els s n o : m_els (me (f_revent s n o)) = re_els (m_els (me s)) n o.
  Proof. unfold f_revent, re_els, f_mark. rewrite p_upd_els. destruct (bool_decide _); by rewrite ?p_upd_els. Qed.
  Lemma f_revent_me s n o : cs (f_revent s n o) = cs s /\ m_nxt (me (f_revent s n o)) = m_nxt (me s) /\ m_cbs (me (f_revent s n o)) = m_cbs (me s) /\ m_log (me (f_revent s n o)) = m_log (me s) /\
    m_up (me (f_revent s n o)) = m_up (me s) /\ m_ncb (me (f_revent s n o)) = m_ncb (me s) /\ m_wall (me (f_revent s n o)) = m_wall (me s) /\
    m_steady (me (f_revent s n o)) = m_steady (me s) /\ m_dropped (me (f_revent s n o)) = m_dropped (me s).
  Proof.
    unfold f_revent, f_mark. set (s1 := if bool_decide _ then _ else s).
    destruct (p_upd_me s1 o (fun el => with_map el (m_mark_expired (k_pointer k) (el_map el)))) as (-> & -> & -> & -> & -> & -> & -> & ->).
    rewrite p_upd_cs. unfold s1. destruct (bool_decide _); [|done].
    destruct (p_upd_me s n (fun el => with_cn el (tp_min (el_cn el) (match m_els (me s) !! o with Some o => el_cn o | None => None end)))) as (-> & -> & -> & -> & -> & -> & -> & ->).
    by rewrite p_upd_cs.
  Qed.
  Lemma revent_ends g s n o eo : inv g s -> is_Some (m_els (me s) !! n) -> n ∉ g_priv g -> m_els (me s) !! o = Some eo -> ~ is_pend eo ->
    ends [] g s (refresh_event k s n o) g (f_revent s n o).
  Proof.
    intros Hi [en Hn] Hnpr Ho Hnp. unfold refresh_event, f_revent, s_el, rd_el. rewrite Ho. simpl.
    assert (o ∉ g_priv g) as Hpr by (by eapply nopend_not_priv).
    assert (ends [] g s (if bool_decide (is_Some (k_refresh k)) then s_upd s n (fun el => with_cn el (tp_min (el_cn el) (el_cn eo))) else Ok s) g
        (if bool_decide (is_Some (k_refresh k)) then p_upd s n (fun el => with_cn el (tp_min (el_cn el) (el_cn eo))) else s)) as (E1 & I1 & X1).
    { destruct (bool_decide _); [|by apply ends_ret]. apply (upd_soft k _ _ _ en); [done|done| |by left].
      apply soft_meta; try done. by eapply i_mode. }
    eapply ends_bind; [done|split_and!; [exact E1|exact I1|exact X1]|].
    apply mark_ends; [done| |done].
    destruct (bool_decide _); [|eauto]. rewrite p_upd_lookup. destruct (decide (o = n)) as [->|]; [rewrite Hn; simpl; eauto|eauto].
  Qed.
  (** its effect on one element *)
  Lemma re_els_other els n o x : x <> n -> x <> o -> re_els els n o !! x = els !! x.
  Proof.
    intros H1 H2. unfold re_els. rewrite lookup_alter_ne by done. destruct (bool_decide _); [by rewrite lookup_alter_ne|done].
  Qed.
  Lemma re_els_new els n o el : n <> o -> els !! n = Some el -> exists cn, re_els els n o !! n = Some (with_cn el cn).
  Proof.
    intros H1 H2. unfold re_els. rewrite lookup_alter_ne by done. destruct (bool_decide _); [rewrite lookup_alter, H2; simpl; eauto|].
    exists (el_cn el). rewrite H2. by destruct el.
  Qed.
  Lemma re_els_old els n o el : n <> o -> els !! o = Some el ->
    re_els els n o !! o = Some (with_map el (m_mark_expired (k_pointer k) (el_map el))).
  Proof.
    intros H1 H2. unfold re_els. rewrite lookup_alter. destruct (bool_decide _); [rewrite lookup_alter_ne by done|]; by rewrite H2.
  Qed.
  Definition dl_els (ps : list pcb) (els : gmap N elem) : gmap N elem :=
    foldl (fun els p => match p with PWait _ => els | PRefresh n o => re_els els n o end) els ps.
  Lemma dl_els_other ps e x : (forall n o, PRefresh n o ∈ ps -> n = e) -> x <> e -> x ∉ olds_of ps -> forall els, dl_els ps els !! x = els !! x.
  Proof.
    induction ps as [|p ps IH]; intros Hr Hx Ho els; [done|]. simpl. rewrite IH; try done.
    - destruct p as [w|n o]; [done|]. apply re_els_other.
      + rewrite (Hr n o) by (by left). done.
      + intros ->. apply Ho. unfold olds_of; simpl. by left.
    - intros n o Hin. apply (Hr n o). by right.
    - intros H. apply Ho. unfold olds_of; simpl. apply elem_of_app. by right.
  Qed.
  (** the idle deadline of a replacement: no later than its own nor than those of the entries it replaces *)
  Definition cn_ok (olds : list N) (els : gmap N elem) (c0 c : option Z) : Prop :=
    tp_le c c0 /\
    (is_Some (k_refresh k) -> forall o eo, o ∈ olds -> els !! o = Some eo -> tp_le c (el_cn eo)) /\
    (forall t, reached t c = true -> reached t c0 = true \/ exists o eo, o ∈ olds /\ els !! o = Some eo /\ reached t (el_cn eo) = true).
  Lemma cn_ok_nil els c : cn_ok [] els c c.
  Proof. split; [apply tp_le_refl|]. split; [by intros ? ? ? ?%elem_of_nil|by left]. Qed.
  Lemma cn_ok_els olds els els' c0 c : (forall o, o ∈ olds -> els !! o = els' !! o) -> cn_ok olds els c0 c -> cn_ok olds els' c0 c.
  Proof.
    intros H (L1 & L2 & L3). split_and!; [done|..].
    - intros Hk o eo Ho He. apply (L2 Hk o eo Ho). by rewrite H.
    - intros t Ht. destruct (L3 t Ht) as [|(o & eo & Ho & He & ?)]; [by left|right]. exists o, eo. by rewrite <-H.
  Qed.
  Lemma re_els_cn els n o x ex : x <> n -> re_els els n o !! x = Some ex -> exists ex0, els !! x = Some ex0 /\ el_cn ex = el_cn ex0.
  Proof.
    intros Hx. destruct (decide (x = o)) as [->|]; [|rewrite re_els_other by done; eauto].
    destruct (els !! o) as [eo|] eqn:E.
    - rewrite (re_els_old els n o eo) by done. intros [= <-]. eauto.
    - unfold re_els. rewrite lookup_alter. destruct (bool_decide _); [rewrite lookup_alter_ne by done|]; by rewrite E.
  Qed.
  Lemma re_els_cn2 els n o x ex0 : x <> n -> els !! x = Some ex0 -> exists ex, re_els els n o !! x = Some ex /\ el_cn ex = el_cn ex0.
  Proof.
    intros Hx E. destruct (decide (x = o)) as [->|]; [|rewrite re_els_other by done; eauto].
    rewrite (re_els_old els n o ex0) by done. eauto.
  Qed.
  Lemma olds_of_elem ps o : o ∈ olds_of ps -> exists n, PRefresh n o ∈ ps.
  Proof.
    induction ps as [|[w|n o'] ps IH]; unfold olds_of; simpl; [by intros ?%elem_of_nil|..].
    - intros H. destruct (IH H) as [n ?]. exists n. by right.
    - intros [->|H]%elem_of_cons; [exists n; by left|]. destruct (IH H) as [n' ?]. exists n'. by right.
  Qed.
  Lemma dl_els_self ps e : (forall n o, PRefresh n o ∈ ps -> n = e /\ o <> e) -> forall els el, els !! e = Some el ->
    exists cn, cn_ok (olds_of ps) els (el_cn el) cn /\ dl_els ps els !! e = Some (with_cn el cn).
  Proof.
    induction ps as [|p ps IH]; intros Hr els el He; simpl. { exists (el_cn el). split; [apply cn_ok_nil|]. rewrite He. by destruct el. }
    assert (forall n o, PRefresh n o ∈ ps -> n = e /\ o <> e) as Hr' by (intros n o Hin; apply Hr; by right).
    destruct p as [w|n o]; [by apply IH|]. destruct (Hr n o) as [-> Hne]; [by left|].
    set (c1 := if bool_decide (is_Some (k_refresh k)) then tp_min (el_cn el) (match els !! o with Some o => el_cn o | None => None end) else el_cn el).
    assert (re_els els e o !! e = Some (with_cn el c1)) as Hc1.
    { unfold re_els. rewrite lookup_alter_ne by done. unfold c1. destruct (bool_decide _); [by rewrite lookup_alter, He|].
      rewrite He. by destruct el. }
    destruct (IH Hr' (re_els els e o) _ Hc1) as (cn & (L1 & L2 & L3) & Hcn). exists cn. split; [|done]. simpl in *.
    assert (olds_of (PRefresh e o :: ps) = o :: olds_of ps) as -> by done.
    assert (forall o', o' ∈ olds_of ps -> o' <> e) as Hno.
    { intros o' Ho' ->. apply olds_of_elem in Ho' as [n' Hin]. by destruct (Hr' _ _ Hin). }
    split_and!.
    - eapply tp_le_trans; [exact L1|]. unfold c1. destruct (bool_decide _); [apply tp_min_l|apply tp_le_refl].
    - intros Hk o' eo' [->|Hin]%elem_of_cons Ho'.
      + eapply tp_le_trans; [exact L1|]. unfold c1. rewrite bool_decide_true, Ho' by done. apply tp_min_r.
      + destruct (re_els_cn2 els e o o' eo') as (ex & Hx & Ex); [by apply Hno|done|]. rewrite <-Ex. by eapply L2.
    - intros tt Ht. destruct (L3 tt Ht) as [H1|(o' & eo' & Hin & Ho' & H1)].
      + unfold c1 in H1. destruct (bool_decide _); [|by left]. rewrite reached_min in H1. apply orb_true_iff in H1 as [|H1]; [by left|].
        destruct (els !! o) as [eo|] eqn:Eo; [|done]. right. exists o, eo. split_and!; try done. by left.
      + destruct (re_els_cn els e o o' eo') as (ex & Hx & Ex); [by apply Hno|done|]. right. exists o', ex. split_and!; try done; [by right|congruence].
  Qed.
  Lemma mark_idem m : m_mark_expired (k_pointer k) (m_mark_expired (k_pointer k) m) = m_mark_expired (k_pointer k) m.
  Proof. unfold m_mark_expired, m_dead. destruct m; try done; by destruct (k_pointer k). Qed.
  Definition marked (el : elem) : elem := with_map el (m_mark_expired (k_pointer k) (el_map el)).
  Lemma marked_idem el : marked (marked el) = marked el.
  Proof. unfold marked, with_map; simpl. by rewrite mark_idem. Qed.
  Lemma dl_els_at ps e : (forall n o, PRefresh n o ∈ ps -> n = e /\ o <> e) -> forall els x, x <> e ->
    dl_els ps els !! x = (if decide (x ∈ olds_of ps) then marked else id) <$> els !! x.
  Proof.
    induction ps as [|p ps IH]; intros Hr els x Hx; simpl.
    { by rewrite option_fmap_id. }
    assert (forall n o, PRefresh n o ∈ ps -> n = e /\ o <> e) as Hr' by (intros n o Hin; apply Hr; by right).
    rewrite IH by done. destruct p as [w|n o]; [done|].
    destruct (Hr n o) as [-> Hne]; [by left|]. unfold olds_of; simpl. fold (olds_of ps).
    destruct (decide (x = o)) as [->|Hxo].
    - rewrite (decide_True (P := o ∈ o :: olds_of ps)) by (by left).
      assert (re_els els e o !! o = marked <$> els !! o) as ->.
      { unfold re_els. rewrite lookup_alter. destruct (bool_decide _); [rewrite lookup_alter_ne by done|]; done. }
      destruct (els !! o) as [el|]; [|done]. simpl. destruct (decide _); [by rewrite marked_idem|done].
    - rewrite re_els_other by done. destruct (decide (x ∈ olds_of ps)) as [Hin|Hin].
      + rewrite decide_True; [done|]. by right.
      + rewrite decide_False; [done|]. intros [?|?]%elem_of_cons; done.
  Qed.

  (** ** Invoking the callbacks *)
  Definition calls (v x : Z) (ps : list pcb) : list ev := rev (map (fun w => EvCall w v x false) (waits_of ps)).
  Lemma calls_wait v x w ps : calls v x (PWait w :: ps) = calls v x ps ++ [EvCall w v x false].
  Proof. done. Qed.
  Lemma ndone_calls v x ps w : ndone (calls v x ps) w = cnt w (waits_of ps).
  Proof.
    unfold calls. induction (waits_of ps) as [|y l IH]; [done|]. simpl. rewrite ndone_app, IH, cnt_cons. unfold ndone; simpl. lia.
  Qed.
  (** what happens while callbacks run *)
  Record ran (δ : drift) (ps : list pcb) (v x : Z) (s s' : sta) : Prop := {
    r_cs : cs s' = cs s;
    r_els : m_els (me s') = dl_els ps (m_els (me s));
    r_nxt : m_nxt (me s') = m_nxt (me s);
    r_cbs : m_cbs (me s') = m_cbs (me s);
    r_ncb : m_ncb (me s') = m_ncb (me s);
    r_up : m_up (me s') = m_up (me s);
    r_log : m_log (me s') = calls v x ps ++ m_log (me s);
    r_clk : clk k δ (me s) (me s')
  }.
  Lemma ran_calm δ ps v x s1 s2 s3 : calm δ s1 s2 -> ran δ ps v x s2 s3 -> ran δ ps v x s1 s3.
  Proof. intros [] []. split; try congruence. by eapply clk_trans. Qed.
  Lemma ran_wait δ w ps v x s s' : ran δ ps v x (s_log s (EvCall w v x false)) s' -> ran δ (PWait w :: ps) v x s s'.
  Proof. intros []. split; try done. rewrite r_log0. rewrite calls_wait, <-(assoc_L (++)). done. Qed.
  Lemma ran_refresh δ n o ps v x s s' : ran δ ps v x (f_revent s n o) s' -> ran δ (PRefresh n o :: ps) v x s s'.
  Proof.
    intros []. destruct (f_revent_me s n o) as (E1 & E2 & E3 & E4 & E5 & E6 & E7 & E8 & E9).
    split; try congruence; first [by rewrite r_els0, f_revent_els|by rewrite r_log0, E4|by apply (clk_congr k δ (me (f_revent s n o)) _ (me s'))].
  Qed.
  Lemma give_calm δ s v : calm δ s (give k s v).
  Proof. unfold give. destruct (k_pointer k); split; try done; apply clk_eq; simpl; try done; set_solver. Qed.

  Lemma deliver_ran δ g e v ps : forall us s el, inv g s -> m_up (me s) = true -> Forall (quiet δ) us ->
    m_els (me s) !! e = Some el -> el_map el = MVal v ->
    (forall n o, PRefresh n o ∈ ps -> n = e /\ o <> e /\ exists eo, m_els (me s) !! o = Some eo /\ ~ is_pend eo) ->
    exists s', deliver k s e v ps us = Ok s' /\ inv g s' /\ ran δ ps v 0 s s'.
  Proof.
    induction ps as [|p ps IH]; intros us s el Hi Hup Hus He Hm Hr; simpl.
    { exists s. split_and!; try done. }
    destruct p as [w|n o].
    - unfold s_el, rd_el. rewrite He. simpl. rewrite Hm, bool_decide_true, andb_false_r by done.
      set (s1 := s_log s (EvCall w v 0 false)). pose proof (give_calm δ s1 v) as Q. 
      assert (inv g s1) as I1 by (by apply inv_log). assert (inv g (give k s1 v)) as I2 by (by apply inv_give).
      assert (exists s2 us', match us with [] => deliver k (give k s1 v) e v ps [] | u :: us => s <- u (give k s1 v);; deliver k s e v ps us end = deliver k s2 e v ps us' /\
        Forall (quiet δ) us' /\ calm δ s1 s2) as (s2 & us' & -> & Hus' & Q2).
      { destruct us as [|u us].
        - exists (give k s1 v), []. done.
        - apply Forall_cons in Hus as [Hu Hus]. destruct (Hu g (give k s1 v)) as (s2 & E2 & Q2); [done|by rewrite (q_up _ _ _ _ Q)|].
          exists s2, us. rewrite E2. split_and!; try done. by eapply calm_trans. }
      destruct (IH us' s2 el) as (s' & E' & I' & R'); try done.
      + exact (inv_calm _ _ _ _ I1 Q2).
      + by rewrite (q_up _ _ _ _ Q2).
      + by rewrite (q_els _ _ _ _ Q2).
      + intros n o Hin. rewrite (q_els _ _ _ _ Q2). apply (Hr n o). by right.
      + exists s'. split_and!; try done. apply ran_wait. by eapply ran_calm.
    - destruct (Hr n o) as (-> & Hne & eo & Heo & Hnp); [by left|].
      assert (e ∉ g_priv g) as Hpe by (eapply nopend_not_priv; [done|exact He|unfold is_pend, el_pending; by rewrite Hm]).
      destruct (revent_ends g s e o eo Hi (mk_is_Some _ _ He) Hpe Heo Hnp) as (E1 & I1 & X1). rewrite E1. simpl.
      destruct (f_revent_me s e o) as (F1 & F2 & F3 & F4 & F5 & _). pose proof (f_revent_els s e o) as Fe.
      destruct (re_els_new (m_els (me s)) e o el) as [cn Hcn]; [done|done|].
      destruct (IH us (f_revent s e o) (with_cn el cn)) as (s' & E' & I' & R'); try done.
      + by rewrite F5.
      + by rewrite Fe.
      + intros n' o' Hin. destruct (Hr n' o') as (-> & Hne' & eo' & Heo' & Hnp'); [by right|]. split_and!; try done.
        rewrite Fe. destruct (decide (o' = o)) as [->|].
        * rewrite (re_els_old _ _ _ eo) by done. eexists. split; [done|]. unfold is_pend, el_pending in *. simpl. destruct (el_map eo); simpl; try done; unfold m_dead; by destruct (k_pointer k).
        * rewrite re_els_other by done. eauto.
      + exists s'. split_and!; try done. by apply ran_refresh.
  Qed.

  Lemma deliver_error_ran δ g e x all p ps : e ∉ g_priv g -> forall us s el, inv g s -> m_up (me s) = true -> Forall (quiet δ) us ->
    m_els (me s) !! e = Some el -> el_map el = MPend p -> p_cbq p = all ->
    (forall n o, PRefresh n o ∈ ps -> n = e /\ o <> e /\ exists eo, m_els (me s) !! o = Some eo /\ ~ is_pend eo) ->
    exists s', deliver_error k s e x all ps us = Ok s' /\ inv g s' /\ ran δ ps 0 x s s'.
  Proof.
    intros Hpe. induction ps as [|pc ps IH]; intros us s el Hi Hup Hus He Hm Hall Hr; simpl.
    { exists s. split_and!; try done. }
    destruct pc as [w|n o].
    - set (s1 := s_log s (EvCall w 0 x false)).
      assert (inv g s1) as I1 by (by apply inv_log).
      assert (exists s2 us', match us with [] => deliver_error k s1 e x all ps [] | u :: us => s <- u s1;; el <- s_el s e;;
            match el_map el with MPend p => if bool_decide (p_cbq p = all) then deliver_error k s e x all ps us else UB | _ => UB end end = deliver_error k s2 e x all ps us' /\
        Forall (quiet δ) us' /\ calm δ s1 s2) as (s2 & us' & -> & Hus' & Q2).
      { destruct us as [|u us].
        - exists s1, []. split_and!; try done.
        - apply Forall_cons in Hus as [Hu Hus]. destruct (Hu g s1) as (s2 & E2 & Q2); [done|done|].
          exists s2, us. rewrite E2. simpl. unfold s_el, rd_el. rewrite (q_els _ _ _ _ Q2). simpl. rewrite He. simpl. rewrite Hm.
          rewrite bool_decide_true by done. done. }
      destruct (IH us' s2 el) as (s' & E' & I' & R'); try done.
      + exact (inv_calm _ _ _ _ I1 Q2).
      + by rewrite (q_up _ _ _ _ Q2).
      + by rewrite (q_els _ _ _ _ Q2).
      + intros n o Hin. rewrite (q_els _ _ _ _ Q2). apply (Hr n o). by right.
      + exists s'. split_and!; try done. apply ran_wait. by eapply ran_calm.
    - destruct (Hr n o) as (-> & Hne & eo & Heo & Hnp); [by left|].
      destruct (revent_ends g s e o eo Hi (mk_is_Some _ _ He) Hpe Heo Hnp) as (E1 & I1 & X1). rewrite E1. simpl.
      destruct (f_revent_me s e o) as (F1 & F2 & F3 & F4 & F5 & _). pose proof (f_revent_els s e o) as Fe.
      destruct (re_els_new (m_els (me s)) e o el) as [cn Hcn]; [done|done|].
      destruct (IH us (f_revent s e o) (with_cn el cn)) as (s' & E' & I' & R'); try done.
      + by rewrite F5.
      + by rewrite Fe.
      + intros n' o' Hin. destruct (Hr n' o') as (-> & Hne' & eo' & Heo' & Hnp'); [by right|]. split_and!; try done.
        rewrite Fe. destruct (decide (o' = o)) as [->|].
        * rewrite (re_els_old _ _ _ eo) by done. eexists. split; [done|]. unfold is_pend, el_pending in *. simpl. destruct (el_map eo); simpl; try done; unfold m_dead; by destruct (k_pointer k).
        * rewrite re_els_other by done. eauto.
      + exists s'. split_and!; try done. by apply ran_refresh.
  Qed.

  (** running callbacks as an extension: the waiters called appear in the log *)
  Lemma nwait_ext m1 m2 w : (forall x, el_waits <$> m1 !! x = el_waits <$> m2 !! x) -> nwait m1 w = nwait m2 w.
  Proof.
    intros H. assert (forall m : gmap N elem, nwait m w = msum (cnt w) (el_waits <$> m)) as E.
    { intros m. unfold nwait. induction m as [|i x m Hi IH] using map_ind; [by rewrite fmap_empty, !msum_empty|].
      rewrite fmap_insert, !msum_insert by (done || by rewrite lookup_fmap, Hi). by rewrite IH. }
    rewrite !E. f_equal. apply map_eq. intros x. rewrite !lookup_fmap. apply H.
  Qed.
  Lemma marked_waits el : el_waits (marked el) = el_waits el.
  Proof. unfold el_waits, marked; simpl. destruct (el_map el); simpl; unfold m_dead; try done; by destruct (k_pointer k). Qed.
  Lemma marked_pend el : el_pending (marked el) = el_pending el.
  Proof. unfold el_pending, marked; simpl. destruct (el_map el); simpl; unfold m_dead; try done; by destruct (k_pointer k). Qed.
  Lemma ext_wait W W' g s g1 g' s' : ext W g s g1 s' -> (forall w, wtot g s w <= wtot g' s' w <= wtot g s w + cnt w W') -> ext W' g s g' s'.
  Proof. intros [] H. split; try done. Qed.
  Lemma ran_ext δ e ps v x s s' el g : (forall n o, PRefresh n o ∈ ps -> n = e /\ o <> e) ->
    m_els (me s) !! e = Some el -> ran δ ps v x s s' ->
    ext (waits_of ps) g s g s' /\ forall w, wtot g s' w = cnt w (waits_of ps) + wtot g s w.
  Proof.
    intros Hr He [E1 E2 E3 E4 E5 E6 E7 [E8 _]].
    assert (forall y, y <> e -> m_els (me s') !! y = (if decide (y ∈ olds_of ps) then marked else id) <$> m_els (me s) !! y) as Hat.
    { intros y Hy. rewrite E2. by apply (dl_els_at ps e). }
    destruct (dl_els_self ps e Hr _ _ He) as (cn & _ & Hcn). rewrite <-E2 in Hcn.
    assert (forall w, wtot g s' w = cnt w (waits_of ps) + wtot g s w) as Hw.
    { intros w. unfold wtot. rewrite E7, ndone_app, ndone_calls. rewrite (nwait_ext (m_els (me s')) (m_els (me s))); [lia|].
      intros y. destruct (decide (y = e)) as [->|Hy]; [by rewrite Hcn, He|]. rewrite Hat by done.
      destruct (m_els (me s) !! y); [|done]. simpl. destruct (decide _); [by rewrite marked_waits|done]. }
    split; [|done]. split; rewrite ?E3, ?E5, ?E6; try done; try lia.
    - intros y _ Hy. destruct (decide (y = e)) as [->|Hne]; [congruence|]. rewrite Hat by done. by rewrite Hy.
    - intros y ey ey' Hy Hy'. destruct (decide (y = e)) as [->|Hne].
      + rewrite He in Hy. rewrite Hcn in Hy'. injection Hy as <-. injection Hy' as <-. done.
      + rewrite Hat, Hy in Hy' by done. simpl in Hy'. injection Hy' as <-. unfold is_pend. destruct (decide _); [by rewrite marked_pend|done].
    - rewrite E7. eauto.
    - intros w. rewrite Hw. lia.
  Qed.
  Lemma ran_hold δ e ps v x s s' el g : (forall n o, PRefresh n o ∈ ps -> n = e /\ o <> e) ->
    m_els (me s) !! e = Some el -> ran δ ps v x s s' -> ext [] (hold ps g) s (held ps g) s'.
  Proof.
    intros Hr He Hran. destruct (ran_ext δ e ps v x s s' el (held ps g) Hr He Hran) as [X Hw].
    assert (forall w, wtot (hold ps g) s w = cnt w (waits_of ps) + wtot (held ps g) s w) as Hh.
    { intros w. unfold wtot; simpl. rewrite cnt_app. lia. }
    destruct X. split; try done. intros w. rewrite Hw, Hh. lia.
  Qed.

  (** ** Storing the outcome of a lookup *)
  Definition settled (p : pend) (v : Z) : mapped :=
    if p_exp p then m_dead (k_pointer k)
    else if p_weak p then if k_pointer k then MWeak (Some v) else MExp
    else MVal v.
  Lemma settle_eq p v : m_settle (k_pointer k) p (MVal v) = Ok (settled p v).
  Proof. unfold m_settle, settled, m_dead. by destruct (k_pointer k), (p_exp p), (p_weak p). Qed.
  Lemma mode_settled p v : mode_ok k (settled p v).
  Proof. unfold settled, m_dead. destruct (k_pointer k) eqn:E, (p_exp p), (p_weak p); split; try done; congruence. Qed.
  Lemma mode_settled_error p x : mode_ok k (m_settle_error (k_pointer k) x p).
  Proof. unfold m_settle_error. destruct (_ || _); [apply mode_dead|done]. Qed.

  (** what storing an outcome does: element [e], whose lookup [p] completes with [m] and log [l] *)
  Record stored (δ : drift) (e : N) (p : pend) (m : mapped) (l : list ev) (s s' : sta) : Prop := {
    t_bs : a_bs (cs s') = a_bs (cs s);
    t_torn : a_torn (cs s') = a_torn (cs s);
    t_q : a_q (cs s') = a_q (cs s);
    t_dq : a_dq (cs s') = a_dq (cs s);
    t_nxt : m_nxt (me s') = m_nxt (me s);
    t_cbs : m_cbs (me s') = m_cbs (me s);
    t_ncb : m_ncb (me s') = m_ncb (me s);
    t_up : m_up (me s') = m_up (me s);
    t_log : m_log (me s') = l ++ m_log (me s);
    t_clk : clk k δ (me s) (me s');
    t_self : exists el cn, m_els (me s) !! e = Some el /\ cn_ok (olds_of (p_cbq p)) (m_els (me s)) (el_cn el) cn /\
      m_els (me s') !! e = Some (with_map (with_cn el cn) m);
    t_other x : x <> e -> x ∉ olds_of (p_cbq p) -> m_els (me s') !! x = m_els (me s) !! x;
    t_old x el' : x ∈ olds_of (p_cbq p) -> m_els (me s') !! x = Some el' ->
      exists el, m_els (me s) !! x = Some el /\ eqrc el' (marked el)
  }.

  Lemma el_refs g s e el p : inv g s -> m_els (me s) !! e = Some el -> el_map el = MPend p ->
    forall n o, PRefresh n o ∈ p_cbq p -> n = e /\ o <> e /\ exists eo, m_els (me s) !! o = Some eo /\ ~ is_pend eo.
  Proof. intros Hi He Hm n o Hin. apply (i_ref _ _ _ Hi e el n o He). by rewrite Hm. Qed.
  Lemma olds_not_self g s e el p : inv g s -> m_els (me s) !! e = Some el -> el_map el = MPend p -> e ∉ olds_of (p_cbq p).
  Proof.
    intros Hi He Hm Ho. assert (e ∈ el_olds el) as Ho' by (unfold el_olds; by rewrite Hm).
    apply el_olds_elem in Ho' as [n Hn]. destruct (i_ref _ _ _ Hi _ _ _ _ He Hn) as (_ & ? & _). done.
  Qed.

  Lemma assign_stored δ g s e v us el p : inv g s -> m_up (me s) = true -> m_els (me s) !! e = Some el -> el_map el = MPend p ->
    e ∉ g_priv g -> (forall j c, m_cbs (me s) !! j = Some c -> cb_el c = e -> cb_called c = false -> j ∈ g_act g) ->
    Forall (quiet δ) us ->
    exists s', el_assign k s e v us = Ok (Some s') /\ inv g s' /\ ext [] g s g s' /\
      stored δ e p (settled p v) (calls v 0 (p_cbq p)) s s'.
  Proof.
    intros Hi Hup He Hm Hpr Hcb Hus. pose proof (el_refs _ _ _ _ _ Hi He Hm) as Hrefs. pose proof (olds_not_self _ _ _ _ _ Hi He Hm) as Hself.
    assert (forall n o, PRefresh n o ∈ p_cbq p -> n = e /\ o <> e) as Hr2.
    { intros n o Hin. destruct (Hrefs n o Hin) as (? & ? & _). done. }
    unfold el_assign, s_el at 1, rd_el. rewrite He. simpl. rewrite Hm.
    set (el1 := with_map el (MVal v)). set (s1 := with_me s (wr_el (me s) e el1)).
    assert (s_upd s e (fun el => with_map el (MVal v)) = Ok s1) as -> by (unfold s_upd, upd_el, rd_el; by rewrite He).
    simpl rbind.
    assert (forall w', inv (with_wait (held (p_cbq p) g) w') s1) as I1.
    { intros w'. apply (inv_upd k g _ s e el); try done; simpl.
      - intros x. unfold el_olds; rewrite Hm; unfold olds_of; simpl. rewrite ?cnt_app, ?cnt_nil. lia.
      - intros q Hq. by apply elem_of_nil in Hq.
      - by left. }
    assert (ext [] g s (hold (p_cbq p) g) s1) as X1.
    { apply (ext_upd [] _ _ _ _ el); try done.
      intros w. unfold el_waits; rewrite Hm; unfold hold; simpl; unfold waits_of; simpl. rewrite ?cnt_app, ?cnt_nil. lia. }
    assert (inv (held (p_cbq p) g) s1) as I1'. { apply (I1 (g_wait g)). }
    assert (inv (hold (p_cbq p) g) s1) as I1''. { apply (I1 (waits_of (p_cbq p) ++ g_wait g)). }
    assert (m_els (me s1) !! e = Some el1) as He1 by (simpl; by rewrite lookup_insert).
    destruct (deliver_ran δ (held (p_cbq p) g) e v (p_cbq p) us s1 el1) as (s2 & E2 & I2 & R2); try done.
    { intros n o Hin. destruct (Hrefs n o Hin) as (-> & Hne & eo & Heo & Hnp). split_and!; try done. exists eo. split; [|done].
      simpl. by rewrite lookup_insert_ne. }
    rewrite E2. simpl rbind.
    pose proof (ran_hold δ e _ _ _ _ _ _ g Hr2 He1 R2) as X2.
    destruct (frees_ends (p_cbq p) g s2 I2) as (E3 & I3 & X3). rewrite E3. simpl rbind. set (s3 := f_frees s2 (p_cbq p)) in *.
    destruct (dl_els_self _ _ Hr2 _ _ He1) as (cn & Hck & Hcn). rewrite <-(r_els _ _ _ _ _ _ R2) in Hcn.
    assert (m_els (me s3) !! e = Some (with_cn el1 cn)) as He3. { unfold s3. by rewrite f_frees_els. }
    unfold s_el, rd_el. rewrite He3. simpl rbind. rewrite settle_eq. simpl rbind.
    destruct (upd_soft k g s3 e (with_cn el1 cn) (fun el => with_map el (settled p v)) I3 He3) as (E4 & I4 & X4).
    { apply soft_map; [apply mode_settled|..]; simpl; unfold settled, m_dead; by destruct (k_pointer k), (p_exp p), (p_weak p). }
    { by left. }
    rewrite E4. simpl. eexists. split; [done|]. split; [done|]. split.
    - eapply ext_trans0; [exact Hi|exact X1|]. eapply ext_trans0; [exact I1''|exact X2|]. eapply ext_trans0; [exact I2|exact X3|exact X4].
    - destruct (f_frees_cs (p_cbq p) s2) as (C1 & C2 & C3 & C4). destruct (f_frees_me (p_cbq p) s2) as (M1 & M2 & M3 & M4 & M5 & M6 & M7 & M8).
      destruct (p_upd_me s3 e (fun el => with_map el (settled p v))) as (P1 & P2 & P3 & P4 & P5 & P6 & P7 & P8).
      destruct R2 as [R1 R2' R3 R4 R5 R6 R7 R8].
      split; rewrite ?p_upd_cs, ?P1, ?P2, ?P3, ?P4, ?P5, ?P6, ?P7; unfold s3; rewrite ?C1, ?C2, ?C3, ?C4, ?M1, ?M2, ?M3, ?M4, ?M5, ?M6, ?M7, ?R1, ?R3, ?R4, ?R5, ?R6, ?R7; try done.
      + apply (clk_congr k δ (me s1) _ (me s2)); try done; fold s3; [rewrite P6|rewrite P7|rewrite P8]; done.
      + exists el, cn. split; [done|]. split. { apply (cn_ok_els _ (m_els (me s1))); [|exact Hck]. intros o Ho. simpl. rewrite lookup_insert_ne; [done|]. by intros <-. }
        rewrite p_upd_lookup, decide_True by done. fold s3. rewrite He3. done.
      + intros x Hx Hn. rewrite p_upd_lookup, decide_False by done. rewrite f_frees_els by done. rewrite R2'.
        rewrite (dl_els_other _ e) by (done || (intros n o Hin; by destruct (Hr2 n o Hin))). simpl. by rewrite lookup_insert_ne.
      + intros x el' Hx. rewrite p_upd_lookup. destruct (decide (x = e)) as [->|Hne]; [done|].
        intros (el0 & H0 & E0)%f_frees_sub. rewrite R2', (dl_els_at _ e) in H0 by done. rewrite decide_True in H0 by done.
        simpl in H0. rewrite lookup_insert_ne in H0 by done. destruct (m_els (me s) !! x) as [ex|]; [|done]. simpl in H0. injection H0 as <-.
        exists ex. done.
  Qed.

  Lemma fail_stored δ g s e x us el p : inv g s -> m_up (me s) = true -> m_els (me s) !! e = Some el -> el_map el = MPend p ->
    e ∉ g_priv g -> (forall j c, m_cbs (me s) !! j = Some c -> cb_el c = e -> cb_called c = false -> j ∈ g_act g) ->
    Forall (quiet δ) us ->
    exists s', el_fail k s e x us = Ok s' /\ inv g s' /\ ext [] g s g s' /\
      stored δ e p (m_settle_error (k_pointer k) x p) (calls 0 x (p_cbq p)) s s'.
  Proof.
    intros Hi Hup He Hm Hpr Hcb Hus. pose proof (el_refs _ _ _ _ _ Hi He Hm) as Hrefs. pose proof (olds_not_self _ _ _ _ _ Hi He Hm) as Hself.
    assert (forall n o, PRefresh n o ∈ p_cbq p -> n = e /\ o <> e) as Hr2.
    { intros n o Hin. destruct (Hrefs n o Hin) as (? & ? & _). done. }
    unfold el_fail, s_el at 1, rd_el. rewrite He. simpl. rewrite Hm.
    destruct (deliver_error_ran δ g e x (p_cbq p) p (p_cbq p)) with (us := us) (s := s) (el := el) as (s2 & E2 & I2 & R2); try done.
    rewrite E2. simpl rbind.
    destruct (ran_ext δ e _ _ _ _ _ _ g Hr2 He R2) as [X2 W2].
    destruct (dl_els_self _ _ Hr2 _ _ He) as (cn & Hck & Hcn). rewrite <-(r_els _ _ _ _ _ _ R2) in Hcn.
    unfold s_el, rd_el. rewrite Hcn. simpl rbind. rewrite Hm.
    set (el2 := with_cn el cn) in *. set (m' := m_settle_error (k_pointer k) x p). set (s3 := with_me s2 (wr_el (me s2) e (with_map el2 m'))).
    assert (s_upd s2 e (fun el => with_map el m') = Ok s3) as -> by (unfold s_upd, upd_el, rd_el; by rewrite Hcn).
    simpl rbind.
    assert (cbq_of m' = []) as Hc' by (unfold m', m_settle_error, m_dead; by destruct (p_exp p || p_weak p), (k_pointer k)).
    assert (m_pending m' = false) as Hp' by (unfold m', m_settle_error, m_dead; by destruct (p_exp p || p_weak p), (k_pointer k)).
    assert (forall w', inv (with_wait (held (p_cbq p) g) w') s3) as I3.
    { intros w'. apply (inv_upd k g _ s2 e el2); try done; simpl.
      - intros y. unfold el_olds; simpl; rewrite Hc', Hm; unfold olds_of; simpl. rewrite ?cnt_app, ?cnt_nil. lia.
      - unfold is_pend, el_pending; simpl. by rewrite Hp'.
      - intros ? ? j c Hc Ee Hcall. eapply Hcb; [|done|done]. by rewrite <-(r_cbs _ _ _ _ _ _ R2).
      - intros q. rewrite Hc'. intros Hq. by apply elem_of_nil in Hq.
      - by left.
      - apply mode_settled_error. }
    assert (ext [] g s2 (hold (p_cbq p) g) s3) as X3.
    { apply (ext_upd [] _ _ _ _ el2); try done.
      - unfold is_pend, el_pending; simpl. by rewrite Hp'.
      - intros w. unfold el_waits; simpl; rewrite Hc', Hm; unfold hold; simpl; unfold waits_of; simpl. rewrite ?cnt_app, ?cnt_nil. lia. }
    assert (inv (held (p_cbq p) g) s3) as I3'. { apply (I3 (g_wait g)). }
    destruct (frees_ends (p_cbq p) g s3 I3') as (E4 & I4 & X4). set (s4 := f_frees s3 (p_cbq p)) in *.
    exists s4. split; [done|]. split; [done|]. split.
    - eapply ext_wait with (g1 := g).
      + eapply ext_trans1; [exact Hi| |exact X4].
        eapply ext_wait with (g1 := hold (p_cbq p) g) (W := waits_of (p_cbq p)).
        * eapply ext_trans1; [exact Hi|exact X2|exact X3].
        * intros w. instantiate (1 := []). pose proof (W2 w) as Hw. 
          pose proof (x_wait _ _ _ _ _ X3 w) as H3. rewrite cnt_nil in *.
          assert (wtot (hold (p_cbq p) g) s3 w = cnt w (waits_of (p_cbq p)) + wtot (held (p_cbq p) g) s3 w) as Hh.
          { unfold wtot; simpl. rewrite cnt_app. lia. }
          lia.
      + intros w. pose proof (W2 w) as Hw. pose proof (x_wait _ _ _ _ _ X3 w) as H3. pose proof (x_wait _ _ _ _ _ X4 w) as H4. rewrite cnt_nil in *.
          assert (wtot (hold (p_cbq p) g) s3 w = cnt w (waits_of (p_cbq p)) + wtot (held (p_cbq p) g) s3 w) as Hh.
          { unfold wtot; simpl. rewrite cnt_app. lia. }
          lia.
    - destruct (f_frees_cs (p_cbq p) s3) as (C1 & C2 & C3 & C4). destruct (f_frees_me (p_cbq p) s3) as (M1 & M2 & M3 & M4 & M5 & M6 & M7 & M8).
      destruct R2 as [R1 R2' R3 R4 R5 R6 R7 R8].
      split; unfold s4; rewrite ?C1, ?C2, ?C3, ?C4, ?M1, ?M2, ?M3, ?M4, ?M5, ?M6, ?M7; unfold s3; simpl; rewrite ?R1, ?R3, ?R4, ?R5, ?R6, ?R7; try done.
      + apply (clk_congr k δ (me s) _ (me s2)); try done; by rewrite ?M6, ?M7, ?M8.
      + exists el, cn. split; [done|]. split; [done|]. rewrite f_frees_els by done. simpl. by rewrite lookup_insert.
      + intros y Hx Hn. rewrite f_frees_els by done. simpl. rewrite lookup_insert_ne by done. rewrite R2'.
        by rewrite (dl_els_other _ e) by (done || (intros n o Hin; by destruct (Hr2 n o Hin))).
      + intros y el' Hx. intros (el0 & H0 & E0)%f_frees_sub. simpl in H0.
        destruct (decide (y = e)) as [->|Hne]; [done|]. rewrite lookup_insert_ne, R2', (dl_els_at _ e) in H0 by done. rewrite decide_True in H0 by done.
        destruct (m_els (me s) !! y) as [ex|]; [|done]. simpl in H0. injection H0 as <-.
        exists ex. done.
  Qed.
End comp.
