(** Lemmas about Hooks.v (for PropertiesHooks.v). *)
From Verif Require Import Base Mapped Cache CachePtr Observe AsioProofs Hooks.

(** Cache.v calls the policies in one of the possible orders *)
Section order.
  Context {C : comp} (k : cfg).
  Lemma rbind_ok {A} (m : res A) : (x <- m;; Ok x) = m.
  Proof. by destruct m. Qed.
  Lemma rbind_assoc {A B D} (m : res A) (f : A -> res B) (g : B -> res D) : (y <- (x <- m;; f x);; g y) = (x <- m;; y <- f x;; g y).
  Proof. by destruct m. Qed.
  Lemma base_invoke_app v ps qs (s : @st C) e : base_invoke k v (ps ++ qs) s e = (s <- base_invoke k v ps s e;; base_invoke k v qs s e).
  Proof.
    revert s. induction ps as [|p ps IH]; intros s; [done|]. simpl. rewrite rbind_assoc. destruct (match hook k v p with Some f => _ | None => _ end); simpl; [apply IH|done..].
  Qed.
  Lemma create_eq (s : @st C) e : base_invoke k PvCreate (pols k) s e = on_create_ k s e.
  Proof.
    unfold pols, on_create_. rewrite !base_invoke_app. destruct (has_queue k); simpl; destruct (k_max_age k), (k_err_age k), (k_refresh k) as [[? ?]|]; simpl; rewrite ?rbind_ok; done.
  Qed.
  Lemma hit_eq (s : @st C) e : base_invoke k PvHit (pols k) s e = on_hit_ k s e.
  Proof.
    unfold pols, on_hit_. rewrite !base_invoke_app. destruct (has_queue k); simpl; destruct (k_max_age k), (k_err_age k), (k_refresh k) as [[? ?]|]; simpl; rewrite ?rbind_ok; try done.
    all: destruct (c_qhit C (cs s) e) as [c| | |]; simpl; try done; destruct (strengthen k (with_cs s c) e); simpl; try done; by rewrite rbind_ok.
  Qed.
  Lemma unlink_eq (s : @st C) e : base_invoke k PvUnlink (pols k) s e = on_unlink_ k s e.
  Proof.
    unfold pols, on_unlink_. rewrite !base_invoke_app. destruct (has_queue k); simpl; destruct (k_max_age k), (k_err_age k), (k_refresh k) as [[? ?]|]; simpl; rewrite ?rbind_ok; try done.
    all: destruct (c_qunlink C (cs s) e) as [c| | |]; simpl; try done; by rewrite rbind_ok.
  Qed.
  Lemma assign_eq (s : @st C) e b : base_invoke k (PvAssign b) (pols k) s e = on_assign_ k s e b.
  Proof.
    unfold pols, on_assign_. rewrite !base_invoke_app. destruct (has_queue k); simpl; destruct (k_max_age k), (k_err_age k), (k_refresh k) as [[? ?]|], b; simpl; rewrite ?rbind_ok; try done.
    all: destruct (on_assign_age k s e _); simpl; try done; by rewrite ?rbind_ok.
  Qed.
End order.

Section swap.
  Context (k : cfg).

  Lemma s_upd_ok (s s' : cache) e f : s_upd s e f = Ok s' <-> exists el, m_els (me s) !! e = Some el /\ s' = with_me s (wr_el (me s) e (f el)).
  Proof. unfold s_upd, upd_el, rd_el. destruct (m_els (me s) !! e) as [el|]; simpl; split; [intros [= <-]; eauto|by intros (? & [= <-] & ->)|done|by intros (? & ? & _)]. Qed.
  Lemma alive_wr (m : mem) e el el' v : m_els m !! e = Some el -> el_map el' = el_map el -> alive (wr_el m e el') v = alive m v.
  Proof.
    intros He Hm. unfold alive. f_equal. apply eq_iff_eq_true. rewrite !strong_in. split; intros (x & ex & Hx & Ev).
    - simpl in Hx. destruct (decide (x = e)) as [->|]; [rewrite lookup_insert in Hx; injection Hx as <-; exists e, el; by rewrite <-Hm|rewrite lookup_insert_ne in Hx by done; eauto].
    - destruct (decide (x = e)) as [->|]; [|exists x, ex; simpl; by rewrite lookup_insert_ne].
      exists e, el'. rewrite He in Hx. injection Hx as <-. simpl. rewrite lookup_insert. by rewrite Hm.
  Qed.
  Lemma wr_wr (m : mem) e a b : wr_el (wr_el m e a) e b = wr_el m e b.
  Proof. unfold wr_el, set_els. simpl. by rewrite insert_insert. Qed.

  Notation call v p s e := (match hook k v p with Some f => f s e | None => Ok s end).
  Lemma bind_ok {A B} (m : res A) (f : A -> res B) b : (x <- m;; f x) = Ok b <-> exists a, m = Ok a /\ f a = Ok b.
  Proof. destruct m; simpl; split; try done; try (by intros (? & ? & ?)); [eauto|intros (? & [= <-] & ?); done]. Qed.

  (** a hit: the queue and the idle timer *)
  Definition hitq (s : cache) e : res cache := c <- c_qhit comp_ptr (cs s) e;; strengthen k (with_cs s c) e.
  Definition hitr (idle : Z) (s : cache) e : res cache :=
    el <- s_el s e;;
    if negb (bool_decide (idle = 0%Z)) && m_holds_value (alive (me s)) (el_map el)
    then s_upd s e (fun el => with_cn el (Some (m_steady (me s) + idle)%Z)) else Ok s.
  Definition strd (m : mem) (el : elem) : elem := with_map el (m_strengthen (k_pointer k) (alive m) (el_map el)).1.
  Lemma hitq_ok (s s' : cache) e : hitq s e = Ok s' <-> exists c el, c_qhit comp_ptr (cs s) e = Ok c /\ m_els (me s) !! e = Some el /\ s' = St c (wr_el (me s) e (strd (me s) el)).
  Proof.
    unfold hitq. rewrite bind_ok. unfold strengthen. split.
    - intros (c & Ec & E). apply s_upd_ok in E as (el & He & ->). exists c, el. done.
    - intros (c & el & Ec & He & ->). exists c. split; [done|]. apply s_upd_ok. exists el. done.
  Qed.
  Definition hitr_el idle (m : mem) (el : elem) : elem :=
    if negb (bool_decide (idle = 0%Z)) && m_holds_value (alive m) (el_map el) then with_cn el (Some (m_steady m + idle)%Z) else el.
  Lemma wr_id (m : mem) e el : m_els m !! e = Some el -> wr_el m e el = m.
  Proof. intros He. unfold wr_el, set_els. rewrite insert_id by done. by destruct m. Qed.
  Lemma hitr_ok idle (s s' : cache) e : hitr idle s e = Ok s' <-> exists el, m_els (me s) !! e = Some el /\ s' = St (cs s) (wr_el (me s) e (hitr_el idle (me s) el)).
  Proof.
    unfold hitr, s_el, rd_el. rewrite bind_ok. split.
    - intros (el & He & E). destruct (m_els (me s) !! e) as [el1|] eqn:Eel; [|done]. injection He as ->. exists el. split; [done|]. unfold hitr_el. destruct (_ && _).
      + apply s_upd_ok in E as (el2 & He2 & ->). rewrite Eel in He2. by injection He2 as <-.
      + injection E as <-. rewrite wr_id by done. by destruct s.
    - intros (el & He & ->). rewrite He. exists el. split; [done|]. unfold hitr_el. destruct (_ && _).
      + apply s_upd_ok. eauto.
      + rewrite wr_id by done. by destruct s.
  Qed.
  Lemma holds_strd (m : mem) e el : m_els m !! e = Some el -> m_holds_value (alive (wr_el m e (strd m el))) (el_map (strd m el)) = m_holds_value (alive m) (el_map el).
  Proof.
    intros He. unfold strd. destruct (el_map el) as [p|v|[v|]|x| |] eqn:Em; simpl; try done; [by destruct (p_strengthen p)|].
    destruct (alive m v) eqn:E; simpl; [done|]. rewrite (alive_wr m e el); [done|done|]. by rewrite Em.
  Qed.
  Lemma strd_wr (m : mem) e el el' : m_els m !! e = Some el -> el_map el' = el_map el -> strd (wr_el m e el') el' = with_map el' (el_map (strd m el)).
  Proof.
    intros He Hm. unfold strd. rewrite Hm. simpl. f_equal. pose proof (fun v => alive_wr m e el el' v He Hm) as Ha. destruct (el_map el) as [p|v|[v|]|x| |]; simpl; try done. by rewrite Ha.
  Qed.
  Lemma hitr_map idle m el : el_map (hitr_el idle m el) = el_map el.
  Proof. unfold hitr_el. by destruct (_ && _). Qed.
  Lemma hit_same idle (m : mem) e el : m_els m !! e = Some el ->
    hitr_el idle (wr_el m e (strd m el)) (strd m el) = strd (wr_el m e (hitr_el idle m el)) (hitr_el idle m el).
  Proof.
    intros He. rewrite (strd_wr m e el) by (try done; apply hitr_map). unfold hitr_el. rewrite holds_strd by done. simpl. by destruct (_ && _).
  Qed.
  Lemma hit_swap1 idle (s s' : cache) e : (s1 <- hitq s e;; hitr idle s1 e) = Ok s' -> (s1 <- hitr idle s e;; hitq s1 e) = Ok s'.
  Proof.
    rewrite !bind_ok. intros (s1 & (c & el & Ec & He & ->)%hitq_ok & (el1 & He1 & ->)%hitr_ok). simpl in He1. rewrite lookup_insert in He1. injection He1 as <-. simpl.
    exists (St (cs s) (wr_el (me s) e (hitr_el idle (me s) el))). split; [apply hitr_ok; eauto|]. apply hitq_ok. exists c, (hitr_el idle (me s) el).
    split_and!; [done|by simpl; rewrite lookup_insert|]. simpl. by rewrite !wr_wr, hit_same.
  Qed.
  Lemma hit_swap2 idle (s s' : cache) e : (s1 <- hitr idle s e;; hitq s1 e) = Ok s' -> (s1 <- hitq s e;; hitr idle s1 e) = Ok s'.
  Proof.
    rewrite !bind_ok. intros (s1 & (el & He & ->)%hitr_ok & (c & el1 & Ec & He1 & ->)%hitq_ok). simpl in He1, Ec. rewrite lookup_insert in He1. injection He1 as <-. simpl.
    exists (St c (wr_el (me s) e (strd (me s) el))). split; [apply hitq_ok; eauto|]. apply hitr_ok. exists (strd (me s) el).
    split; [by simpl; rewrite lookup_insert|]. simpl. by rewrite !wr_wr, hit_same.
  Qed.

  (** an unlinked element leaves the queue and the delay queue *)
  Definition unlq (s : cache) e : res cache := c <- c_qunlink comp_ptr (cs s) e;; Ok (with_cs s c).
  Definition unlr (s : cache) e : res cache := b <- c_dlinked comp_ptr (cs s) e;; if b : bool then c <- c_dunlink comp_ptr (cs s) e;; Ok (with_cs s c) else Ok s.
  Lemma unl_swap (s : cache) e s' : (s1 <- unlq s e;; unlr s1 e) = Ok s' <-> (s1 <- unlr s e;; unlq s1 e) = Ok s'.
  Proof.
    destruct s as [c m]. unfold unlq, unlr. simpl. split; intros H.
    - destruct (Queue.on_unlink (p_q c) e) as [q| | |] eqn:Eq; simpl in H; try done. destruct (LinkedList.is_linked (p_d c) (LinkedList.ElemL e)) as [[]| | |] eqn:El; simpl in H |- *; try done.
      + destruct (LinkedList.unlink (p_d c) (LinkedList.ElemL e)) as [[d x]| | |] eqn:Eu; simpl in H |- *; try done. rewrite Eq. exact H.
      + rewrite Eq. exact H.
    - destruct (LinkedList.is_linked (p_d c) (LinkedList.ElemL e)) as [[]| | |] eqn:El; simpl in H |- *; try done.
      + destruct (LinkedList.unlink (p_d c) (LinkedList.ElemL e)) as [[d x]| | |] eqn:Eu; simpl in H |- *; try done.
        destruct (Queue.on_unlink (p_q c) e) as [q| | |] eqn:Eq; simpl in H |- *; try done. rewrite El. simpl. rewrite Eu. exact H.
      + destruct (Queue.on_unlink (p_q c) e) as [q| | |] eqn:Eq; simpl in H |- *; try done. rewrite El. exact H.
  Qed.

  (** an assignment: ages and refresh time *)
  Lemma tp_min_comm3 a b c : tp_min (tp_min a b) c = tp_min (tp_min a c) b.
  Proof. destruct a, b, c; simpl; f_equal; lia. Qed.
  Definition aged (m : mem) (d : Z) (el : elem) : elem :=
    with_exp el (tp_min (el_xw el) (Some (m_wall m + d)%Z)) (if k_steady k then el_xs el else tp_min (el_xs el) (Some (m_steady m + d)%Z)).
  Lemma age_ok (s s' : cache) e d : on_assign_age k s e d = Ok s' <-> exists el, m_els (me s) !! e = Some el /\ s' = St (cs s) (wr_el (me s) e (aged (me s) d el)).
  Proof. unfold on_assign_age. rewrite s_upd_ok. done. Qed.
  Definition timed (m : mem) (delay idle : Z) (el : elem) : elem :=
    let el := with_rf el (m_steady m + delay)%Z in if bool_decide (idle = 0%Z) then el else with_cn el (tp_min (el_cn el) (Some (m_steady m + idle)%Z)).
  Lemma time_ok (s s' : cache) e delay idle : on_assign_refresh s e delay idle = Ok s' <->
    exists el c, m_els (me s) !! e = Some el /\ c_dlink comp_ptr (cs s) e = Ok c /\ s' = St c (wr_el (me s) e (timed (me s) delay idle el)).
  Proof.
    unfold on_assign_refresh, timed. rewrite bind_ok. split.
    - intros (s1 & (el & He & ->)%s_upd_ok & E). apply bind_ok in E as (c & Ec & E). exists el, c. split_and!; [done|done|]. destruct (bool_decide (idle = 0%Z)); [injection E as <-; done|].
      apply s_upd_ok in E as (el1 & He1 & ->). simpl in He1. rewrite lookup_insert in He1. injection He1 as <-. unfold with_me, with_cs. simpl. by rewrite wr_wr.
    - intros (el & c & He & Ec & ->). eexists. split; [apply s_upd_ok; eauto|]. apply bind_ok. exists c. split; [done|]. destruct (bool_decide (idle = 0%Z)); [done|].
      apply s_upd_ok. simpl. eexists. split; [apply lookup_insert|]. unfold with_me, with_cs. simpl. by rewrite wr_wr.
  Qed.
  Lemma age_age (s s' : cache) e d d' : (s1 <- on_assign_age k s e d;; on_assign_age k s1 e d') = Ok s' -> (s1 <- on_assign_age k s e d';; on_assign_age k s1 e d) = Ok s'.
  Proof.
    rewrite !bind_ok. intros (s1 & (el & He & ->)%age_ok & (el1 & He1 & ->)%age_ok). simpl in He1. rewrite lookup_insert in He1. injection He1 as <-.
    eexists. split; [apply age_ok; eauto|]. apply age_ok. simpl. eexists. split; [apply lookup_insert|]. rewrite !wr_wr. do 2 f_equal. unfold aged. simpl.
    unfold with_exp. simpl. rewrite (tp_min_comm3 (el_xw el)). by destruct (k_steady k); [|rewrite (tp_min_comm3 (el_xs el))].
  Qed.
  Lemma age_time (s s' : cache) e d delay idle : (s1 <- on_assign_age k s e d;; on_assign_refresh s1 e delay idle) = Ok s' <-> (s1 <- on_assign_refresh s e delay idle;; on_assign_age k s1 e d) = Ok s'.
  Proof.
    assert (forall el, timed (me s) delay idle (aged (me s) d el) = aged (me s) d (timed (me s) delay idle el)) as Hsame.
    { intros el. unfold timed, aged. by destruct (bool_decide (idle = 0%Z)). }
    rewrite !bind_ok. split.
    - intros (s1 & (el & He & ->)%age_ok & (el1 & c & He1 & Ec & ->)%time_ok). simpl in He1, Ec. rewrite lookup_insert in He1. injection He1 as <-.
      eexists. split; [apply time_ok; exists el, c; eauto|]. apply age_ok. simpl. eexists. split; [apply lookup_insert|]. rewrite !wr_wr. do 2 f_equal. exact (Hsame el).
    - intros (s1 & (el & c & He & Ec & ->)%time_ok & (el1 & He1 & ->)%age_ok). simpl in He1. rewrite lookup_insert in He1. injection He1 as <-.
      eexists. split; [apply age_ok; eauto|]. apply time_ok. simpl. eexists _, c. split; [apply lookup_insert|]. split; [done|]. rewrite !wr_wr. do 2 f_equal. symmetry. exact (Hsame el).
  Qed.

  Definition is_refresh (p : pol) : bool := match p with PolRefresh _ _ => true | _ => false end.
  Lemma swap v p q (s s' : cache) e : is_refresh p && is_refresh q = false -> (s1 <- call v p s e;; call v q s1 e) = Ok s' -> (s1 <- call v q s e;; call v p s1 e) = Ok s'.
  Proof.
    intros Hr H. destruct v as [| | |b], p as [|ev d|delay idle|], q as [|ev' d'|delay' idle'|]; simpl in *; try done; rewrite ?rbind_ok in *; try done.
    - by apply (hit_swap1 idle').
    - by apply (hit_swap2 idle).
    - by apply (unl_swap s e).
    - by apply (unl_swap s e).
    - destruct (bool_decide (b = ev)), (bool_decide (b = ev')); simpl in *; rewrite ?rbind_ok in *; try done. by apply age_age.
    - destruct b, (bool_decide (_ = ev)); simpl in *; rewrite ?rbind_ok in *; try done. by apply (age_time s s' e d).
    - destruct b, (bool_decide (_ = ev')); simpl in *; rewrite ?rbind_ok in *; try done. by apply (age_time s s' e d').
  Qed.
  Lemma any_order v ps ps' : Permutation ps ps' -> length (filter (fun p => is_refresh p = true) ps) <= 1 ->
    forall (s s' : cache) e, base_invoke k v ps s e = Ok s' -> base_invoke k v ps' s e = Ok s'.
  Proof.
    induction 1 as [|p ps ps' P IH|p q ps|ps1 ps2 ps3 P1 IH1 P2 IH2]; intros H1 s s' e R; [done| | |].
    - simpl in *. apply bind_ok in R as (s1 & E & R). rewrite E. simpl. apply IH; [|done]. rewrite filter_cons in H1. destruct (decide _); simpl in H1; lia.
    - simpl in *. rewrite <-rbind_assoc in *. apply bind_ok in R as (s1 & E & R). apply bind_ok. exists s1. split; [|done]. apply swap; [|done].
      rewrite !filter_cons in H1. destruct (is_refresh p), (is_refresh q); try done. simpl in H1. lia.
    - apply IH2; [|by apply IH1]. by rewrite <-P1.
  Qed.
End swap.

(** ** Building the table *)
Lemma init_ok ps : forall i, ~ In Throws ps -> exists r, invoke_init i ps = Ok r /\ forall j, j ∈ r <-> i <= j /\ ps !! (j - i) = Some Starts.
Proof.
  induction ps as [|p ps IH]; intros i Hn.
  - exists []. split; [done|]. intros j. split; [by intros ?%not_elem_of_nil|]. by rewrite lookup_nil; intros [_ ?].
  - destruct (IH (S i)) as (r & E & Hr); [intros ?; apply Hn; by right|].
    assert (forall j, i <= j -> j <> i -> (p :: ps) !! (j - i) = ps !! (j - S i)) as Hsh. { intros j ? ?. replace (j - i) with (S (j - S i)) by lia. done. }
    destruct p; simpl; [| |by destruct Hn; left].
    + exists r. split; [done|]. intros j. rewrite Hr. split; [intros [? Hj]; rewrite Hsh by lia; by split; [lia|]|].
      intros [? Hj]. destruct (decide (j = i)) as [->|]; [by rewrite Nat.sub_diag in Hj|]. rewrite Hsh in Hj by lia. split; [lia|done].
    + exists (i :: r). rewrite E. split; [done|]. intros j. rewrite elem_of_cons, Hr. split.
      * intros [->|[? Hj]]; [by rewrite Nat.sub_diag|]. rewrite Hsh by lia. split; [lia|done].
      * intros [? Hj]. destruct (decide (j = i)) as [->|]; [by left|right]. rewrite Hsh in Hj by lia. split; [lia|done].
Qed.
Lemma destroy_all ps : forall i r j, j ∈ invoke_destroy i ps r <-> j ∈ r /\ ~ (i <= j /\ exists p, ps !! (j - i) = Some p /\ p <> NoInit).
Proof.
  induction ps as [|p ps IH]; intros i r j.
  - simpl. split; [intros ?; split; [done|]; intros (_ & p & Hp & _); by rewrite lookup_nil in Hp|tauto].
  - assert ((p :: ps) !! (j - i) = if decide (j = i) then Some p else if decide (i <= j) then ps !! (j - S i) else Some p) as Hl.
    { destruct (decide (j = i)) as [->|]; [by rewrite Nat.sub_diag|]. destruct (decide (i <= j)); [by replace (j - i) with (S (j - S i)) by lia|by replace (j - i) with 0 by lia]. }
    rewrite Hl. destruct p; simpl; rewrite IH, ?elem_of_list_filter; split.
    + intros [H1 H2]. split; [done|]. intros (H3 & p & H4 & H5). destruct (decide (j = i)); [by injection H4 as <-|]. rewrite decide_True in H4 by done. apply H2. split; [lia|eauto].
    + intros [H1 H2]. split; [done|]. intros (H3 & p & H4 & H5). apply H2. rewrite decide_False, decide_True by lia. split; [lia|eauto].
    + intros [[H1 H2] H3]. split; [done|]. intros (H4 & p & H5 & H6). rewrite decide_False in H5 by done. rewrite decide_True in H5 by done. apply H3. split; [lia|eauto].
    + intros [H1 H2]. split; [split; [|done]|]; [intros ->; apply H2; rewrite decide_True by done; split; [lia|]; by exists Starts|].
      intros (H3 & p & H4 & H5). apply H2. rewrite decide_False, decide_True by lia. split; [lia|eauto].
    + intros [[H1 H2] H3]. split; [done|]. intros (H4 & p & H5 & H6). rewrite decide_False in H5 by done. rewrite decide_True in H5 by done. apply H3. split; [lia|eauto].
    + intros [H1 H2]. split; [split; [|done]|]; [intros ->; apply H2; rewrite decide_True by done; split; [lia|]; by exists Throws|].
      intros (H3 & p & H4 & H5). apply H2. rewrite decide_False, decide_True by lia. split; [lia|eauto].
Qed.
Lemma built_ok ps : ~ In Throws ps -> exists r, construct ps = Ok (Built r) /\ (forall j, j ∈ r <-> ps !! j = Some Starts) /\ destruct_table ps (Built r) = [].
Proof.
  intros Hn. destruct (init_ok ps 0 Hn) as (r & E & Hr). exists r. unfold construct. rewrite E. split; [done|].
  assert (forall j, j ∈ r <-> ps !! j = Some Starts) as Hr'. { intros j. rewrite Hr, Nat.sub_0_r. split; [by intros [_ ?]|intros ?; split; [lia|done]]. }
  split; [done|]. simpl. destruct (invoke_destroy 0 ps r) as [|j l] eqn:Ed; [done|exfalso].
  assert (j ∈ invoke_destroy 0 ps r) as Hj by (rewrite Ed; left). apply destroy_all in Hj as [H1 H2]. apply H2. rewrite Nat.sub_0_r. split; [lia|]. exists Starts. split; [by apply Hr'|done].
Qed.

Lemma invoke_other k v n (s : cache) e : base_invoke k v (replicate n PolOther) s e = Ok s.
Proof. induction n as [|n IH]; [done|]. by destruct v; simpl. Qed.
Lemma cache_order k v n ps (s s' : cache) e : Permutation (pols k ++ replicate n PolOther) ps -> base_invoke k v ps s e = Ok s' <->
  match v with PvCreate => on_create_ k s e | PvHit => on_hit_ k s e | PvUnlink => on_unlink_ k s e | PvAssign b => on_assign_ k s e b end = Ok s'.
Proof.
  intros P. assert (base_invoke k v (pols k ++ replicate n PolOther) s e = match v with PvCreate => on_create_ k s e | PvHit => on_hit_ k s e | PvUnlink => on_unlink_ k s e | PvAssign b => on_assign_ k s e b end) as <-.
  { rewrite base_invoke_app. destruct v; rewrite ?create_eq, ?hit_eq, ?unlink_eq, ?assign_eq; [destruct (on_create_ k s e)|destruct (on_hit_ k s e)|destruct (on_unlink_ k s e)|destruct (on_assign_ k s e value)]; simpl; try done; by rewrite invoke_other. }
  assert (length (filter (fun p => is_refresh p = true) (pols k ++ replicate n PolOther)) <= 1) as Hl.
  { rewrite filter_app, app_length. assert (filter (fun p => is_refresh p = true) (replicate n PolOther) = []) as -> by (clear; induction n; [done|simpl; rewrite filter_cons; by rewrite decide_False]).
    unfold pols. rewrite !filter_app, !app_length. destruct (has_queue k), (k_max_age k), (k_err_age k), (k_refresh k) as [[? ?]|]; simpl; rewrite ?filter_cons, ?filter_nil; simpl; lia. }
  split; intros R; eapply any_order; try exact R; [by symmetry|by rewrite <-P|done|done].
Qed.
