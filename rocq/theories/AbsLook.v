(** What lookups see. *)
From stdpp Require Import sorting.
From Verif Require Import Base AQueue ATable BasicHashtable QueueProofs BasicHashtableProofs ContainersProofs Mapped Cache CacheAbs CompSim CacheSim AbsInv AbsPrim AbsPrim2 AbsSweep AbsOps AbsComp Trace AbsTrace TraceInv Delay AbsTraceCb Histories AbsResolve AbsStep.

Lemma firstv_ext f f' M : (forall x, x ∈ M -> f x = f' x) -> firstv f M = firstv f' M.
Proof.
  induction M as [|e M IH]; intros H; simpl; [done|]. rewrite <-(H e) by left. rewrite IH; [done|]. intros x Hx. apply H. by right.
Qed.
Lemma firstv_app f M1 M2 : firstv f (M1 ++ M2) = match firstv f M1 with R0 => firstv f M2 | r => r end.
Proof. induction M1 as [|e M IH]; simpl; [done|]. by destruct (f e). Qed.
Lemma firstv_none f M : (forall x, x ∈ M -> f x = R0) -> firstv f M = R0.
Proof. induction M as [|e M IH]; intros H; simpl; [done|]. rewrite (H e) by left. apply IH. intros x Hx. apply H. by right. Qed.
Lemma firstv_none_inv f M : firstv f M = R0 -> forall x, x ∈ M -> f x = R0.
Proof.
  induction M as [|e M IH]; simpl; intros H x Hx; [by apply not_elem_of_nil in Hx|]. destruct (f e) eqn:E; try done.
  apply elem_of_cons in Hx as [->|Hx]; [done|by apply IH].
Qed.
Lemma firstv_split f M r : firstv f M = r -> r <> R0 -> exists l1 x l2, M = l1 ++ x :: l2 /\ f x = r /\ forall y, y ∈ l1 -> f y = R0.
Proof.
  induction M as [|e M IH]; simpl; intros H Hr; [by subst|]. destruct (f e) eqn:E.
  - destruct (IH H Hr) as (l1 & x & l2 & -> & E' & Hl). exists (e :: l1), x, l2. split_and!; try done.
    intros y [->|Hy]%elem_of_cons; [done|by apply Hl].
  - exists [], e, M. split_and!; [done|congruence|by intros y ?%elem_of_nil].
  - exists [], e, M. split_and!; [done|congruence|by intros y ?%elem_of_nil].
  - exists [], e, M. split_and!; [done|congruence|by intros y ?%elem_of_nil].
Qed.
Lemma firstv_filter f M (P : N -> Prop) `{forall x, Decision (P x)} :
  firstv f (filter P M) = firstv (fun x => if decide (P x) then f x else R0) M.
Proof.
  induction M as [|e M IH]; simpl; [done|]. case_decide as D.
  - rewrite filter_cons_True by done. simpl. by rewrite IH.
  - rewrite filter_cons_False by done. by rewrite IH.
Qed.
Lemma firstv_rm f M e : f e = R0 -> firstv f (rm e M) = firstv f M.
Proof.
  intros He. unfold rm. rewrite firstv_filter. apply firstv_ext. intros x _. case_decide as D; [done|].
  destruct (decide (x = e)) as [->|]; [done|tauto].
Qed.

Section look.
  Context (k : cfg).
  Notation inv := (inv k).
  Notation mini := (mini k).
  Notation path := (path k).
  Notation J := (J k).
  Notation tame := (tame k).
  Notation free := (fun κ => κ = KFree).

  (** what a lookup reads from an entry of its key *)
  Definition vis (m : mem) (incl : bool) (el : elem) : mres :=
    match el_map el with
    | MVal v => if late m el then R0 else RV v
    | MPend p => if incl && negb (p_exp p) then RP else R0
    | _ => R0
    end.
  Lemma vis_eq m incl el : tame_map k (el_map el) -> (el_pending el = true -> late m el = false) ->
    (if el_expired k m el then R0 else m_get (alive m) incl (el_map el)) = vis m incl el.
  Proof.
    intros [Hw _] Hp. unfold el_expired, vis. unfold el_pending in Hp. unfold late in *. simpl.
    destruct (el_map el) as [p|v|[v|]|x| |] eqn:E; simpl in *.
    - specialize (Hp eq_refl). apply orb_false_iff in Hp as [[-> ->]%orb_false_iff ->]. destruct (p_exp p); simpl; [by rewrite andb_false_r|]. by destruct incl.
    - done.
    - by destruct (Hw v).
    - done.
    - done.
    - done.
    - by destruct (k_pointer k || false || _ || _ || _).
  Qed.
  Lemma el_expired_rc m el n : el_expired k m (with_rc el n) = el_expired k m el.
  Proof. done. Qed.
  Lemma J_late (s : sta) x el : J s -> tv s x = Some el -> el_pending el = true -> late (me s) el = false.
  Proof. intros HJ Hx Hp. destruct (j_pc _ _ HJ x el Hx Hp) as (E1 & E2 & E3 & _). unfold late. by rewrite E1, E2, E3. Qed.

  Definition cand (s : sta) (key : Z) (incl : bool) (x : N) : mres :=
    match tv s x with Some el => if k_eq k (el_key el) key then vis (me s) incl el else R0 | None => R0 end.
  Definition looki (s : sta) (key : Z) (incl : bool) : mres := firstv (cand s key incl) (hseq s (k_hash k key)).

  Lemma ans_cand g s key incl x : tame -> inv g s -> a_torn (cs s) = None -> J s -> x ∈ tab s ->
    ans k s (k_hash k key) key incl x = if decide (a_hash (cs s) !! x = Some (k_hash k key)) then cand s key incl x else R0.
  Proof.
    intros Ht Hi Hn HJ Hx. destruct (i_tab _ _ _ Hi x) as [el Hel]; [by apply tab_LT|]. unfold ans, cand.
    rewrite (i_hash _ _ _ Hi x el) by (done || by apply tab_LT). rewrite Hel, (tv_some s x el) by done. simpl.
    pose proof (j_tame _ _ HJ x _ Ht (tv_some s x el Hx Hel)) as Hw.
    pose proof (vis_eq (me s) incl (with_rc el 0) Hw (J_late s x _ HJ (tv_some s x el Hx Hel))) as V. rewrite <-V. simpl.
    destruct (decide (k_hash k (el_key el) = k_hash k key)) as [E|E].
    - rewrite decide_True, bool_decide_true by congruence. simpl. destruct (k_eq k (el_key el) key); simpl; [|done].
      rewrite el_expired_rc. by destruct (el_expired k (me s) el).
    - rewrite decide_False, bool_decide_false by congruence. done.
  Qed.

  (** the entries with hash [h] are in one bucket *)
  Lemma hseq_bucket g s h : inv g s -> a_torn (cs s) = None -> hseq s h = filter (fun x => a_hash (cs s) !! x = Some h) (bucket s h).
  Proof.
    intros Hi Ht. unfold hseq, bucket, tab. set (Bs := a_bs (cs s)) in *. set (b := bidx (length Bs) h).
    assert (concat Bs = concat (take b Bs) ++ at_bucket Bs b ++ concat (drop (S b) Bs)) as Ec.
    { rewrite app_assoc, <-concat_take_S, <-concat_app, take_drop. done. }
    assert (forall i B x, Bs !! i = Some B -> x ∈ B -> a_hash (cs s) !! x = Some h -> i = b) as Hp.
    { intros i B x HB Hx Hh. destruct (i_tab _ _ _ Hi x) as [el Hel].
      { apply tab_LT; [done|]. apply elem_of_list_In, in_concat. exists B. split; apply elem_of_list_In; [by eapply elem_of_list_lookup_2|done]. }
      assert (x ∈ LT g (cs s)) as HL.
      { apply tab_LT; [done|]. apply elem_of_list_In, in_concat. exists B. split; apply elem_of_list_In; [by eapply elem_of_list_lookup_2|done]. }
      rewrite (i_hash _ _ _ Hi x el HL Hel) in Hh. injection Hh as Hh. rewrite <-(i_place _ _ _ Hi i B x el Ht HB Hx Hel). by rewrite Hh. }
    rewrite Ec, !filter_app. 
    assert (filter (fun x => a_hash (cs s) !! x = Some h) (concat (take b Bs)) = []) as ->.
    { apply elem_of_nil_inv. intros x [Hh Hx]%elem_of_list_filter. destruct (elem_concat_inv _ _ Hx) as (i & B & HB & HxB). apply lookup_take_Some in HB as [HB Hlt].
      pose proof (Hp _ _ _ HB HxB Hh). lia. }
    assert (filter (fun x => a_hash (cs s) !! x = Some h) (concat (drop (S b) Bs)) = []) as ->.
    { apply elem_of_nil_inv. intros x [Hh Hx]%elem_of_list_filter. destruct (elem_concat_inv _ _ Hx) as (i & B & HB & HxB). rewrite lookup_drop in HB.
      pose proof (Hp _ _ _ HB HxB Hh). lia. }
    by rewrite app_nil_r.
  Qed.
  Lemma lookup_look g s key : tame -> inv g s -> a_torn (cs s) = None -> J s -> p_lookup k s key = looki s key false.
  Proof.
    intros Ht Hi Hn HJ. unfold p_lookup, looki. rewrite (hseq_bucket g) by done. rewrite firstv_filter. apply firstv_ext.
    intros x Hx. apply (ans_cand g); try done. by eapply bucket_in.
  Qed.

  (** the lookup that cleans up *)
  Lemma tame_map_get (m m' : mem) el incl : tame_map k (el_map el) -> m_wall m = m_wall m' -> m_steady m = m_steady m' ->
    el_expired k m el = el_expired k m' el /\ m_get (alive m) incl (el_map el) = m_get (alive m') incl (el_map el).
  Proof.
    intros [Hw _] E1 E2. unfold el_expired. rewrite E1, E2. destruct (el_map el) as [p|v|[v|]|x| |]; try done. by destruct (Hw v).
  Qed.
  Lemma fsw_firstv g hash key incl M : forall s, inv g s -> a_torn (cs s) = None -> NoDup M -> (forall e, e ∈ M -> e ∈ tab s) ->
    (forall e el, e ∈ M -> m_els (me s) !! e = Some el -> tame_map k (el_map el)) ->
    match (fsw k (fun s _ => s) (va_get k hash key incl) M s).2 with Some (_, r) => r | None => R0 end = firstv (ans k s hash key incl) M.
  Proof.
    induction M as [|x M IH]; intros s Hi Ht Hnd Hin Htm; simpl; [done|]. apply NoDup_cons in Hnd as [HxM Hnd].
    assert (x ∈ tab s) as Hx by (apply Hin; by left). destruct (i_tab _ _ _ Hi x) as [el Hel]; [by apply tab_LT|].
    unfold va_get at 1. destruct (gone k s x) eqn:Eg.
    - pose proof (gone_nopend k _ _ _ Hel Eg) as Hnp. destruct (f_rem_bs k _ _ _ Hel Hnp) as [Eb Et].
      destruct (rem_ends k g s x el) as (_ & I2 & _); try done.
      assert (forall y, y <> x -> m_els (me (f_rem k s x)) !! y = m_els (me s) !! y) as Ey by (intros y Hy; by apply (f_rem_els k _ _ _ _ Hel Hnp)).
      rewrite (IH (f_rem k s x)); [|done|by rewrite Et|done|..].
      3: { intros y ely Hy. rewrite Ey by (intros ->; done). intros E. eapply Htm; [by right|exact E]. }
      2: { intros y Hy. unfold tab. rewrite Eb, at_unlink_elems. apply elem_of_list_filter. split; [intros ->; done|apply Hin; by right]. }
      assert (ans k s hash key incl x = R0) as ->.
      { unfold ans. destruct (a_hash (cs s) !! x); [|done]. rewrite Hel. unfold gone in Eg. rewrite Hel in Eg. apply andb_true_iff in Eg as [-> _].
        simpl. by rewrite andb_false_r. }
      apply firstv_ext. intros y Hy. assert (y <> x) as Hne by (intros ->; done).
      unfold ans. rewrite Ey by done. rewrite (f_rem_settled k _ _ _ Hel Hnp). rewrite f_dec_hash by done. simpl.
      set (s1 := with_cs s _). destruct (a_hash (cs s) !! y); [|done]. destruct (m_els (me s) !! y) as [ely|] eqn:Hy'; [|done].
      destruct (rest_dec s1 x) as [_ _ Q1 Q2 _ _ _]. simpl in Q1, Q2.
      destruct (tame_map_get (me (f_dec s1 x)) (me s) ely incl) as [-> ->]; try done. apply (Htm y); [by right|done].
    - destruct (ans k s hash key incl x) eqn:Ea; try done. apply IH; try done.
      + intros y Hy. apply Hin. by right.
      + intros y ely Hy. apply Htm. by right.
  Qed.
  Lemma find_look g s key incl : tame -> inv g s -> a_torn (cs s) = None -> J s ->
    match (f_find k s key incl).2 with Some (_, r) => r | None => R0 end = looki s key incl.
  Proof.
    intros Ht Hi Hn HJ. unfold f_find. rewrite (fsw_firstv g); try done.
    - unfold looki. rewrite (hseq_bucket g) by done. rewrite firstv_filter. apply firstv_ext. intros x Hx. apply (ans_cand g); try done. by eapply bucket_in.
    - by eapply bucket_nodup.
    - intros e. apply bucket_in.
    - intros e el He Hel. apply (j_tame _ _ HJ e (with_rc el 0) Ht). apply tv_some; [by eapply bucket_in|done].
  Qed.

  (** nothing may still be found *)
  Lemma vis_hope m incl el : hopeful (el_map el) = false -> vis m incl el = R0.
  Proof. unfold vis. destruct (el_map el) as [p| | | | |]; try done. simpl. intros ->. by rewrite andb_false_r. Qed.
  Lemma nohope_look g s key incl : inv g s -> a_torn (cs s) = None -> nohope k s key -> looki s key incl = R0.
  Proof.
    intros Hi Ht Hn. apply firstv_none. intros x Hx. unfold cand. destruct (tv s x) as [el|] eqn:E; [|done].
    destruct (k_eq k (el_key el) key) eqn:Ek; [|done]. apply vis_hope. apply (Hn x el E). split; [|done].
    apply tv_elim in E as (Ht' & el0 & Hel & ->). simpl. pose proof (i_hash _ _ _ Hi x el0 ltac:(by apply tab_LT) Hel) as Hh.
    apply elem_of_list_filter in Hx as [Hx _]. congruence.
  Qed.

  (** ** Changes that do not change what lookups of a key see *)
  Notation ages_ok := (ages_ok k).
  Definition other (key key' : Z) : Prop := k_eq k key' key = false /\ (forall a, k_eq k a key' = true -> k_eq k a key = false).
  (** values have no deadline *)
  Definition ageless : Prop := k_max_age k = None /\ k_refresh k = None.
  Definition harmless (s : sta) (key : Z) (incl : bool) (κ : kind) : Prop :=
    match κ with
    | KFree | KWait _ _ | KPop _ | KLet _ => True
    | KEvict key' live => live = true -> k_eq k key' key = false
    | KClear => False
    | KTime δ => δ = Still \/ ageless
    | KErase key' => other key key'
    | KHit _ => forall d i, k_refresh k = Some (d, i) -> (0 <= i)%Z
    | KEnter key' _ o => k_eq k key' key = false \/ incl = false /\ o = None \/ looki s key incl <> R0
    | KRefresh key' _ => k_eq k key' key = false
    | KDone i _ δ => (forall c, m_cbs (me s) !! i = Some c -> δ = Still \/ ageless) /\ (forall c el, m_cbs (me s) !! i = Some c -> tv s (cb_el c) = Some el -> k_eq k (el_key el) key = false)
    | KCancel i => incl = false \/ (forall c el, m_cbs (me s) !! i = Some c -> tv s (cb_el c) = Some el -> k_eq k (el_key el) key = false)
    end.
  Lemma vis_clk (m m' : mem) incl el : m_wall m' = m_wall m -> m_steady m' = m_steady m -> vis m' incl el = vis m incl el.
  Proof. intros E1 E2. unfold vis, late. by rewrite E1, E2. Qed.
  Lemma harmless_still s s' key incl κ : body k s s' κ -> harmless s key incl κ -> drift_of κ = Still \/ ageless.
  Proof.
    intros HB. destruct κ; simpl; try done; [tauto|..| ]; try tauto. intros [Hd _].
    inversion HB as [? [?|[[? ?]|[[? ?]|[? ?]]]]|? ? ? ? ? Hc| | |]; subst; try done; [by inversion Hc|]. by eapply Hd.
  Qed.
  Lemma mini_look κ s s' key incl : tame -> J s -> mini κ s s' -> harmless s key incl κ -> looki s' key incl = looki s key incl.
  Proof.
    intros Htm HJ [Hup _ Hck _ HB] Hh. destruct Hck as (_ & _ & Hck).
    assert (forall x el, tv s x = Some el -> vis (me s') incl el = vis (me s) incl el) as Hvis.
    { intros x el T. destruct (harmless_still _ _ _ _ _ HB Hh) as [E|[E1 E2]]; [destruct (Hck E) as (Ew & Es & _); by apply vis_clk|].
      unfold vis. destruct (el_map el) eqn:Em; try done. destruct (j_val _ _ HJ x el E1 T) as [X1 X2]; [by rewrite Em|]. destruct (j_cn _ _ HJ x el E2 T) as [X3 _].
      unfold late. by rewrite X1, X2, X3. }
    assert (forall x, tv s' x = tv s x -> cand s' key incl x = cand s key incl x) as Hsame.
    { intros x E. unfold cand. rewrite E. destruct (tv s x) as [el|] eqn:T; [|done]. by rewrite (Hvis x el T). }
    assert (forall e, (forall x, x <> e -> tv s' x = tv s x) -> (forall h, hseq s' h = hseq s h) -> cand s' key incl e = cand s key incl e -> looki s' key incl = looki s key incl) as Hone.
    { intros e H1 H2 H3. unfold looki. rewrite H2. apply firstv_ext. intros x _. destruct (decide (x = e)) as [->|]; [done|]. by apply Hsame, H1. }
    destruct HB as [κ _ Hv Hq _ _|κ e el o T Hc T' Hv Hq _|e key' cl mp T Hn _ Hmp T' Hv Hq _ _ _|i c e el p o x cn δ Hc Hcc Hce T Em _ T' Hv Hq _ _ _|i c e el p Hc Hcc Hce T Em T' Hv Hq _].
    - unfold looki. rewrite Hq. apply firstv_ext. intros x _. by apply Hsame.
    - destruct o as [el'|].
      + apply (Hone e); [done|done|]. unfold cand. rewrite T, T'. destruct (chg_facts k _ _ _ _ _ Hc) as (-> & _).
        destruct (k_eq k (el_key el) key) eqn:Ek; [|done].
        assert (vis (me s') incl el' = vis (me s) incl el') as ->. { destruct Hck as (Ew & Es & _); [by inversion Hc|]. by apply vis_clk. }
        pose proof (j_tame _ _ HJ e el Htm T) as [Htw _].
        inversion Hc; subst; simpl in Hh; try done.
        * destruct Hh as [_ Hh]. exfalso. match goal with H : k_eq k (el_key el) key0 = true |- _ => by rewrite (Hh _ H) in Ek end.
        * destruct (m_live (el_map el)) eqn:L; [by rewrite (Hh eq_refl) in Ek|]. unfold vis, marked, m_mark_expired, m_dead. simpl. destruct (el_map el) as [p|v|[v|]|y| |]; try done; try (by destruct (k_pointer k)).
          simpl in L. apply negb_false_iff in L. simpl. by rewrite L.
        * destruct (m_live (el_map el)) eqn:L; [by rewrite (Hh eq_refl) in Ek|]. unfold vis, m_weaken. simpl. by destruct (el_map el), (k_pointer k).
        * unfold vis, late, with_map, m_strengthen. simpl. destruct (el_map el) as [p|v|[v|]|y| |]; try done; [|by destruct (Htw v)].
          unfold p_strengthen. destruct (p_exp p) eqn:Ep; simpl; by rewrite ?Ep.
        * assert (el_expired k (me s) el = false) as Hx by done. unfold vis. simpl. unfold el_expired in Hx.
          match goal with H : k_refresh k = Some _ |- _ => pose proof (Hh _ _ H) as Hidle end.
          destruct (el_map el) as [p|v|o|y| |]; try done. unfold late. simpl in *.
          rewrite !orb_false_iff in Hx. destruct Hx as [[-> ->] ->]. simpl. by rewrite bool_decide_false by lia.
        * unfold vis. simpl. match goal with H : el_map el = _ |- _ => by rewrite H end.
        * congruence.
        * congruence.
        * congruence.
      + unfold looki. rewrite Hq. rewrite <-(firstv_rm (cand s key incl) _ e).
        * apply firstv_ext. intros x Hx. apply Hsame, Hv. unfold rm in Hx. apply elem_of_list_filter in Hx. tauto.
        * unfold cand. rewrite T. destruct (k_eq k (el_key el) key) eqn:Ek; [|done]. inversion Hc; subst; simpl in Hh; try done.
          -- rewrite <-vis_eq; [by match goal with H : el_expired _ _ _ = true |- _ => rewrite H end|apply (j_tame _ _ HJ e el Htm T)|].
             by apply (J_late s e el).
          -- destruct Hh as [_ Hh]. match goal with H : k_eq k (el_key el) key0 = true |- _ => by rewrite (Hh _ H) in Ek end.
    - unfold looki. rewrite Hq, firstv_app. rewrite (firstv_ext (cand s' key incl) (cand s key incl)).
      2: { intros x Hx. apply Hsame, Hv. intros ->. by apply (Hn (k_hash k key)). }
      simpl in Hh. destruct (firstv (cand s key incl) (hseq s (k_hash k key))) eqn:El; try done.
      case_decide as D; [|done]. simpl. assert (cand s' key incl e = R0) as ->; [|done].
      unfold cand. rewrite T'. destruct (born_facts k (me s) key' mp) as (-> & Em & _).
      destruct Hh as [-> |[[-> Ho]|Hl]]; [done| |by unfold looki in Hl; rewrite El in Hl].
      destruct (k_eq k key' key); [|done]. unfold vis. rewrite Em. by destruct mp.
    - simpl in Hh. destruct Hh as [_ Hh]. pose proof (Hh c el Hc ltac:(by rewrite Hce)) as Ek.
      unfold looki. rewrite Hq. apply firstv_ext. intros y Hy. destruct (decide (y = e)) as [->|Hne].
      + unfold cand. rewrite T, T', Ek. destruct (assigned_facts k (me s') (bool_decide (is_Some o)) (with_map (with_cn el cn) (match o with Some v => settled k p v | None => m_settle_error (k_pointer k) x p end))) as (-> & _). simpl. by rewrite Ek.
      + pose proof (Hv y Hne) as Ey. case_decide as D; [|rewrite option_fmap_id in Ey; by apply Hsame].
        unfold cand. rewrite Ey. destruct (tv s y) as [ey|] eqn:Ty; [|done]. simpl. apply olds_iff in D as (n & D).
        destruct (j_rs _ _ HJ e el p n y ey T Em D Ty) as (_ & -> & _). by rewrite Ek.
    - simpl in Hh. apply (Hone e); [done|done|]. unfold cand. rewrite T, T'. simpl. destruct (k_eq k (el_key el) key) eqn:Ek; [|done].
      destruct Hh as [-> |Hh]; [|rewrite (Hh c el Hc) in Ek; [done|by rewrite Hce]]. unfold vis. simpl. by rewrite Em.
  Qed.

  Lemma path_look (A : kind -> Prop) s s' key incl : tame -> J s -> path A s s' ->
    (forall s1 κ, A κ -> J s1 -> looki s1 key incl = looki s key incl -> harmless s1 key incl κ) -> looki s' key incl = looki s key incl.
  Proof.
    intros Ht HJ P Hh. assert (J s' /\ looki s' key incl = looki s key incl) as [_ ?]; [|done].
    apply (path_inv k A (fun s1 => J s1 /\ looki s1 key incl = looki s key incl) s s'); [|done|done].
    intros κ s1 s2 HA HM [HJ1 E1]. split; [by eapply mini_J|]. rewrite <-E1. eapply mini_look; eauto.
  Qed.
  Lemma free_look s s' key incl : tame -> J s -> path free s s' -> looki s' key incl = looki s key incl.
  Proof. intros Ht HJ P. eapply path_look; try done. by intros s1 κ ->. Qed.

  (** ** A new value is found *)
  Lemma born_late m key v : ages_ok -> late m (born k m key (MVal v)) = false.
  Proof.
    intros [Ha Hi]. unfold born, late, assigned, aged. simpl.
    destruct (k_max_age k) as [d|]; [specialize (Ha d eq_refl)|]; destruct (k_err_age k), (k_refresh k) as [[dl idle]|]; try (specialize (Hi dl idle eq_refl)); try case_bool_decide; destruct (k_steady k); simpl;
      rewrite ?bool_decide_false by lia; done.
  Qed.
  Lemma val_of_some mp v : val_of mp = Some v -> mp = MVal v.
  Proof. destruct mp; try done. simpl. congruence. Qed.
  Lemma enter_look κ s s' key cl v key' incl : mini κ s s' -> κ = KEnter key cl (Some v) -> ages_ok -> k_eq k key key' = true -> k_hash k key = k_hash k key' ->
    looki s key' incl = R0 -> looki s' key' incl = RV v.
  Proof.
    intros [_ _ Hck _ HB] -> Ha Ek Eh. destruct Hck as (_ & _ & Hck). destruct (Hck eq_refl) as (Ew & Es & _).
    inversion HB as [κ Hκ|κ e0 el0 o0 T0 Hc|e key0 cl0 mp T Hn _ _ T' Hv Hq _ _ _|?|?]; subst; [by destruct Hκ as [?|[[? ?]|[[? ?]|[? ?]]]]|by inversion Hc|].
    assert (mp = MVal v) as -> by (apply val_of_some; congruence). intros Hl.
    unfold looki in *. rewrite Hq, firstv_app. rewrite (firstv_ext _ (cand s key' incl)).
    - rewrite Hl. rewrite decide_True by done. simpl. unfold cand. rewrite T'. destruct (born_facts k (me s) key (MVal v)) as (-> & Em & _). rewrite Ek.
      unfold vis. rewrite Em. assert (late (me s') (born k (me s) key (MVal v)) = false) as ->; [|done].
      rewrite <-(born_late (me s) key v Ha). unfold late. by rewrite Ew, Es.
    - intros x Hx. unfold cand. rewrite Hv by (intros ->; by eapply Hn). destruct (tv s x); [|done]. by rewrite (vis_clk (me s) (me s')).
  Qed.

  (** ** A value stays *)
  (** will never be found again; if the clock may go back ([st]), being late is not enough *)
  Definition dead (st : bool) (m : mem) (el : elem) : Prop := hopeful (el_map el) = false \/ st = false /\ el_pending el = false /\ late m el = true.
  Definition firm (st : bool) (s : sta) (key v : Z) (x : N) (el : elem) : Prop :=
    tv s x = Some el /\ el_map el = MVal v /\ k_eq k (el_key el) key = true /\
    exists l1 l2, hseq s (k_hash k key) = l1 ++ x :: l2 /\
      forall y ey, y ∈ l1 -> tv s y = Some ey -> k_eq k (el_key ey) key = true -> dead st (me s) ey.
  Lemma firm_look st s key v x el incl : firm st s key v x el -> late (me s) el = false -> looki s key incl = RV v.
  Proof.
    intros (T & Em & Ek & l1 & l2 & Eq & Hd) Hl. unfold looki. rewrite Eq, firstv_app. rewrite firstv_none.
    - simpl. unfold cand. rewrite T, Ek. unfold vis. by rewrite Em, Hl.
    - intros y Hy. unfold cand. destruct (tv s y) as [ey|] eqn:Ty; [|done]. destruct (k_eq k (el_key ey) key) eqn:Eky; [|done].
      destruct (Hd y ey Hy Ty Eky) as [Hh|(_ & Hp & Hl')]; [by apply vis_hope|]. unfold vis. unfold el_pending in Hp. destruct (el_map ey); try done. by rewrite Hl'.
  Qed.
  Lemma enter_firm st κ s s' key cl v key' : mini κ s s' -> κ = KEnter key cl (Some v) -> k_eq k key key' = true -> k_hash k key = k_hash k key' ->
    (forall y ey, y ∈ hseq s (k_hash k key') -> tv s y = Some ey -> k_eq k (el_key ey) key' = true -> dead st (me s) ey) ->
    exists x, firm st s' key' v x (born k (me s) key (MVal v)).
  Proof.
    intros [_ _ Hck _ HB] -> Ek Eh Hd. destruct Hck as (_ & _ & Hck). destruct (Hck eq_refl) as (Ew & Es & _).
    inversion HB as [κ Hκ|κ e0 el0 o0 T0 Hc|e key0 cl0 mp T Hn _ _ T' Hv Hq _ _ _|?|?]; subst; [by destruct Hκ as [?|[[? ?]|[[? ?]|[? ?]]]]|by inversion Hc|].
    assert (mp = MVal v) as -> by (apply val_of_some; congruence). exists e. destruct (born_facts k (me s) key (MVal v)) as (Ekb & Em & _).
    split_and!; [done|done|by rewrite Ekb|]. exists (hseq s (k_hash k key')), []. rewrite Hq, decide_True by done. split; [done|].
    intros y ey Hy Ty Ey. rewrite Hv in Ty by (intros ->; by eapply Hn). destruct (Hd y ey Hy Ty Ey) as [?|(? & ? & Hl)]; [by left|right]. split_and!; try done.
    rewrite <-Hl. unfold late. by rewrite Ew, Es.
  Qed.

  Notation forward := (forward k).
  (** changes that leave the entry [x], which has an equal key, in place *)
  Definition spares (s : sta) (key : Z) (x : N) (κ : kind) : Prop :=
    match κ with
    | KEvict key' live => live = true -> k_eq k key' key = false
    | KClear => False
    | KErase key' => other key key'
    | KRefresh key' rep => rep = false \/ k_eq k key' key = false
    | KDone i _ _ => forall c en p, m_cbs (me s) !! i = Some c -> tv s (cb_el c) = Some en -> el_map en = MPend p -> x ∉ olds_of (p_cbq p)
    | _ => True
    end.
  Lemma reached_min a c d : reached a c = true -> reached a (tp_min c d) = true.
  Proof. destruct c, d; simpl; rewrite ?bool_decide_eq_true; try done. lia. Qed.
  Lemma mini_dead st κ s s' y ey ey' : J s -> st = true \/ forward κ -> mini κ s s' -> tv s y = Some ey -> tv s' y = Some ey' -> dead st (me s) ey -> dead st (me s') ey'.
  Proof.
    intros HJ Hf HM Ty Ty' Hd. destruct Hd as [Hh|(Est & Hp & Hl)].
    - left. destruct (hopeful (el_map ey')) eqn:E; [|done]. destruct (mini_hope k κ s s' y ey' HM Ty' E) as [(e0 & T0 & _ & ?)|(? & ? & ? & _ & ? & _)]; congruence.
    - destruct Hf as [?|Hf]; [congruence|]. assert ((m_wall (me s) <= m_wall (me s'))%Z /\ (m_steady (me s) <= m_steady (me s'))%Z) as [Hw Hs].
      { destruct (n_clk _ _ _ _ HM) as (H1 & H2 & _). split; [|done]. apply H2. by destruct Hf; auto. }
      right. split; [done|]. destruct (mini_tv k κ s s' y ey' HM Ty') as [(el & Hx0 & Hdd)|(key & cl & mp & _ & E & _)]; [|congruence]. assert (el = ey) as -> by congruence.
      destruct Hdd as [->|[[Hd _]|[(i & o' & δ & _ & c & _ & -> & _)|[(i & o' & c & p & z & cn & δ & _ & _ & _ & _ & Em & _)|(i & c & p & _ & _ & _ & _ & Em & _)]]]].
      + split; [done|]. by eapply late_le.
      + destruct (chg_facts k _ _ _ _ _ Hd) as (_ & Ep & E1 & E2 & _). split; [congruence|]. eapply late_le; [exact Hw|exact Hs|].
        revert Hl. unfold late. rewrite E1, E2. rewrite !orb_true_iff. intros [?|Hc]; [by left|].
        inversion Hd; subst; try (by right); simpl.
        * exfalso. match goal with H : el_expired _ _ _ = false |- _ => unfold el_expired in H; rewrite Hc in H; by rewrite !orb_true_r in H end.
        * right. by apply reached_min.
      + split; [unfold el_pending in *; simpl; by destruct (el_map ey), (k_pointer k)|]. by eapply late_le.
      + unfold el_pending in Hp. by rewrite Em in Hp.
      + unfold el_pending in Hp. by rewrite Em in Hp.
  Qed.
  Lemma rm_split e l1 (x : N) l2 : x <> e -> rm e (l1 ++ x :: l2) = rm e l1 ++ x :: rm e l2.
  Proof. intros H. unfold rm. rewrite filter_app, filter_cons_True by (intros ?; done). done. Qed.
  Lemma mini_old κ s s' h y : mini κ s s' -> y ∈ hseq s h -> tv s y = None -> tv s' y = None.
  Proof.
    intros HM Hy Ty. destruct (n_body _ _ _ _ HM) as [κ _ Hv _ _ _|κ e el0 o T0 Hc T0' Hv _ _|e key' cl mp T0 Hn _ Hmp T0' Hv _ _ _ _|i c e el0 p o z cn δ Hc Hcc Hce T0 Em0 _ T0' Hv _ _ _ _|i c e el0 p Hc Hcc Hce T0 Em0 T0' Hv _ _].
    - by rewrite Hv.
    - by rewrite Hv by congruence.
    - by rewrite Hv by (intros ->; by eapply Hn).
    - rewrite Hv by congruence. by rewrite Ty.
    - by rewrite Hv by congruence.
  Qed.
  Lemma mini_keep st κ s s' key v x el : tame -> J s -> mini κ s s' -> firm st s key v x el -> late (me s) el = false -> st = true \/ forward κ -> spares s key x κ ->
    exists el', firm st s' key v x el' /\ el_xw el' = el_xw el /\ el_xs el' = el_xs el /\ el_key el' = el_key el /\
      (el_cn el' = el_cn el \/ exists d idle key', k_refresh k = Some (d, idle) /\ idle <> 0%Z /\ κ = KHit key' /\ el_cn el' = Some (m_steady (me s) + idle)%Z).
  Proof.
    intros Ht HJ HM (T & Em & Ek & l1 & l2 & Eq & Hd) Hl Hf Hsp.
    assert (exists el', tv s' x = Some el' /\ el_map el' = MVal v /\ el_xw el' = el_xw el /\ el_xs el' = el_xs el /\ el_key el' = el_key el /\
      (el_cn el' = el_cn el \/ exists d idle key', k_refresh k = Some (d, idle) /\ idle <> 0%Z /\ κ = KHit key' /\ el_cn el' = Some (m_steady (me s) + idle)%Z)) as (el' & T' & Em' & Ew & Es & Ek' & Ec).
    { destruct (n_body _ _ _ _ HM) as [κ _ Hv _ _ _|κ e el0 o T0 Hc T0' Hv _ _|e key' cl mp T0 Hn _ Hmp T0' Hv _ _ _ _|i c e el0 p o z cn δ Hc Hcc Hce T0 Em0 _ T0' Hv _ _ _ _|i c e el0 p Hc Hcc Hce T0 Em0 T0' Hv _ _].
      - exists el. rewrite Hv. split_and!; try done. by left.
      - destruct (decide (x = e)) as [->|Hne]; [|exists el; rewrite Hv by done; split_and!; try done; by left].
        assert (el0 = el) as -> by congruence. clear Hv. unfold el_pending in *.
        inversion Hc; subst; simpl in Hsp; unfold el_pending in *; try rewrite Em in *; try done; try congruence.
        + exfalso. match goal with H : el_expired _ _ _ = true |- _ => unfold el_expired in H; rewrite Em in H; simpl in H; unfold late in Hl; by rewrite H in Hl end.
        + exfalso. destruct Hsp as [_ Hsp]. match goal with H : k_eq k (el_key el) key0 = true |- _ => by rewrite (Hsp _ H) in Ek end.
        + by rewrite (Hsp eq_refl) in Ek.
        + by rewrite (Hsp eq_refl) in Ek.
        + match goal with H : Some _ = tv s' e |- _ => rewrite <-H end. eexists. split; [reflexivity|]. simpl. split_and!; try done. by left.
        + match goal with H : Some _ = tv s' e |- _ => rewrite <-H end. eexists. split; [reflexivity|]. simpl. split_and!; try done. right. eauto 8.
        + match goal with H : Some _ = tv s' e |- _ => rewrite <-H end. eexists. split; [reflexivity|]. simpl. split_and!; try done. by left.
        + exfalso. destruct Hsp as [Hsp|Hsp]; congruence.
        + exfalso. destruct Hsp as [Hsp|Hsp]; congruence.
      - exists el. rewrite Hv by (intros ->; congruence). split_and!; try done. by left.
      - simpl in Hsp. specialize (Hsp c el0 p Hc ltac:(by rewrite Hce) Em0). exists el. rewrite Hv by (intros ->; congruence).
        rewrite decide_False by done. rewrite option_fmap_id. split_and!; try done. by left.
      - exists el. rewrite Hv by (intros ->; congruence). split_and!; try done. by left. }
    exists el'. split_and!; try done. split_and!; try done; [by rewrite Ek'|].
    assert (forall l1' : list N, (forall y, y ∈ l1' -> y ∈ l1) -> forall y ey, y ∈ l1' -> tv s' y = Some ey -> k_eq k (el_key ey) key = true -> dead st (me s') ey) as Hd'.
    { intros l1' Hsub y ey Hy Ty Eky. apply Hsub in Hy.
      destruct (mini_tv_facts k κ s s' y ey HM Ty) as [(ey0 & Ty0 & Ek0 & _)|(k0 & c0 & mp & _ & Tn & _)].
      - eapply mini_dead; try done. eapply Hd; [done|done|by rewrite <-Ek0].
      - exfalso. assert (y ∈ hseq s (k_hash k key)) as Hyh by (rewrite Eq; apply elem_of_app; by left). by rewrite (mini_old κ s s' _ y HM Hyh Tn) in Ty. }
    destruct (mini_hseq k κ s s' (k_hash k key) HM) as [E|[(y & ey & Ty & Ty' & E)|(y & key' & cl & o & _ & _ & _ & _ & E & _)]]; rewrite E, Eq.
    - exists l1, l2. split; [done|]. by apply Hd'.
    - exists (rm y l1), (rm y l2). split; [apply rm_split; congruence|]. apply Hd'. intros z Hz. unfold rm in Hz. apply elem_of_list_filter in Hz. tauto.
    - exists l1, (l2 ++ [y]). split; [by rewrite <-app_assoc|]. by apply Hd'.
  Qed.

  (** what is found is firm *)
  Lemma look_firm s key v incl : tame -> eq_ok k -> J s -> looki s key incl = RV v -> (k_resolver k = RAsync -> uq k none s) ->
    exists x el, firm false s key v x el /\ late (me s) el = false.
  Proof.
    intros Ht Heq HJ Hl Hu. destruct (firstv_split _ _ _ Hl) as (l1 & x & l2 & Eq & Ex & Hn); [done|].
    unfold cand in Ex. destruct (tv s x) as [el|] eqn:Tx; [|done]. destruct (k_eq k (el_key el) key) eqn:Ek; [|done].
    assert (el_map el = MVal v /\ late (me s) el = false) as [Em Hlt].
    { unfold vis in Ex. destruct (el_map el) as [p| | | | |]; try done; [by destruct (incl && negb (p_exp p))|]. destruct (late (me s) el); [done|]. by injection Ex as ->. }
    exists x, el. split; [|done]. split_and!; try done. exists l1, l2. split; [done|]. intros y ey Hy Ty Eky.
    specialize (Hn y Hy). unfold cand in Hn. rewrite Ty, Eky in Hn. unfold vis in Hn.
    destruct (el_map ey) as [p|w|[w|]|z| |] eqn:Emy; try (left; by rewrite Emy).
    - destruct (p_exp p) eqn:Ep; [left; rewrite Emy; simpl; by rewrite Ep|]. exfalso.
      assert (k_resolver k = RAsync \/ k_resolver k <> RAsync) as [Hr|Hr] by (destruct (k_resolver k); auto).
      2: { destruct (j_sync _ _ HJ) as [?|[_ Hs]]; [done|]. specialize (Hs y ey Ty). unfold el_pending in Hs. by rewrite Emy in Hs. }
      pose proof (j_sorted _ _ HJ (k_hash k key) Hr) as Hs. rewrite Eq in Hs.
      assert (y < x)%N as Hlt'. { clear -Hs Hy. induction l1 as [|z l1 IH]; [by apply not_elem_of_nil in Hy|]. simpl in Hs. apply StronglySorted_inv in Hs as [Hs Hz].
        apply elem_of_cons in Hy as [->|Hy]; [|by apply IH]. rewrite Forall_forall in Hz. apply Hz. apply elem_of_app. right. left. }
      destruct Heq as (E1 & E2 & E3 & E4).
      destruct (Hu Hr y x ey el Ty Tx) as [Hk|[Hk|[[]|[]]]].
      + lia.
      + eapply E3; [exact Eky|by apply E2].
      + rewrite Emy. simpl. by rewrite Ep.
      + by rewrite Em.
      + destruct Hk as (en & q & Tn & En & Ho). pose proof (j_lt _ _ HJ y en q x Tn En Ho). lia.
      + destruct Hk as (en & q & Tn & En & Ho). congruence.
    - right. split_and!; [done|unfold el_pending; by rewrite Emy|]. by destruct (late (me s) ey).
    - destruct (j_tame _ _ HJ y ey Ht Ty) as [Hw _]. by destruct (Hw w).
  Qed.

  (** without refresh policy: a value stays until its deadline *)
  Definition spares0 (key : Z) (κ : kind) : Prop :=
    match κ with KEvict key' live => live = true -> k_eq k key' key = false | KClear => False | KErase key' => other key key' | KRefresh _ _ => False | _ => True end.
  Definition dls (el el' : elem) : Prop := el_xw el' = el_xw el /\ el_xs el' = el_xs el /\ el_cn el' = el_cn el.
  Lemma dls_late m el el' : dls el el' -> late m el' = late m el.
  Proof. intros (E1 & E2 & E3). unfold late. by rewrite E1, E2, E3. Qed.
  Lemma mini_keep0 st κ s s' key v x el : tame -> J s -> k_refresh k = None -> mini κ s s' -> firm st s key v x el -> late (me s) el = false -> st = true \/ forward κ -> spares0 key κ ->
    exists el', firm st s' key v x el' /\ dls el el'.
  Proof.
    intros Ht HJ Hr HM HF Hl Hf Hsp.
    destruct (mini_keep st κ s s' key v x el Ht HJ HM HF Hl Hf) as (el' & HF' & E1 & E2 & _ & E3).
    - destruct κ; simpl in *; try done. intros c en p Hc Hn Em. destruct (j_cn _ _ HJ _ _ Hr Hn) as [_ E]. rewrite Em in E. simpl in E. rewrite E. apply not_elem_of_nil.
    - exists el'. split; [done|]. split_and!; [done|done|]. destruct E3 as [?|(d & i & ? & E & _)]; [done|congruence].
  Qed.
  (** clocks on paths *)
  Lemma path_clk (A : kind -> Prop) s s' : (forall κ, A κ -> forward κ) -> path A s s' -> (m_wall (me s) <= m_wall (me s'))%Z /\ (m_steady (me s) <= m_steady (me s'))%Z.
  Proof.
    intros HA. induction 1 as [|s1 s2 s3 (κ & H1 & H2) _ IH]; [lia|]. destruct (n_clk _ _ _ _ H2) as (C1 & C2 & _). specialize (HA κ H1).
    assert (m_wall (me s1) <= m_wall (me s2))%Z by (apply C2; destruct HA; auto). lia.
  Qed.
  Lemma path_keep st (A : kind -> Prop) s s' key v x el : tame -> k_refresh k = None -> (forall κ, A κ -> forward κ /\ spares0 key κ) -> path A s s' ->
    J s -> firm st s key v x el -> late (me s') el = false -> exists el', firm st s' key v x el' /\ dls el el'.
  Proof.
    intros Ht Hr HA P. revert el. induction P as [s|s1 s2 s3 (κ & H1 & H2) P IH]; intros el HJ HF Hl; [by exists el|].
    destruct (HA κ H1) as [Hf Hs].
    destruct (path_clk A s1 s3) as [W1 W2]; [intros; by apply HA|eapply rtc_l; [|exact P]; eauto|].
    destruct (path_clk A s2 s3) as [W3 W4]; [intros; by apply HA|done|].
    assert (late (me s1) el = false) as Hl1. { destruct (late (me s1) el) eqn:E; [|done]. by rewrite (late_le _ _ _ W1 W2 E) in Hl. }
    destruct (mini_keep0 st κ s1 s2 key v x el) as (el' & HF' & D); try done; [by right|].
    destruct (IH el') as (el'' & HF'' & D'); [by eapply mini_J|done|by rewrite (dls_late _ _ _ D)|].
    exists el''. split; [done|]. destruct D as (?&?&?), D' as (?&?&?). split_and!; congruence.
  Qed.
End look.
