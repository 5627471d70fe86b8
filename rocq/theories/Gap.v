(** Sync resolvers: a refresh replaces the value at once (lemmas for PropertiesRefresh.v). *)
From stdpp Require Import sorting.
From Verif Require Import Base AQueue ATable BasicHashtable QueueProofs BasicHashtableProofs ContainersProofs Mapped Cache CachePtr CacheAbs CompSim CacheSim AbsInv AbsPrim AbsPrim2 AbsSweep AbsOps AbsComp Trace AbsTrace TraceInv Delay AbsTraceCb Histories AbsResolve AbsStep AbsLook Effects Observe Transfer Lookups Answers Waiters Calls Origins Rounds Idle Refresh.

Section gap.
  Context (k : cfg) (Hk : fine_cfg k) (Hq : eq_ok k) (Hta : tame k).
  Notation top := (top k).
  Notation dls := (dls).

  (** changes that neither touch the entries for the key nor take time *)
  Definition calm_kind (key : Z) (x : N) (κ : kind) : Prop :=
    match κ with
    | KFree | KEnter _ _ _ | KCancel _ => True
    | KPop e => e <> x
    | KRefresh key' _ => k_eq k key' key = false
    | _ => False
    end.
  Lemma mini_rs κ s s' x el el' key : mini k κ s s' -> calm_kind key x κ -> tv s x = Some el -> k_eq k (el_key el) key = true -> tv s' x = Some el' -> is_val (el_map el) = true ->
    el_rs el' = el_rs el /\ el_rf el' = el_rf el /\ (x ∈ a_dq (cs s) -> x ∈ a_dq (cs s')).
  Proof using.
    intros HM Hc Tx Ek Tx' Hval. assert (x ∈ a_dq (cs s) -> x ∈ a_dq (cs s')) as Hdq.
    { intros Hx. destruct (n_body _ _ _ _ HM) as [κ _ _ _ Edq _|κ e el0 o T0 _ T0' _ _ Edq|e key' cl mp _ _ _ _ _ _ _ Edq _ _|i c e el0 p o z cn δ _ _ _ _ _ _ _ _ _ Edq _ _ _|i c e el0 p _ _ _ _ _ _ _ _ Edq _]; rewrite Edq.
      - destruct κ; try done. by apply elem_of_rm.
      - destruct o; [done|]. apply elem_of_rm. split; [congruence|done].
      - unfold enq. destruct (_ && _); [|done]. apply elem_of_app. by left.
      - unfold enq. destruct (_ && _); [|done]. apply elem_of_app. by left.
      - done. }
    destruct (mini_tv k κ s s' x el' HM Tx') as [(el0 & Hx0 & Hd)|(? & ? & ? & _ & ? & _)]; [|congruence].
    assert (el0 = el) as -> by congruence.
    destruct Hd as [->|[[Hd _]|[(i & o & δ & -> & _)|[(i & o & c & p & y & cn & δ & -> & _)|(i & c & p & _ & _ & _ & _ & _ & ->)]]]]; try done.
    inversion Hd; subst; try done; simpl in Hc; congruence.
  Qed.
  Lemma calm_firm (A : kind -> Prop) s s' key v x el : (forall κ, A κ -> calm_kind key x κ) -> path k A s s' -> J k s -> firm k false s key v x el -> late (me s) el = false ->
    (exists el', firm k false s' key v x el' /\ dls el el' /\ el_key el' = el_key el /\ el_rs el' = el_rs el /\ el_rf el' = el_rf el) /\ (x ∈ a_dq (cs s) -> x ∈ a_dq (cs s')) /\ m_wall (me s') = m_wall (me s) /\ m_steady (me s') = m_steady (me s) /\ m_dropped (me s') ⊆ m_dropped (me s).
  Proof using Hta.
    intros HA HP. revert el. induction HP as [s|s1 s2 s3 (κ & HAκ & HM) HP IH]; intros el HJ HF Hl.
    { split; [exists el; by split_and!|done]. }
    pose proof (HA κ HAκ) as Hc.
    destruct (mini_keep k false κ s1 s2 key v x el Hta HJ HM HF Hl) as (el1 & HF1 & E1 & E2 & E3 & Ec); [right; right; by destruct κ|by destruct κ; try done; right|].
    assert (el_rs el1 = el_rs el /\ el_rf el1 = el_rf el /\ (x ∈ a_dq (cs s1) -> x ∈ a_dq (cs s2))) as (Er & Ef & Edq). { destruct HF as (T & Em & Ek & _), HF1 as (T1 & _). eapply (mini_rs κ s1 s2 x); try done. by rewrite Em. }
    destruct Ec as [Ec|(? & ? & ? & _ & _ & -> & _)]; [|done].
    assert (dls el el1) as D1 by done. destruct (n_clk _ _ _ _ HM) as (_ & _ & Hst). destruct (Hst ltac:(by destruct κ)) as (W1 & W2 & W3).
    destruct (IH el1) as ((el2 & HF2 & (D4 & D5 & D6) & E4 & E5 & E6) & Q6 & W4 & W5 & W6); [by eapply mini_J|done| |].
    - rewrite (dls_late _ _ _ D1). unfold late in *. by rewrite W1, W2.
    - split_and!; [|by auto|congruence|congruence|by etrans; [exact W6|exact W3]]. exists el2. split_and!; try done; [|congruence|congruence|congruence]. split_and!; congruence.
  Qed.
  Lemma late_min m b c2 : late m b = false -> reached (m_steady m) c2 = false -> late m (with_cn b (tp_min (el_cn b) c2)) = false.
  Proof using.
    unfold late. simpl. rewrite !orb_false_iff. intros ((H1 & H2) & H3) H4. split_and!; try done.
    destruct (el_cn b) as [c|], c2 as [c2|]; simpl in *; try done. rewrite !bool_decide_eq_false in *. lia.
  Qed.

  (** the new entry takes the place of the old one *)
  Lemma swap_firm sa sb key key0 v nv x l elx : ages_ok k -> k_refresh k <> None -> firm k false sa key v x elx -> late (me sa) elx = false -> el_key elx = key0 ->
    mini k (KEnter key0 (HRefresh x l) (Some nv)) sa sb -> 
    let s4 := f_revent k (p_upd sb x (fun el => with_rs el true)) l x in
    (exists el', firm k false s4 key nv l el' /\ late (me s4) el' = false /\ el_rs el' = false) /\ m_wall (me s4) = m_wall (me sa) /\ m_steady (me s4) = m_steady (me sa) /\ m_dropped (me s4) ⊆ m_dropped (me sa).
  Proof using Hq Hta.
    intros Hages Hrf (Tx & Em & Ek & l1 & l2 & Eh & Hd) Hl Ek0 HM s4. subst key0.
    destruct (n_clk _ _ _ _ HM) as (_ & _ & Hst). destruct (Hst eq_refl) as (W1 & W2 & W3).
    pose proof (n_body _ _ _ _ HM) as HB. remember (KEnter (el_key elx) (HRefresh x l) (Some nv)) as κ eqn:Eκ.
    destruct HB as [κ Hκ|κ e0 el0 o0 T0 Hc|e key1 cl1 mp T Hn _ _ T' Hv Hhq _ _ Hfit|?|?]; [subst κ; by destruct Hκ as [?|[[? ?]|[[? ?]|[? ?]]]]|subst κ; by inversion Hc| |done|done].
    injection Eκ as -> -> Evv. apply val_of_some in Evv as ->. destruct Hfit as [<- Hon].
    destruct (born_facts k (me sa) (el_key elx) (MVal nv)) as (Ekb & Emb & Erb). set (b := born k (me sa) (el_key elx) (MVal nv)) in *.
    assert (l <> x) as Hne by (intros ->; congruence).
    assert (tv sb x = Some elx) as Txb by (by rewrite Hv).
    set (s3 := p_upd sb x (fun el => with_rs el true)) in *.
    destruct (p_upd_me sb x (fun el => with_rs el true)) as (_ & _ & _ & _ & _ & M1 & M2 & M3). fold s3 in M1, M2, M3.
    destruct (f_revent_me k s3 l x) as (_ & _ & _ & _ & _ & _ & M4 & M5 & M6). fold s4 in M4, M5, M6.
    assert (tv s3 x = Some (with_rc (with_rs elx true) 0)) as Tx3. { apply (tv_upd_self sb x (fun el => with_rs el true) elx); [done|]. intros [] []. unfold eqrc, with_rc, with_rs, with_cn. simpl. congruence. }
    assert (tv s3 l = Some b) as Tl3. { unfold s3. rewrite tv_upd by done. exact T'. }
    assert (exists e3, m_els (me s3) !! x = Some e3 /\ el_cn e3 = el_cn elx) as (e3 & He3 & Ecn).
    { apply tv_elim in Tx3 as (_ & e3 & He3 & E3). exists e3. split; [done|]. assert (el_cn (with_rc (with_rs elx true) 0) = el_cn (with_rc e3 0)) as H by (by rewrite E3). by simpl in H. }
    assert (tv s4 l = Some (with_rc (with_cn b (tp_min (el_cn b) (el_cn elx))) 0)) as Tl4.
    { unfold s4, f_revent. rewrite He3, Ecn. rewrite bool_decide_true by (by destruct (k_refresh k)). unfold f_mark. rewrite tv_upd by done.
      apply (tv_upd_self s3 l (fun el => with_cn el (tp_min (el_cn el) (el_cn elx))) b); [exact Tl3|]. intros [] []. unfold eqrc, with_rc, with_rs, with_cn. simpl. congruence. }
    assert (forall y, y <> x -> y <> l -> tv s4 y = tv sa y) as Ty4.
    { intros y Hyx Hyl. unfold s4, f_revent. rewrite bool_decide_true by (by destruct (k_refresh k)). unfold f_mark. rewrite !tv_upd by done. unfold s3. rewrite tv_upd by done. by apply Hv. }
    assert (forall ee, tv s4 x = Some ee -> hopeful (el_map ee) = false) as Tx4.
    { intros ee (_ & e0 & He0 & ->)%tv_elim. unfold s4 in He0. rewrite f_revent_els in He0. rewrite (re_els_old k _ l x _ Hne He3) in He0. injection He0 as <-. simpl.
      apply tv_elim in Tx3 as (_ & e3' & He3' & E3). rewrite He3 in He3'. injection He3' as <-. assert (el_map (with_rc (with_rs elx true) 0) = el_map (with_rc e3 0)) as H by (by rewrite E3). simpl in H. rewrite <-H, Em.
      unfold m_mark_expired, m_dead. by destruct (k_pointer k). }
    assert (forall h, hseq s4 h = hseq sa h ++ (if decide (k_hash k (el_key elx) = h) then [l] else [])) as Hh4.
    { intros h. unfold s4, f_revent. rewrite bool_decide_true by (by destruct (k_refresh k)). unfold f_mark. rewrite !hseq_upd. unfold s3. rewrite hseq_upd. by apply Hhq. }
    split_and!; [|by rewrite M4, M1|by rewrite M5, M2|rewrite M6, M3; done].
    eexists. split_and!.
    - split_and!; [exact Tl4|by simpl|by simpl; rewrite Ekb|]. exists (hseq sa (k_hash k key)), []. rewrite Hh4. destruct Hq as (_ & Q2 & Q3 & Q4). split; [by rewrite decide_True by (by apply Q4)|].
      intros y ey Hy Ty Eky. left. destruct (decide (y = x)) as [->|Hyx]; [by apply Tx4|].
      assert (y <> l) as Hyl by (intros ->; by eapply Hn). rewrite Ty4 in Ty by done. destruct (hopeful (el_map ey)) eqn:Eho; [|done]. exfalso. apply Hyx.
      apply (Hon y ey Ty); [|done]. assert (k_eq k (el_key ey) (el_key elx) = true) by (eapply Q3; [exact Eky|]; by apply Q2). split; [by apply Q4|done].
    - assert (late (me s4) (with_cn b (tp_min (el_cn b) (el_cn elx))) = false) as H; [|exact H]. apply late_min.
      + pose proof (born_late k (me sa) (el_key elx) nv Hages) as H. fold b in H. unfold late in *. by rewrite M4, M1, W1, M5, M2, W2.
      + unfold late in Hl. rewrite !orb_false_iff in Hl. destruct Hl as [_ Hl]. by rewrite M5, M2, W2.
    - by simpl.
  Qed.

  Context (d idle : Z) (Hrf : k_refresh k = Some (d, idle)) (Hd : (0 < d)%Z) (Hsync : k_resolver k = RSync) (Hages : ages_ok k).
  Definition gives (it : (sta -> res sta) * outcome * (bool * bool)) (m : mem) : Prop :=
    (forall s, it.1.1 s = Ok s) /\ it.2.2 = false /\ exists w, it.1.2 = ROk w /\ (k_pointer k = true -> w ∉ m_dropped m).
  Definition given (items : list ((sta -> res sta) * outcome * (bool * bool))) (v : Z) : Prop := exists it, it ∈ items /\ it.1.2 = ROk v.
  Lemma safe_ok (u : sta -> res sta) : (forall s, u s = Ok s) -> safe k [] (fun _ => False) u.
  Proof using.
    intros Hu g s _ _ _ Hi HJ. exists s. rewrite Hu. split_and!; [done|done|apply ext_refl|apply path_refl].
  Qed.
  Lemma worker_firm now items : forall g s key v x el, inv k g s -> m_up (me s) = true -> g_xs g = [] -> g_act g = [] -> J k s -> uq k none s -> DQ d s -> now = m_steady (me s) ->
    (forall it, it ∈ items -> gives it (me s)) -> firm k false s key v x el -> late (me s) el = false ->
    exists s' x' v' el', worker k s now items = Ok s' /\ firm k false s' key v' x' el' /\ late (me s') el' = false /\ (v' = v \/ given items v') /\
      (x ∈ dues now s -> el_rs el = false -> length (dues now s) <= length items -> given items v').
  Proof using Hk Hq Hta Hrf Hd Hsync Hages.
    induction items as [|[[u out] [keep throw]] items IH]; intros g s key v x el Hi Hup Gx Ga HJ HU HD Hnow Hits HF Hl.
    { exists s, x, v, el. split_and!; try done; [by left|]. intros Hx _ Hlen. destruct (dues now s); [by apply elem_of_nil in Hx|simpl in Hlen; lia]. }
    destruct (Hits (u, out, (keep, throw)) ltac:(by left)) as (Hu & Ht & w & Hout & Hdr). simpl in Hu, Ht, Hout. subst throw out.
    simpl worker. simpl c_dfront. simpl rbind. destruct (a_dq (cs s)) as [|e dq] eqn:Edq; simpl head.
    { exists s, x, v, el. split_and!; try done; [by left|]. intros Hx. unfold dues in Hx. rewrite Edq in Hx. by apply elem_of_nil in Hx. }
    assert (e ∈ a_dq (cs s)) as He by (rewrite Edq; by left).
    destruct (i_dq _ _ _ Hi e He) as [HeL _]. destruct (i_tab _ _ _ Hi e HeL) as [ee Hee].
    unfold s_el, rd_el. rewrite Hee. simpl rbind. pose proof (i_up _ _ _ Hi Hup) as Ht0.
    assert (e ∈ tab s) as Hetab by (unfold LT in HeL; by rewrite Gx, (a_tab_None _ Ht0) in HeL).
    assert (tv s e = Some (with_rc ee 0)) as Te by (by apply tv_some).
    case_bool_decide as Hdue.
    2: { exists s, x, v, el. split_and!; try done; [by left|]. intros [Hx Hxq]%elem_of_list_filter.
      pose proof (d_sorted _ _ HD) as Hso. rewrite Edq in Hso, Hxq. apply StronglySorted_inv in Hso as [_ Hso]. rewrite Forall_forall in Hso.
      assert (due s e <= now)%Z as Hde. { apply elem_of_cons in Hxq as [->|Hxq]; [done|]. specialize (Hso x Hxq). simpl in Hso. lia. }
      unfold due in Hde. rewrite Te in Hde. simpl in Hde. done. }
    simpl. unfold need. rewrite <-Edq. rewrite decide_True by done. simpl.
    set (s1 := with_cs s _).
    assert (inv k g s1) as I1.
    { apply inv_dq; [done|..].
      - apply rm_nodup. apply Hi.
      - intros y [_ Hy]%elem_of_rm. by apply Hi.
      - intros y ey [_ Hy]%elem_of_rm. by apply (i_dnp _ _ _ Hi). }
    assert (mini k (KPop e) s s1) as M1.
    { apply mini_of; [done|apply rest_cs|]. apply b_same; try done; [by right; right; left; exists e|]. by intros e' [= ->]. }
    assert (J k s1) as J1 by (by eapply mini_J).
    assert (uq k none s1) as U1. { intros y z ey ez Ty Tz. exact (HU y z ey ez Ty Tz). }
    assert (firm k false s1 key v x el) as HF1 by exact HF.
    assert (DQ d s1) as HD1 by (by eapply (mini_DQ k d idle)).
    assert (~ is_pend ee) as Hnp by (by eapply (i_dnp _ _ _ Hi)).
    assert (e ∈ dues now s) as Hin. { apply elem_of_list_filter. split; [|done]. unfold due. by rewrite Te. }
    destruct (refresh_ends k [] g s1 e u (ROk w) keep (fun _ => False)) as (s2 & E2 & I2 & X2 & P2 & U2 & _ & Skip2 & Q2 & _); try done.
    { by exists ee. } { by apply safe_ok. } { by rewrite Hsync. } { by intros ? ? []. } { by rewrite Hrf. }
    specialize (U2 Hq ltac:(by intros ? []) ltac:(by intros _ ? ? ? []) U1).
    rewrite E2. simpl rbind.
    assert (path k (fun _ => True) s1 s2) as P12. { eapply path_weaken; [|apply (P2 (fun _ => True)); done]. done. }
    assert (DQ d s2) as HD2 by (by eapply (path_DQ k d idle Hrf)).
    assert (length (dues now s2) < length (dues now s)) as Hlen2.
    { pose proof (sublist_length _ _ (path_dues k d idle Hrf _ s1 s2 now Hd ltac:(by rewrite Hnow) P12 HD1)) as L1. rewrite (pop_dues k e s s1 now M1) in L1.
      pose proof (rm_shrinks e _ Hin). lia. }
    assert (J k s2) as J2 by (by eapply path_J).
    assert (forall x2 v2 el2, firm k false s2 key v2 x2 el2 -> late (me s2) el2 = false -> m_wall (me s2) = m_wall (me s) -> m_steady (me s2) = m_steady (me s) -> m_dropped (me s2) ⊆ m_dropped (me s) ->
      exists s' x' v' el', worker k s2 now items = Ok s' /\ firm k false s' key v' x' el' /\ late (me s') el' = false /\ (v' = v2 \/ given items v') /\
        (x2 ∈ dues now s2 -> el_rs el2 = false -> length (dues now s2) <= length items -> given items v')) as Next.
    { intros x2 v2 el2 HF2 Hl2 W1 W2 W3. apply (IH g s2); try done; [by rewrite (x_up _ _ _ _ _ X2)|congruence|].
      intros it Hit. destruct (Hits it ltac:(by right)) as (G1 & G2 & w' & G3 & G4). split_and!; try done. exists w'. split; [done|]. intros Hp Hw. by apply (G4 Hp), W3. }
    assert (forall v', given items v' -> given ((u, ROk w, (keep, false)) :: items) v') as Hmore. { intros v' (it & Hit & ?). exists it. split; [by right|done]. }
    destruct (el_rs ee || el_expired k (me s) ee) eqn:Eskip.
    { (* not refreshed *)
      assert (s2 = s1) as -> by (by apply (Skip2 ee)).
      destruct (Next x v el HF1 Hl) as (s' & x' & v' & el' & E' & F' & L' & [->|V'] & S'); try done.
      - exists s', x', v, el'. split_and!; try done; [by left|]. intros Hx Hrs Hle. apply Hmore, S'; [|done|simpl in Hle; lia].
        rewrite (pop_dues k e s s1 now M1). apply elem_of_rm. split; [|done]. intros ->.
        destruct HF as (Tx & Em & _). assert (el = with_rc ee 0) as -> by congruence. simpl in Hrs, Em. rewrite Hrs in Eskip. simpl in Eskip.
        unfold el_expired, m_expired in Eskip. rewrite Em in Eskip. unfold late in Hl. simpl in Hl, Eskip. rewrite Hl in Eskip. done.
      - exists s', x', v', el'. split_and!; try done; [right; by apply Hmore|]. intros. by apply Hmore. }
    apply orb_false_iff in Eskip as [Hrs Hunex].
    destruct (decide (e = x)) as [->|Hne].
    - (* this entry is refreshed *)
      destruct (Q2 ee Hee Hrs Hunex Hsync U1 ltac:(tauto)) as (sx & sa & sb & l & Pa & Pb & Mb & _ & J4 & Pc).
      destruct (calm_firm (upto (fun κ => κ = KFree \/ False) (m_ncb (me s1))) s1 sx key v x el ltac:(intros κ [[->|[]]|(i & -> & _)]; done) Pa J1 HF1 Hl) as ((el2 & HF2 & D2 & K2 & _) & _ & W1 & W2 & W3).
      assert (late (me sx) el2 = false) as Hl2. { rewrite (dls_late _ _ _ D2). unfold late in *. rewrite W1, W2. exact Hl. }
      assert (J k sx) as Jx by (by eapply path_J).
      destruct (calm_firm (fun κ => κ = KFree) sx sa key v x el2 ltac:(by intros κ ->) Pb Jx HF2 Hl2) as ((el3 & HF3 & D3 & K3 & _) & _ & W4 & W5 & W6).
      assert (late (me sa) el3 = false) as Hl3. { rewrite (dls_late _ _ _ D3). unfold late in *. rewrite W4, W5. exact Hl2. }
      assert (el_key ee = el_key el3) as Ek3. { destruct HF as (Tx & _). assert (el = with_rc ee 0) as -> by congruence. simpl in K2. congruence. }
      assert (out_map k sx (ROk w) = MVal w) as Eo.
      { unfold out_map, holds. destruct (k_pointer k) eqn:Ep; [|done]. simpl. rewrite bool_decide_true; [done|]. intros Hw. apply (Hdr eq_refl). by apply W3. }
      rewrite Eo in Mb. simpl val_of in Mb.
      destruct (swap_firm sa sb key (el_key ee) v w x l el3 Hages ltac:(by rewrite Hrf) HF3 Hl3 (eq_sym Ek3) Mb) as ((el4 & HF4 & Hl4 & _) & W7 & W8 & W9).
      set (s4 := f_revent k _ l x) in *.
      destruct (calm_firm (fun κ => κ = KFree) s4 s2 key w l el4 ltac:(by intros κ ->) Pc J4 HF4 Hl4) as ((el5 & HF5 & D5 & _) & _ & W10 & W11 & W12).
      assert (late (me s2) el5 = false) as Hl5. { rewrite (dls_late _ _ _ D5). unfold late in *. rewrite W10, W11. exact Hl4. }
      destruct (Next l w el5 HF5 Hl5) as (s' & x' & v' & el' & E' & F' & L' & V' & _).
      + rewrite W10, W7, W4, W1. done.
      + rewrite W11, W8, W5, W2. done.
      + intros y Hy. by apply W12, W9, W6, W3 in Hy.
      + assert (given ((u, ROk w, (keep, false)) :: items) v') as Hg. { destruct V' as [->|V']; [|by apply Hmore]. exists (u, ROk w, (keep, false)). split; [by left|done]. }
        exists s', x', v', el'. split_and!; try done. by right.
    - (* another one is *)
      assert (k_eq k (el_key ee) key = false) as Hok.
      { apply not_true_is_false. intros Ek. destruct HF as (Tx & Em & Ekx & _). destruct Hq as (_ & Q2' & Q3' & _).
        destruct (HU e x (with_rc ee 0) el Te Tx Hne) as [(en & p & Tn & Ep & _)|[(en & p & Tn & Ep & _)|[[]|[]]]].
        - simpl. eapply Q3'; [exact Ek|]. by apply Q2'.
        - simpl. by eapply (unexpired_hopeful k g s e ee).
        - by rewrite Em.
        - rewrite Te in Tn. injection Tn as <-. simpl in Ep. unfold is_pend, el_pending in Hnp. by rewrite Ep in Hnp.
        - congruence. }
      destruct (calm_firm (upto (fun κ => κ = KFree \/ (exists b, κ = KRefresh (el_key ee) b) \/ exists key' o, κ = KEnter key' HAny o) (m_ncb (me s1))) s1 s2 key v x el) as ((el2 & HF2 & D2 & K2 & R2 & F2) & Q2' & W1 & W2 & W3); try done.
      { intros κ [[->|[[b ->]|(? & ? & ->)]]|(i & -> & _)]; done. }
      { assert (forall key', due_key k s1 e key' -> key' = el_key ee) as Hdk. { intros key' (e1 & He1 & _ & <- & _). simpl in He1. rewrite Hee in He1. by injection He1 as <-. }
        apply P2; try done; [by left|intros key' ->%Hdk; right; left; eauto|intros key' ->%Hdk _; right; left; eauto|intros; right; right; eauto|intros; right; right; eauto]. }
      assert (late (me s2) el2 = false) as Hl2. { rewrite (dls_late _ _ _ D2). unfold late in *. rewrite W1, W2. exact Hl. }
      destruct (Next x v el2 HF2 Hl2 W1 W2 W3) as (s' & x' & v' & el' & E' & F' & L' & V' & S').
      exists s', x', v', el'. split_and!; try done; [destruct V' as [->|V']; [by left|right; by apply Hmore]|].
      intros [Hx Hxq]%elem_of_list_filter Hrsx Hle. apply Hmore, S'; [|by rewrite R2|simpl in Hle; lia].
      apply elem_of_list_filter. split; [|apply Q2'; simpl; by apply elem_of_rm].
      destruct HF as (Tx & _), HF2 as (Tx2 & _). unfold due in *. rewrite Tx2, F2. by rewrite Tx in Hx.
  Qed.

  Lemma run_swapped l : forall s s' : sta, top s -> fine l -> forallb (plain_op k) l = true -> run k l s = Ok s' -> (m_up (me s) = true -> uq k none s /\ swapped s) -> m_up (me s') = true -> uq k none s' /\ swapped s'.
  Proof using Hk Hq Hta Hrf Hsync.
    induction l as [|o l IH]; intros s s' T Hf Hp R Hu Hup'; [injection R as <-; by apply Hu|].
    rewrite run_cons in R. unfold fine in Hf. simpl in Hf, Hp. apply andb_true_iff in Hf as [Hf1 Hf2]. apply andb_true_iff in Hp as [Hp1 Hp2].
    destruct (top_step k Hk o s T Hf1) as (s1 & r1 & E1 & T1 & _ & _ & Hs & _). rewrite E1 in R. unfold rbind in R.
    apply (IH s1 s' T1 Hf2 Hp2 R); [|done]. intros Hup1. destruct (up_step k Hk o s s1 r1 T Hf1 E1 Hup1) as [Hup Hn].
    destruct (Hs Hup Hn) as (_ & P & Hsu & _). destruct (Hu Hup) as [HU HS]. pose proof (plain_clean k o Hp1) as Hcl. split; [by apply Hsu|].
    destruct (match o with OTick _ => true | _ => false end) eqn:Et.
    - destruct o; try done. destruct (top_facts k s T Hup) as (Hi & Ht & HJ). destruct (tick_ends k Hk items g0 s Hf1 eq_refl eq_refl Hi Hup HJ) as (s2 & E2 & _ & _ & _ & _ & Sw); [by rewrite Hrf|].
      rewrite E1 in E2. injection E2 as <- _. by apply Sw.
    - eapply path_swapped; [|exact P|done]. intros key [Hκ|(? & ? & _)]; [|done]. revert Hκ. destruct o; try done; try (by apply okind_norefresh).
  Qed.
  Lemma swapped_init : swapped st_init.
  Proof using. intros x el T. apply tv_elim in T as (Ht & _). by apply elem_of_nil in Ht. Qed.

  Lemma sync_round l items sc sc' key old : fine (l ++ [OTick items]) -> forallb (plain_op k) l = true ->
    (forall it, it ∈ items -> it.1.1 = [] /\ exists v, it.1.2 = ROk v /\ (k_pointer k = true -> v ∉ m_dropped (me sc))) ->
    after k l sc -> after k (l ++ [OTick items]) sc' -> peek k sc key = Some old ->
    exists v, peek k sc' key = Some v /\ (v = old \/ exists it, it ∈ items /\ it.1.2 = ROk v) /\
      (due_value k sc key -> length (overdue (m_steady (me sc)) sc) <= length items -> exists it, it ∈ items /\ it.1.2 = ROk v).
  Proof using Hk Hq Hta Hrf Hd Hsync Hages.
    intros (Hf & Hf1)%fine_app Hpl Hit Ha Ha' Hp. destruct (after_abs k Hk l sc Hf Ha) as (s & R & S & T & _).
    destruct (peek_val k Hta s sc key old S T Hp) as [Hup Hlk]. destruct (top_facts k s T Hup) as (Hi & Ht & HJ).
    destruct (run_swapped l st_init s (top_init k) Hf Hpl R) as [HU HS]; [intros _; split; [apply uq_init|apply swapped_init]|done|].
    assert (DQ d s) as HD by (by apply (from_DQ k Hk d idle Hrf l)).
    destruct (look_firm k s key old false Hta Hq HJ Hlk ltac:(done)) as (x & el & HF & Hnl).
    assert (fine_op false (OTick items) = true) as Hfo. { unfold fine in Hf1. simpl forallb in Hf1. by rewrite andb_true_r in Hf1. }
    set (its := map (fun i => (run_nested k i.1.1 : sta -> res sta, i.1.2, i.2)) items).
    destruct (worker_firm (m_steady (me s)) its g0 s key old x el) as (s' & x' & v' & el' & E' & F' & L' & V' & S'); try done.
    { intros it (i & -> & Hin)%elem_of_list_fmap. destruct (Hit i Hin) as (Es & w & Ew & Hw). split_and!; simpl.
      - by rewrite Es.
      - simpl in Hfo. pose proof (forallb_in _ _ _ Hfo Hin) as H. simpl in H. apply andb_true_iff in H as [_ H]. by destruct i.2.2.
      - exists w. split; [done|]. by rewrite (srel_me _ _ S). }
    assert (step k false (OTick items) s = Ok (s', RetNone)) as E1.
    { rewrite step_eq. unfold step_with. rewrite Hup. simpl negb. simpl andb. cbv iota. rewrite Hrf. fold its. by rewrite E'. }
    destruct (top_step k Hk _ s T Hfo) as (s1 & r1 & E2 & T1 & _ & _ & Hs & _). rewrite E1 in E2. injection E2 as <- <-. destruct (Hs Hup ltac:(done)) as (Hup1 & _).
    destruct (step_c k _ _ _ _ _ sc S E1) as (sc1 & Ec1 & S1).
    assert (sc1 = sc') as ->. { assert (after k (l ++ [OTick items]) sc1) as H by (by eapply run_one). unfold after in *. congruence. }
    assert (forall v, given its v -> exists it, it ∈ items /\ it.1.2 = ROk v) as Hg. { intros v (it & (i & -> & Hin)%elem_of_list_fmap & E). by exists i. }
    exists v'. split_and!.
    - rewrite (peek_look k Hta s' sc' key S1 T1), (look_up s' sc' S1), Hup1. by rewrite (firm_look k false s' key v' x' el' false F' L').
    - destruct V' as [->|V']; [by left|right; by apply Hg].
    - intros (e & ee & w & Hin & Hee & Ek & Em) Hlen. apply Hg. rewrite <-(srel_me _ _ S) in Hin, Hee, Hlen. rewrite (dues_obs d s sc _ S Ht HD) in Hin, Hlen.
      assert (e ∈ tab s) as Htab. { pose proof Hin as [_ Hin']%elem_of_list_filter. destruct (d_tv _ _ HD e Hin') as (e1 & Te & _). by apply tv_elim in Te as (? & _). }
      pose proof (tv_some s e ee Htab Hee) as Te. destruct HF as (Tx & Emx & Ekx & _).
      assert (e = x) as ->.
      { destruct (decide (e = x)) as [|Hne]; [done|]. exfalso. destruct Hq as (_ & Q2 & Q3 & _).
        destruct (HU e x (with_rc ee 0) el Te Tx Hne) as [(en & p & Tn & Ep & _)|[(en & p & Tn & Ep & _)|[[]|[]]]].
        - simpl. eapply Q3; [exact Ek|]. by apply Q2.
        - simpl. by rewrite Em.
        - by rewrite Emx.
        - rewrite Te in Tn. injection Tn as <-. simpl in Ep. congruence.
        - congruence. }
      assert (el = with_rc ee 0) as -> by congruence. apply S'; [done| |unfold its; by rewrite map_length].
      apply not_true_is_false. intros Hrs. pose proof (HS x _ Tx Hrs) as Hh. simpl in Hh. by rewrite Em in Hh.
  Qed.
End gap.
