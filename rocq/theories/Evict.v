(** Which values the size limit evicts (lemmas for PropertiesEvict.v). *)
From Verif Require Import Base AQueue ATable BasicHashtable QueueProofs BasicHashtableProofs ContainersProofs Mapped Cache CachePtr CacheAbs CompSim CacheSim AbsInv AbsPrim AbsPrim2 AbsSweep AbsOps AbsComp Trace AbsTrace TraceInv Delay AbsTraceCb Histories AbsResolve AbsStep AbsLook Effects Observe Transfer Lookups Calls Origins Rounds Bound Waiters Entries.

Section evict.
  Context (k : cfg) (Hk : fine_cfg k).
  Notation srel := (srel comp_abs comp_ptr crel).
  Notation top := (top k).
  Notation look := (looki k).
  Notation logged s := (evicted (m_log (me s))).

  (** ** only insertions evict *)
  Lemma path_logged (A : kind -> Prop) s s' : (forall κ, A κ -> ~ evicting κ) -> path k A s s' -> logged s' = logged s.
  Proof using.
    intros HA P. induction P as [|s s1 s' (κ & Aκ & M) P IH]; [done|]. rewrite IH, (n_evict _ _ _ _ M). specialize (HA κ Aκ). by destruct κ.
  Qed.
  Lemma okind_evicting o κ : okind k o κ -> evicting κ -> inserts o = true.
  Proof using.
    induction o as [o IH] using op_ind'. destruct o; simpl; try done; try (by intros; subst; intuition (subst; done)).
    - intros [-> |[-> |[_ [(o & -> & _)|(x & Hx & Ho)%anyof_exists]]]] He; try done. apply existsb_exists. exists x. split; [by apply elem_of_list_In|]. by apply (Forall_in _ _ _ IH Hx).
    - destruct IH as [IH1 IH2]. intros [_ [-> |[-> |[-> |[(? & -> & _)|[(x & Hx & Ho)%anyof_exists|(x & Hx & Ho)%anyof_exists]]]]]] He; try done; apply orb_true_iff; [left|right];
        apply existsb_exists; exists x; (split; [by apply elem_of_list_In|]); [by apply (Forall_in _ _ _ IH1 Hx)|by apply (Forall_in _ _ _ IH2 Hx)].
    - intros [_ [-> |[(key & [-> |[-> _]])|[(key & o & -> & _)|[(x & Hx & (y & Hy & Ho)%anyof_exists)%anyof_exists|(e & ->)]]]]] He; try done.
      apply existsb_exists. exists x. split; [by apply elem_of_list_In|]. apply existsb_exists. exists y. split; [by apply elem_of_list_In|].
      pose proof (Forall_in _ _ _ IH Hx) as IHx. by apply (Forall_in _ _ _ IHx Hy).
  Qed.
  Lemma all_logged (sa : sta) (sc : cache) : srel sa sc -> all_evictions sc = length (logged sa).
  Proof using. intros S. unfold all_evictions. rewrite (srel_me _ _ S). induction (m_log (me sc)) as [|[] l IH]; simpl; congruence. Qed.
  Lemma key_logged (sa : sta) (sc : cache) key : srel sa sc -> evictions k sc key = nevict k (m_log (me sa)) key.
  Proof using. intros S. unfold evictions. by rewrite (srel_me _ _ S). Qed.
  Lemma up_path o (s s' : sta) r : top s -> fine_op false o = true -> m_up (me s) = true -> o <> ODestroy -> step k false o s = Ok (s', r) ->
    path k (upto (okind k o) (m_ncb (me s))) s s'.
  Proof using Hk. intros T Hf Hup Hn E. destruct (top_step k Hk o s T Hf) as (s1 & r1 & E1 & _ & _ & _ & Hu & _). rewrite E in E1. injection E1 as <- <-. by apply Hu. Qed.
  Lemma quiet_logged o (s s' : sta) r : top s -> fine_op false o = true -> m_up (me s) = true -> o <> ODestroy -> inserts o = false -> step k false o s = Ok (s', r) -> logged s' = logged s.
  Proof using Hk.
    intros T Hf Hup Hn Hi E. eapply path_logged; [|by eapply up_path]. intros κ [Hκ|(i & -> & _)] He; [|done]. by rewrite (okind_evicting o κ Hκ He) in Hi.
  Qed.
  Lemma no_insertion l o sc sc' : fine (l ++ [o]) -> after k l sc -> after k (l ++ [o]) sc' -> m_up (me sc') = true -> inserts o = false -> all_evictions sc' = all_evictions sc.
  Proof using Hk.
    intros Hf Ha Ha' Hup Hi. destruct (after_snoc k Hk l o sc sc' Hf Ha Ha') as (sa & sa' & r & S & S' & T & T' & E & _).
    rewrite (all_logged _ _ S), (all_logged _ _ S'). f_equal. apply fine_app in Hf as [_ Hf]. unfold fine in Hf. simpl in Hf. rewrite andb_true_r in Hf.
    rewrite (look_up sa' sc' S') in Hup. destruct (up_step k Hk o sa sa' r T Hf E Hup) as [Hup0 Hn]. by eapply quiet_logged.
  Qed.

  (** ** and not more than needed *)
  Lemma f_evicts_logged l : forall s : sta, length (logged (f_evicts k s l)) <= length (logged s) + length l.
  Proof using.
    induction l as [|e l IH]; intros s; [simpl; lia|]. simpl. fold (f_evicts k (f_evict k s e) l). etrans; [apply IH|].
    assert (length (logged (f_evict k s e)) <= length (logged s) + 1); [|lia].
    assert (forall t f, logged (p_upd t e f) = logged t) as Hu by (intros t f; by rewrite (proj1 (proj2 (proj2 (p_upd_me t e f))))).
    unfold f_evict, f_weaken, f_mark. assert (length (logged (f_note s e)) <= length (logged s) + 1); [|destruct (k_weaken k); by rewrite Hu].
    unfold f_note. destruct (m_els (me s) !! e) as [el|]; [|lia]. destruct (m_live (el_map el)); simpl; lia.
  Qed.
  Lemma maint_logged n (s : sta) : k_max_size k = Some n -> length (logged (f_maint k s)) <= length (logged s) + (length (tab s) - n).
  Proof using.
    intros Hm. unfold f_maint. etrans; [apply f_evicts_logged|]. unfold victims, aq_victims. rewrite Hm. fold (tab s). rewrite take_length. case_bool_decide; lia.
  Qed.
  Lemma tab_enter g (s s' : sta) key cl o : mini k (KEnter key cl o) s s' -> inv k g s' -> a_torn (cs s') = None -> exists e, forall x, x ∈ tab s' -> x = e \/ is_Some (tv s x).
  Proof using.
    intros [_ _ _ _ HB _] Hi Ht. remember (KEnter key cl o) as κ eqn:Eκ. destruct HB as [κ Hκ|κ e0 el0 o0 T0 Hc|e key0 cl0 mp T _ _ _ _ Hv|?|?]; subst; try done; [by destruct Hκ as [?|[[? ?]|[[? ?]|[? ?]]]]|by inversion Hc|].
    exists e. intros x Hx. destruct (decide (x = e)) as [|Hne]; [by left|right]. destruct (i_tab _ _ _ Hi x) as [el Hel]; [by apply tab_LT|].
    pose proof (tv_some _ _ el Hx Hel) as Tx. rewrite Hv in Tx by done. rewrite Tx. eauto.
  Qed.
  Lemma grown (s s' : sta) g e : inv k g s' -> a_torn (cs s') = None -> (forall x, x ∈ tab s' -> x = e \/ is_Some (tv s x)) -> length (tab s') <= S (length (tab s)).
  Proof using.
    intros Hi Ht H. change (S (length (tab s))) with (length (e :: tab s)). apply submseteq_length, NoDup_submseteq; [by eapply tab_nodup|].
    intros x [->|[el [Hx _]%tv_elim]]%H; [by left|by right].
  Qed.
  Lemma emplace_logged n (s : sta) key v : k_max_size k = Some n -> inv k g0 s -> a_torn (cs s) = None ->
    length (logged (f_emplace k s key v)) <= length (logged s) + (S (length (tab s)) - n).
  Proof using.
    intros Hm Hi Ht. unfold f_emplace. destruct (expire_ends k g0 s key Hi Ht) as ((_ & I1 & _) & T1).
    destruct (insert_ends k g0 (f_expire k s key) key v I1 T1) as [I3 T3].
    assert (path k (fun κ => κ = KFree \/ κ = KErase key) s (f_expire k s key)) as P1 by (eapply expire_path; try done; tauto).
    destruct (insert_enter k g0 (f_expire k s key) key v HClean I1 T1 eq_refl) as (s2 & P2 & M); [by eapply expire_nohope|].
    assert (logged (f_insert k (f_expire k s key) key v) = logged s) as El.
    { rewrite (n_evict _ _ _ _ M). simpl. rewrite (path_logged (fun κ => κ = KFree) (f_expire k s key) s2); [|intros ? ->; simpl; tauto|done].
      apply (path_logged (fun κ => κ = KFree \/ κ = KErase key)); [|done]. intros ? [-> | ->]; simpl; tauto. }
    etrans; [by apply maint_logged|]. rewrite El. destruct (tab_enter g0 _ _ _ _ _ M I3 T3) as [e He].
    assert (length (tab (f_insert k (f_expire k s key) key v)) <= S (length (tab s))); [|lia]. apply (grown s _ g0 e I3 T3).
    intros x [->|Hx]%He; [by left|right].
    apply (path_old k (fun κ => κ = KFree \/ κ = KErase key) s (f_expire k s key) x); [by intros ? ? ? [?|?]|done|]. apply (path_old k (fun κ => κ = KFree) _ s2 x); [by intros|done|done].
  Qed.
  Lemma goe_logged n (s : sta) key v : k_max_size k = Some n -> inv k g0 s -> a_torn (cs s) = None -> J k s ->
    length (logged (f_goe k s key v).1) <= length (logged s) + (S (length (tab s)) - n).
  Proof using.
    intros Hm Hi Ht HJ. destruct (f_find k s key true).2 as [[e r]|] eqn:Ef.
    - destruct (get_ends k g0 s key true Hi Ht) as (_ & I1 & X1 & T1 & _).
      assert (path k (fun κ => κ = KFree \/ κ = KHit key) s (f_get k s key true).1) as P1 by (apply (get_path k _ g0); try done; tauto).
      unfold f_goe. unfold f_get in *. destruct (f_find k s key true) as [s0 [[e' r']|]]; [|done]. simpl in *.
      etrans; [by apply maint_logged|]. rewrite (path_logged (fun κ => κ = KFree \/ κ = KHit key) s _); [|intros ? [-> | ->]; simpl; tauto|exact P1].
      assert (length (tab (f_hit k s0 e')) <= S (length (tab s))); [|lia]. apply (grown s _ g0 0%N I1 T1). intros x Hx. right.
      destruct (i_tab _ _ _ I1 x) as [el Hel]; [by apply tab_LT|]. pose proof (tv_some _ _ el Hx Hel) as Tx.
      apply (path_old k (fun κ => κ = KFree \/ κ = KHit key) s (f_hit k s0 e') x); [by intros ? ? ? [?|?]|exact P1|by rewrite Tx].
    - destruct (goe_enter k g0 s key v Hi Ht eq_refl HJ Ef) as (s2 & s3 & P1 & _ & M & _ & g' & e & I3 & T3 & -> & _).
      rewrite (proj1 (proj2 (proj2 (f_dec_me (f_maint k s3) e)))). etrans; [by apply maint_logged|].
      rewrite (n_evict _ _ _ _ M). simpl. rewrite (path_logged (fun κ => κ = KFree) s s2); [|intros ? ->; simpl; tauto|done].
      destruct (tab_enter g' _ _ _ _ _ M I3 T3) as [e0 He]. assert (length (tab s3) <= S (length (tab s))); [|lia]. apply (grown s _ g' e0 I3 T3).
      intros x [->|Hx]%He; [by left|right]. apply (path_old k (fun κ => κ = KFree) _ s2 x); [by intros|done|done].
  Qed.
  Lemma insertion n l o key v sc sc' : k_max_size k = Some n -> fine l -> after k l sc -> after k (l ++ [o]) sc' -> o = OEmplace key v \/ o = OGetOrEmplace key v ->
    all_evictions sc' <= all_evictions sc + (S (length (table_entries sc)) - n).
  Proof using Hk.
    intros Hm Hf Ha Ha' Ho. assert (fine (l ++ [o])) as Hf' by (apply fine_app; split; [done|]; apply fine_one; by destruct Ho as [-> | ->]).
    destruct (after_snoc k Hk l o sc sc' Hf' Ha Ha') as (sa & sa' & r & S & S' & T & T' & E & _).
    rewrite (all_logged _ _ S), (all_logged _ _ S'). destruct (m_up (me sa)) eqn:Hup.
    2: { assert (sa' = sa) as ->; [|lia]. rewrite step_eq in E. unfold step_with in E. rewrite Hup in E. destruct Ho as [-> | ->]; simpl in E; congruence. }
    destruct (top_facts k sa T Hup) as (Hi & Ht & HJ). rewrite (table_obs sa sc S Ht). destruct (holds k sa v) eqn:Hh.
    - destruct Ho as [-> | ->].
      + rewrite (step_emplace k sa key v T Hup Hh) in E. injection E as <- <-. by apply emplace_logged.
      + rewrite (step_goe k sa key v T Hup Hh) in E. etrans; [|by apply (goe_logged n sa key v)].
        assert (sa' = (f_goe k sa key v).1 \/ exists w, sa' = give k (f_goe k sa key v).1 w) as [-> |[w ->]].
        { destruct (f_goe k sa key v).2; unfold ret_value in E; injection E as <- <-; eauto. }
        * done.
        * unfold give. by destruct (k_pointer k).
    - assert (sa' = sa) as ->; [|lia]. rewrite step_eq in E. unfold step_with in E. rewrite Hup in E. destruct Ho as [-> | ->]; simpl in E; rewrite Hh in E; simpl in E; congruence.
  Qed.
End evict.

(** ** what is left *)
Section left.
  Context (k : cfg) (Hk : fine_cfg k) (Hta : tame k) (Hq : eq_ok k) (Hra : k_resolver k <> RAsync).
  Notation srel := (srel comp_abs comp_ptr crel).
  Notation top := (top k).
  Notation look := (looki k).
  Notation logged s := (evicted (m_log (me s))).
  Notation nlog s key := (nevict k (m_log (me s)) key).

  Lemma no_pending (s : sta) x el : J k s -> tv s x = Some el -> el_pending el = false.
  Proof using Hra. intros HJ Tx. destruct (j_sync _ _ HJ) as [?|[_ H]]; [done|]. by eapply H. Qed.
  Lemma unlinked (s : sta) x y : J k s -> ~ linked s x y.
  Proof using Hra. intros HJ (en & p & Tn & Em & _). pose proof (no_pending s x en HJ Tn) as H. unfold el_pending in H. by rewrite Em in H. Qed.
  Lemma evict_gone (s s' : sta) key : J k s -> uq k none s -> path k maint_kind s s' -> nlog s key < nlog s' key -> nohope k s' key.
  Proof using Hta Hq Hra.
    intros HJ Hu P. induction P as [|s s1 s' (κ & Aκ & M) P IH]; [lia|]. intros Hlt.
    assert (nlog s1 key = nlog s key \/ exists key', κ = KEvict key' true /\ k_eq k key' key = true) as [En|(key' & -> & Ek)].
    { rewrite !nevict_evicted, (n_evict _ _ _ _ M). destruct κ; try (by left). destruct live; [|by left]. simpl. destruct (k_eq k key0 key) eqn:Ek; [right; eauto|by left]. }
    - apply IH; [by eapply mini_J| |lia]. eapply mini_uq; [exact Hq| |exact M|exact Hu]. destruct Aκ as [-> |He]; [done|by destruct κ].
    - apply (path_nohope k maint_kind s1 s' key); [by intros ? ? ? [?|?]|exact P|]. clear IH P Hlt.
      destruct M as [_ _ _ _ HB _]. remember (KEvict key' true) as κ eqn:Eκ. destruct HB as [κ Hκ|κ e el o T Hc Te Hot|?|?|?]; try done; [destruct Hκ as [?|[[? ?]|[[? ?]|[? ?]]]]; congruence|].
      assert (el_key el = key' /\ m_live (el_map el) = true /\ exists el', o = Some el' /\ hopeful (el_map el') = false) as (<- & Hl & el' & -> & Hh).
      { pose proof (no_pending s e el HJ T) as Hp. unfold el_pending in Hp. destruct Hc as [| | | | |Hm Hw|Hm Hw|Hm| | | | | |]; try done; injection Eκ as Ek' El; (split; [done|split; [done|]]); eexists; (split; [done|]); simpl.
        - unfold m_mark_expired. destruct (el_map el), (k_pointer k); done.
        - destruct (el_map el); try done. simpl. destruct (k_pointer k) eqn:Ep; [|done]. destruct Hta as [?|[?|?]]; congruence. }
      intros x elx Tx [Hx1 Hx2]. destruct (decide (x = e)) as [->|Hne]; [congruence|]. rewrite Hot in Tx by done. destruct (hopeful (el_map elx)) eqn:Hhx; [exfalso|done].
      destruct Hq as (_ & Hs & Htr & _). destruct (Hu x e elx el Tx T Hne) as [L|[L|[L|L]]]; try done; try (by eapply unlinked).
      + eapply Htr; [exact Hx2|by apply Hs].
      + by destruct (el_map el).
  Qed.

  Section map.
    Context (Hr : k_resolver k = RNone) (Hm : k_max_age k = None) (Hrf : k_refresh k = None) (Hp : k_pointer k = false).
    Definition puts (o : op) : bool := match o with OEmplace _ _ | OGetOrEmplace _ _ => true | _ => false end.
    Lemma okind_puts o κ : okind k o κ -> evicting κ -> puts o = true.
    Proof using Hr Hra Hrf.
      destruct o; simpl; try done; try (by intros; subst; intuition (subst; done)).
      - intros [-> |[-> |[? _]]]; [done|done|congruence].
      - rewrite Hrf. intros [[? ?] _]; congruence.
    Qed.
    Lemma evict_step o (s s' : sta) r : top s -> uq k none s -> m_up (me s) = true -> fine_op false o = true -> o <> ODestroy -> step k false o s = Ok (s', r) -> forall key,
      val (look s' key false) = if nlog s' key <=? nlog s key then map_op k o (fun key => val (look s key false)) key else None.
    Proof using Hk Hta Hq Hr Hm Hrf Hp Hra.
      intros T Hu Hup Hf Hn E key'. destruct (top_facts k s T Hup) as (Hi & Ht & HJ). pose proof (map_ages k Hm Hrf) as Hag.
      assert (inv k g0 s' /\ a_torn (cs s') = None) as [Hi' Ht'].
      { destruct (top_step k Hk o s T Hf) as (s1 & r1 & E1 & T1 & _ & _ & Hs & _). rewrite E in E1. injection E1 as <- <-. destruct (top_facts k s' T1) as (? & ? & _); [by apply Hs|done]. }
      destruct (puts o) eqn:Hins.
      2: { assert (nlog s' key' = nlog s key') as ->. { rewrite !nevict_evicted. do 2 f_equal. eapply path_logged; [|by eapply up_path]. intros κ [Hκ|(i & -> & _)] He; [|done]. by rewrite (okind_puts o κ Hκ He) in Hins. }
        rewrite Nat.leb_refl. set (k0 := k).
        assert (leaves k key' o = true -> val (look s' key' false) = val (look s key' false)) as Hsame.
        { intros Hl. f_equal. eapply (leaves_look k o s s'); try done. by eapply up_path. }
        destruct o; simpl in Hins |- *; try (apply Hsame; simpl; rewrite ?Hr, ?Hm, ?Hrf; done); try done.
        - rewrite (step_emplace_throw k s key T Hup) in E. injection E as <- <-. destruct (k_eq k key key') eqn:Ek; unfold k0; rewrite Ek.
          + rewrite (erase_self k g0); try done. by apply Hq.
          + by rewrite (erase_other k g0).
        - rewrite (step_erase k s key T Hup) in E. injection E as <- <-. destruct (k_eq k key key') eqn:Ek; unfold k0; rewrite Ek.
          + rewrite (erase_self k g0); try done. by apply Hq.
          + by rewrite (erase_other k g0).
        - rewrite (step_clear k s T Hup) in E. injection E as <- <-. by rewrite (clear_look k g0). }
      assert (forall s2 s3 key v, path k (fun κ => κ = KFree \/ κ = KErase key \/ κ = KHit key) s s2 -> (mini k (KEnter key HClean (Some v)) s2 s3 \/ s3 = s2) -> path k maint_kind s3 s' -> inv k g0 s' -> a_torn (cs s') = None ->
        nlog s key' < nlog s' key' -> look s' key' false = R0) as Hgone.
      { intros s2 s3 key v P1 M P2 I' T' Hlt. apply (nohope_look k g0); try done.
        assert (path k (fun κ => clean none κ /\ ~ evicting κ) s s3) as P3.
        { eapply path_trans; [eapply path_weaken; [|exact P1]; intros κ [-> |[-> | ->]]; simpl; tauto|]. destruct M as [M| ->]; [|apply path_refl]. eapply path_one; [|exact M]. simpl. tauto. }
        assert (J k s3) as HJ3 by (by eapply path_J). assert (uq k none s3) as Hu3 by (eapply (path_uq k none _ s s3 Hq); [|exact P3|done]; by intros κ [? _]).
        apply (evict_gone s3 s' key' HJ3 Hu3 P2). assert (nlog s3 key' = nlog s key') as ->; [|done]. rewrite !nevict_evicted. f_equal. f_equal.
        eapply path_logged; [|exact P3]. by intros κ [_ ?]. }
      destruct o; try done; simpl.
      - rewrite (step_emplace k s key v T Hup (map_holds k Hp s v)) in E. injection E as <- <-.
        destruct (Nat.leb_spec (nlog (f_emplace k s key v) key') (nlog s key')) as [Hle|Hlt].
        + destruct (k_eq k key key') eqn:Ek; [rewrite (emplace_self k g0)|rewrite (emplace_other k g0)]; try done; by right.
        + destruct (expire_ends k g0 s key Hi Ht) as ((_ & I1 & _) & T1). destruct (insert_ends k g0 (f_expire k s key) key v I1 T1) as [I3 T3].
          destruct (insert_enter k g0 (f_expire k s key) key v HClean I1 T1 eq_refl) as (s2 & P2 & M); [by eapply expire_nohope|].
          rewrite (Hgone s2 (f_insert k (f_expire k s key) key v) key v); try done; [|by left|].
          * eapply path_trans; [eapply expire_path; try done; tauto|]. eapply path_weaken; [|exact P2]. tauto.
          * eapply maint_path; try done; [by left|by right].
      - rewrite (step_goe k s key v T Hup (map_holds k Hp s v)) in E.
        assert (s' = (f_goe k s key v).1) as ->. { destruct (f_goe k s key v).2; unfold ret_value in E; rewrite ?(map_give k Hp) in E; congruence. }
        assert (nlog s key' < nlog (f_goe k s key v).1 key' -> look (f_goe k s key v).1 key' false = R0) as Hg.
        { intros Hlt. destruct (f_find k s key true).2 as [[e r0]|] eqn:Ef.
          - destruct (get_ends k g0 s key true Hi Ht) as (_ & I1 & X1 & T1 & _).
            assert (path k (fun κ => κ = KFree \/ κ = KErase key \/ κ = KHit key) s (f_get k s key true).1) as P1 by (apply (get_path k _ g0); try done; tauto).
            apply (Hgone (f_get k s key true).1 (f_get k s key true).1 key v); try done; [by right|].
            unfold f_goe. unfold f_get in *. destruct (f_find k s key true) as [s0 [[e' r']|]]; [|done]. simpl in *. eapply maint_path; try done; [by left|by right].
          - destruct (goe_enter k g0 s key v Hi Ht eq_refl HJ Ef) as (s2 & s3 & P1 & _ & M & P2 & _).
            apply (Hgone s2 s3 key v); try done; [|by left]. eapply path_weaken; [|exact P1]. tauto. }
        destruct (Nat.leb_spec (nlog (f_goe k s key v).1 key') (nlog s key')) as [Hle|Hlt]; [|by rewrite Hg].
        destruct (val (look s key false)) as [w|] eqn:Ev.
        + destruct (goe_hit k g0 s key v key' false) as [_ ->]; try done; [|by right]. rewrite (map_incl k Hr) by done. by destruct (look s key false).
        + assert (look s key false = R0) as E0 by (rewrite look_val; by rewrite Ev).
          destruct (goe_miss k g0 s key v key' false) as [_ ->]; try done; [by rewrite (map_incl k Hr)| |by right]. by destruct (k_eq k key key').
    Qed.
    Lemma evict_map_step l o sc sc' : fine (l ++ [o]) -> after k l sc -> after k (l ++ [o]) sc' -> m_up (me sc') = true -> forall key,
      peek k sc' key = if evictions k sc' key <=? evictions k sc key then map_op k o (peek k sc) key else None.
    Proof using Hk Hta Hq Hr Hm Hrf Hp Hra.
      intros Hf Ha Ha' Hup key. pose proof Hf as [Hf1 Hf2]%fine_app. unfold fine in Hf2. simpl in Hf2. rewrite andb_true_r in Hf2.
      destruct (after_abs k Hk l sc Hf1 Ha) as (sa & R & S & T & _). destruct (top_step k Hk o sa T Hf2) as (sa' & r & E & T' & _).
      destruct (step_c k _ _ _ _ _ _ S E) as (sc2 & Ec & S'). assert (sc' = sc2) as -> by exact (after_step k l o sc sc' sc2 r Ha Ha' Ec). clear Ha'.
      rewrite (look_up sa' sc2 S') in Hup. destruct (up_step k Hk o sa sa' r T Hf2 E Hup) as [Hup0 Hn].
      assert (m_up (me sc) = true) as Hupc by (by rewrite (look_up _ _ S)).
      assert (forallb (plain_op k) l = true) as Hpl. { apply forallb_forall. intros x _. destruct x; simpl; by rewrite Hr. }
      assert (uq k none sa) as Hu. { eapply (run_unique k Hk Hq l st_init sa); [apply top_init|exact Hf1|exact Hpl|exact R| |done]. intros _. apply uq_init. }
      rewrite (key_logged k _ _ key S), (key_logged k _ _ key S'), (peek_look k Hta _ _ key S' T'), (look_up _ _ S'), Hup.
      rewrite (evict_step o sa sa' r T Hu Hup0 Hf2 Hn E key). destruct (_ <=? _); [|done].
      assert (forall key, peek k sc key = val (look sa key false)) as Hpk by (intros key0; by rewrite (peek_look k Hta _ _ key0 S T), Hupc).
      destruct o; simpl; rewrite ?Hpk; try done. destruct (val (look sa key0 false)); [by rewrite Hpk|]. destruct (k_eq k key0 key); [done|by rewrite Hpk].
    Qed.
    Lemma limited_map l o sc sc' : fine (l ++ [o]) -> after k l sc -> after k (l ++ [o]) sc' -> m_up (me sc') = true -> forall key,
      (spared k sc sc' key -> peek k sc' key = map_op k o (peek k sc) key) /\ (evictions k sc key < evictions k sc' key -> peek k sc' key = None).
    Proof using Hk Hta Hq Hr Hm Hrf Hp Hra.
      intros Hf Ha Ha' Hup key. rewrite (evict_map_step l o sc sc' Hf Ha Ha' Hup key). split.
      - intros Hs. rewrite leb_correct; [done|]. destruct (after_snoc k Hk l o sc sc' Hf Ha Ha') as (sa & sa' & r & S & S' & T & _ & E & _).
        destruct (spared_un k sa sa' sc sc' key S S' Hs) as [Hn|Hle]; [|by rewrite (key_logged k _ _ key S), (key_logged k _ _ key S')].
        rewrite (key_logged k _ _ key S), (key_logged k _ _ key S'). pose proof Hf as [_ Hf2]%fine_app. unfold fine in Hf2. simpl in Hf2. rewrite andb_true_r in Hf2.
        rewrite (look_up sa' sc' S') in Hup. destruct (up_step k Hk o sa sa' r T Hf2 E Hup) as [Hup0 Hnd].
        rewrite !nevict_evicted. erewrite (path_logged k _ sa sa'); [done| |apply (path_noevict k); [done|by eapply up_path]]. by intros κ [_ ?].
      - intros Hlt. by rewrite leb_correct_conv.
    Qed.
  End map.
End left.

Lemma map_with_limit k : fine_cfg k -> eq_ok k -> k_resolver k = RNone -> k_max_age k = None -> k_refresh k = None -> k_pointer k = false -> forall l o sc sc' key,
  fine (l ++ [o]) -> after k l sc -> after k (l ++ [o]) sc' -> m_up (me sc') = true ->
  (spared k sc sc' key -> peek k sc' key = map_op k o (peek k sc) key) /\ (evictions k sc key < evictions k sc' key -> peek k sc' key = None).
Proof.
  intros Hk Hq Hr Hm Hrf Hp l o sc sc' key Hf Ha Ha' Hup. eapply limited_map; try done; [by left|by rewrite Hr].
Qed.
