(** What each operation does to what lookups see. *)
From stdpp Require Import sorting.
From Verif Require Import Base AQueue ATable BasicHashtable QueueProofs BasicHashtableProofs ContainersProofs Mapped Cache CacheAbs CompSim CacheSim AbsInv AbsPrim AbsPrim2 AbsSweep AbsOps AbsComp Trace AbsTrace TraceInv Delay AbsTraceCb Histories AbsResolve AbsStep AbsLook.

Section effects.
  Context (k : cfg).
  Notation inv := (inv k).
  Notation mini := (mini k).
  Notation path := (path k).
  Notation J := (J k).
  Notation tame := (tame k).
  Notation eq_ok := (eq_ok k).
  Notation look := (looki k).
  Notation free := (fun κ => κ = KFree).

  (** ** Keys *)
  Lemma other_of key key' : eq_ok -> k_eq k key' key = false -> other k key key'.
  Proof.
    intros (_ & Hs & Htr & _) E. split; [done|]. intros a Ha. destruct (k_eq k a key) eqn:Ek; [|done].
    rewrite <-E. symmetry. apply (Htr key' a key); [by apply Hs|done].
  Qed.
  Lemma eq_hash key key' : eq_ok -> k_eq k key key' = true -> k_hash k key = k_hash k key'.
  Proof. intros (_ & _ & _ & Hh). apply Hh. Qed.
  Lemma eq_false key key' : eq_ok -> k_eq k key key' = false -> k_eq k key' key = false.
  Proof. intros (_ & Hs & _ & _) E. destruct (k_eq k key' key) eqn:E'; [|done]. by rewrite (Hs _ _ E') in E. Qed.
  Lemma same_key_eq el key key' : eq_ok -> k_eq k key' key = true -> same_key k el key' -> same_key k el key.
  Proof. intros (H1 & H2 & H3 & H4) E [Eh Ek]. split; [rewrite Eh; by apply H4|by eapply H3]. Qed.
  Lemma nohope_eq s key key' : eq_ok -> k_eq k key' key = true -> nohope k s key -> nohope k s key'.
  Proof. intros Hq E Hn x el T Hs. eapply Hn; [exact T|]. by eapply same_key_eq. Qed.
  (** equal keys see the same *)
  Lemma look_eq g s key key' incl : eq_ok -> inv g s -> k_eq k key key' = true -> look s key incl = look s key' incl.
  Proof.
    intros Hq Hi E. unfold looki. rewrite (eq_hash _ _ Hq E). apply firstv_ext. intros x _. unfold cand.
    destruct (tv s x) as [el|]; [|done]. destruct Hq as (H1 & H2 & H3 & H4).
    destruct (k_eq k (el_key el) key) eqn:E1, (k_eq k (el_key el) key') eqn:E2; try done; exfalso.
    - by rewrite (H3 _ _ _ E1 E) in E2.
    - by rewrite (H3 _ _ _ E2 (H2 _ _ E)) in E1.
  Qed.

  (** ** Without size limit nothing is evicted *)
  Lemma no_evict κ s s' : k_max_size k = None -> mini κ s s' -> ~ evicting κ.
  Proof. intros Hm [_ _ _ _ HB _] He. inversion HB as [? [?|[[? ?]|[[? ?]|[? ?]]]]|? ? ? ? ? Hc| | |]; subst; try done. by inversion Hc; subst. Qed.
  Lemma path_noevict (A : kind -> Prop) s s' : k_max_size k = None -> path A s s' -> path (fun κ => A κ /\ ~ evicting κ) s s'.
  Proof.
    intros Hm. unfold Trace.path. apply rtc_subrel. intros x y (κ & H1 & H2). exists κ. split; [|done]. split; [done|]. by apply (no_evict κ x y).
  Qed.
  (** number of evictions of live entries with an equal key in a log *)
  Definition nevict (l : list ev) (key : Z) : nat := length (List.filter (fun v => match v with EvEvict key' => k_eq k key' key | _ => false end) l).
  Lemma nevict_app l1 l2 key : nevict (l1 ++ l2) key = nevict l1 key + nevict l2 key.
  Proof. unfold nevict. by rewrite List.filter_app, app_length. Qed.
  Lemma nevict_evicted l key : nevict l key = length (List.filter (fun key' => k_eq k key' key) (evicted l)).
  Proof. unfold nevict. induction l as [|[] l IH]; simpl; try done. destruct (k_eq k k0 key); simpl; by rewrite IH. Qed.
  (** changes that evict no live entry with an equal key *)
  Definition sparing (key : Z) (κ : kind) : Prop := match κ with KEvict key' live => live = true -> k_eq k key' key = false | _ => True end.
  Lemma mini_nevict κ s s' key : mini κ s s' -> nevict (m_log (me s)) key <= nevict (m_log (me s')) key /\ (nevict (m_log (me s')) key <= nevict (m_log (me s)) key -> sparing key κ).
  Proof.
    intros HM. destruct (n_log _ _ _ _ HM) as [l El]. rewrite El, nevict_app. split; [lia|]. rewrite <-nevict_app, <-El. intros Hle.
    destruct κ; simpl; try done. intros ->. rewrite !nevict_evicted, (n_evict _ _ _ _ HM) in Hle. simpl in Hle. destruct (k_eq k key0 key); [|done]. simpl in Hle. lia.
  Qed.
  Lemma path_nevict (A : kind -> Prop) s s' key : path A s s' -> nevict (m_log (me s)) key <= nevict (m_log (me s')) key.
  Proof. induction 1 as [|s1 s2 s3 (κ & H1 & H2) _ IH]; [done|]. destruct (mini_nevict _ _ _ key H2) as [H _]. lia. Qed.
  Lemma path_sparing (A : kind -> Prop) s s' key : path A s s' -> nevict (m_log (me s')) key <= nevict (m_log (me s)) key -> path (fun κ => A κ /\ sparing key κ) s s'.
  Proof.
    induction 1 as [|s1 s2 s3 (κ & H1 & H2) P IH]; intros Hle; [apply rtc_refl|]. destruct (mini_nevict _ _ _ key H2) as [Ha Hb]. pose proof (path_nevict _ _ _ key P) as Hc.
    eapply rtc_l; [exists κ; split; [split; [done|]|exact H2]|]; [apply Hb; lia|apply IH; lia].
  Qed.
  Lemma sparing_none key κ : ~ evicting κ -> sparing key κ.
  Proof. by destruct κ. Qed.
  (** no live entry with an equal key was evicted *)
  Definition unevicted (s s' : sta) (key : Z) : Prop := k_max_size k = None \/ nevict (m_log (me s')) key <= nevict (m_log (me s)) key.
  Lemma path_unevicted (A : kind -> Prop) s s' key : path A s s' -> unevicted s s' key -> path (fun κ => A κ /\ sparing key κ) s s'.
  Proof.
    intros P [Hm|Hle]; [|by apply path_sparing]. eapply path_weaken; [|by apply path_noevict]. intros κ [? ?]. split; [done|]. by apply sparing_none.
  Qed.
  Lemma maint_none s : k_max_size k = None -> f_maint k s = s.
  Proof. intros Hm. unfold f_maint, victims. by rewrite Hm. Qed.

  (** ** erase *)
  Lemma erase_self g s key key' incl : eq_ok -> inv g s -> a_torn (cs s) = None -> k_eq k key' key = true ->
    look (f_expire k s key) key' incl = R0.
  Proof.
    intros Hq Hi Ht E. destruct (expire_ends k g s key Hi Ht) as ((_ & I & _) & T).
    apply (nohope_look k g); try done. eapply nohope_eq; [done|exact E|]. by eapply expire_nohope.
  Qed.
  Lemma erase_other g s key key' incl : tame -> eq_ok -> inv g s -> a_torn (cs s) = None -> J s -> k_eq k key key' = false ->
    look (f_expire k s key) key' incl = look s key' incl.
  Proof.
    intros Hta Hq Hi Ht HJ E. apply (path_look k (fun κ => κ = KFree \/ κ = KErase key)); [done|done|eapply expire_path; eauto|].
    intros s1 κ [-> | ->] _ _; simpl; [done|]. by apply other_of.
  Qed.
  (** ** clear *)
  Lemma clear_look g s key incl : inv g s -> a_torn (cs s) = None -> look (f_expire_all k s) key incl = R0.
  Proof.
    intros Hi Ht. unfold looki. apply firstv_none. intros x _. unfold cand. destruct (tv _ x) as [el|] eqn:T; [|done].
    destruct (expire_all_nohope k g s Hi Ht x el T) as (p & Em & Ep). unfold vis. rewrite Em, Ep. simpl. rewrite andb_false_r. by destruct (k_eq k _ _).
  Qed.
  Lemma clear_count g s : inv g s -> a_torn (cs s) = None -> p_count k (f_expire_all k s) = 0.
  Proof.
    intros Hi Ht. unfold p_count. destruct (expire_all_ends k g s Hi Ht) as ((_ & I & _) & T).
    rewrite filter_none; [done|]. intros x Hx. unfold live. destruct (tab_dom k g _ I T x Hx) as [el He]. rewrite He.
    destruct (expire_all_nohope k g s Hi Ht x (with_rc el 0)) as (p & Em & Ep); [by apply tv_some|]. simpl in Em.
    unfold el_expired. rewrite Em. simpl. rewrite Ep. simpl. tauto.
  Qed.
  Lemma maint_look s s' key incl : tame -> J s -> path maint_kind s s' -> unevicted s s' key -> look s' key incl = look s key incl.
  Proof.
    intros Hta HJ P Hu. apply (path_look k (fun κ => maint_kind κ /\ sparing key κ) s s' key incl Hta HJ); [by apply path_unevicted|].
    intros s1 κ [[-> |He] Hs] _ _; [done|]. by destruct κ.
  Qed.
  (** ** emplace *)
  Lemma emplace_self g s key v key' incl : tame -> eq_ok -> ages_ok k -> unevicted s (f_emplace k s key v) key' -> inv g s -> a_torn (cs s) = None -> g_xs g = [] -> J s -> k_eq k key key' = true ->
    look (f_emplace k s key v) key' incl = RV v.
  Proof.
    intros Hta Hq Ha Hm Hi Ht Gx HJ E.
    destruct (expire_ends k g s key Hi Ht) as ((_ & I & _) & T).
    assert (J (f_expire k s key)) as HJ1. { eapply (path_J k (fun _ => True)); [by eapply expire_path|done]. }
    assert (nohope k (f_expire k s key) key) as Hn by (by eapply expire_nohope).
    destruct (insert_enter k g (f_expire k s key) key v HClean) as (s2 & P & M); try done.
    destruct (insert_ends k g (f_expire k s key) key v I T) as [Ii Ti].
    assert (J s2) as HJ2 by (by eapply path_J). assert (J (f_insert k (f_expire k s key) key v)) as HJ3 by (by eapply mini_J).
    assert (path maint_kind (f_insert k (f_expire k s key) key v) (f_emplace k s key v)) as P4 by (eapply maint_path; try done; intros; unfold maint_kind; simpl; tauto).
    assert (unevicted (f_insert k (f_expire k s key) key v) (f_emplace k s key v) key') as Hev.
    { pose proof (path_nevict (fun κ => κ = KFree \/ κ = KErase key) s (f_expire k s key) key' ltac:(by eapply expire_path; eauto)). pose proof (path_nevict _ _ _ key' P). destruct (mini_nevict _ _ _ key' M) as [? _]. destruct Hm as [?|?]; [by left|right; lia]. }
    rewrite (maint_look _ _ key' incl Hta HJ3 P4 Hev).
    eapply enter_look; [exact M|done|done|done|by apply eq_hash|].
    rewrite (free_look k (f_expire k s key) s2 key' incl Hta HJ1 P).
    apply (nohope_look k g); try done. eapply nohope_eq; [done| |exact Hn]. by apply Hq.
  Qed.
  Lemma emplace_other g s key v key' incl : tame -> eq_ok -> unevicted s (f_emplace k s key v) key' -> inv g s -> a_torn (cs s) = None -> g_xs g = [] -> J s -> k_eq k key key' = false ->
    look (f_emplace k s key v) key' incl = look s key' incl.
  Proof.
    intros Hta Hq Hm Hi Ht Gx HJ E.
    eapply (path_look k); [done|done|apply path_unevicted; [|exact Hm]; eapply (emplace_path k (fun κ => κ = KFree \/ evicting κ \/ κ = KErase key \/ κ = KEnter key HClean (Some v))); eauto; intros; simpl; tauto|].
    intros s1 κ [Hκ Hne] _ _. destruct Hκ as [-> |[He |[-> | ->]]]; simpl; try done; [by destruct κ|by apply other_of|by left].
  Qed.
  (** ** lookups with hit *)
  Lemma get_result s key incl : (f_get k s key incl).2 = (f_find k s key incl).2.
  Proof. unfold f_get. by destruct (f_find k s key incl) as [s1 [[e r]|]]. Qed.
  Lemma get_miss s key incl : (f_find k s key incl).2 = None -> f_get k s key incl = ((f_find k s key incl).1, None).
  Proof. unfold f_get. by destruct (f_find k s key incl) as [s1 [[e r]|]]. Qed.
  Lemma get_answer g s key incl : tame -> inv g s -> a_torn (cs s) = None -> J s ->
    match look s key incl with R0 => (f_find k s key incl).2 = None | r => exists e, (f_find k s key incl).2 = Some (e, r) end.
  Proof.
    intros Hta Hi Ht HJ. pose proof (find_look k g s key incl Hta Hi Ht HJ) as E.
    destruct (f_find k s key incl).2 as [[e r]|] eqn:Ef; rewrite <-E; [|done].
    destruct (find_some k g s key incl e r Hi Ht Ef) as (_ & el & _ & _ & _ & Hr & _). by destruct r; eauto.
  Qed.
  Lemma get_look g s key incl key' incl' : tame -> ages_ok k -> inv g s -> a_torn (cs s) = None -> J s ->
    look (f_get k s key incl).1 key' incl' = look s key' incl'.
  Proof.
    intros Hta Ha Hi Ht HJ. apply (path_look k (fun κ => κ = KFree \/ κ = KHit key)); [done|done|eapply get_path; eauto|].
    intros s1 κ [-> | ->] _ _; simpl; [done|]. apply Ha.
  Qed.
  (** ** get_or_emplace *)
  Lemma goe_hit g s key v key' incl' : tame -> ages_ok k -> inv g s -> a_torn (cs s) = None -> g_xs g = [] -> J s -> look s key true <> R0 ->
    (f_goe k s key v).2 = match look s key true with RP => R0 | r => r end /\
    (unevicted s (f_goe k s key v).1 key' -> look (f_goe k s key v).1 key' incl' = look s key' incl').
  Proof.
    intros Hta Ha Hi Ht Gx HJ Hne. pose proof (get_answer g s key true Hta Hi Ht HJ) as Hans. pose proof (get_look g s key true key' incl' Hta Ha Hi Ht HJ) as Hl.
    destruct (get_ends k g s key true Hi Ht) as (_ & I1 & _ & T1 & _).
    pose proof (get_path k (fun _ => True) g s key true I I Hi Ht) as P1. pose proof (path_J k _ _ _ P1 HJ) as HJ1. pose proof (path_nevict _ _ _ key' P1) as Hn1.
    unfold f_goe, f_get in *. destruct (f_find k s key true) as [s1 [[e r]|]]; simpl in *.
    - split; [destruct (look s key true); try done; destruct Hans as [e' [= -> ->]]; done|]. intros Hev. rewrite <-Hl. apply maint_look; try done.
      + eapply maint_path; try done; try (by left); intros; right; done.
      + destruct Hev as [?|?]; [by left|right; lia].
    - destruct (look s key true); try done; by destruct Hans.
  Qed.
  Lemma goe_miss g s key v key' incl' : tame -> eq_ok -> ages_ok k -> inv g s -> a_torn (cs s) = None -> g_xs g = [] -> J s -> look s key true = R0 ->
    (f_goe k s key v).2 = RV v /\
    (unevicted s (f_goe k s key v).1 key' -> look (f_goe k s key v).1 key' incl' = if k_eq k key key' then RV v else look s key' incl').
  Proof.
    intros Hta Hq Ha Hi Ht Gx HJ E0. pose proof (get_answer g s key true Hta Hi Ht HJ) as Hans. rewrite E0 in Hans.
    destruct (goe_enter k g s key v Hi Ht Gx HJ Hans) as (s2 & s3 & P1 & Hn & M & P2 & _).
    split. { unfold f_goe. rewrite (get_miss _ _ _ Hans). done. }
    assert (J s2) as HJ2 by (eapply path_J; [exact P1|done]). assert (J s3) as HJ3 by (by eapply mini_J).
    intros Hm. assert (unevicted s3 (f_goe k s key v).1 key') as Hev.
    { pose proof (path_nevict _ _ _ key' P1). destruct (mini_nevict _ _ _ key' M) as [? _]. destruct Hm as [?|?]; [by left|right; lia]. }
    rewrite (maint_look s3 _ key' incl' Hta HJ3 P2 Hev).
    destruct (k_eq k key key') eqn:Ek.
    - eapply enter_look; [exact M|done|done|done|by apply eq_hash|]. rewrite (free_look k s s2 key' incl' Hta HJ P1).
      destruct incl'.
      + rewrite <-E0. symmetry. by eapply look_eq.
      + rewrite <-(free_look k s s2 key' false Hta HJ P1). unfold looki. apply firstv_none. intros x _. unfold cand. destruct (tv s2 x) as [el|] eqn:T; [|done].
        destruct (k_eq k (el_key el) key') eqn:Ek'; [|done]. apply vis_hope. apply (Hn x el T). destruct Hq as (H1 & H2 & H3 & H4).
        assert (k_eq k (el_key el) key = true) as E by (eapply H3; [exact Ek'|by apply H2]). split; [by apply H4|done].
    - rewrite (mini_look k (KEnter key HClean (Some v)) s2 s3 key' incl' Hta HJ2 M); [|simpl; by left]. by apply free_look.
  Qed.

  (** ** Operations that do not change what lookups of a key see *)
  Definition leaves (key : Z) : op -> bool := fix go o :=
    match o with
    | OGetIf _ | OCount | OReserve _ | OCancel _ | ODropCb _ => true
    | OEmplace key' _ | OGetOrEmplace key' _ => bool_decide (k_max_size k = None) && negb (k_eq k key' key)
    | OEmplaceThrow key' | OErase key' => negb (k_eq k key' key)
    | OGet key' script _ => match k_resolver k with RSync => negb (k_eq k key' key) && forallb go script | _ => true end
    | OAGet _ _ script _ _ imm => match k_resolver k with RAsync => forallb go script && forallb go imm | _ => true end
    | OAssign _ _ _ | OFail _ _ _ => match k_resolver k with RAsync => false | _ => true end
    | OAdvance _ _ | ORelease _ => bool_decide (k_max_age k = None) && bool_decide (k_refresh k = None)
    | OTick _ => bool_decide (k_refresh k = None)
    | _ => false
    end.
  Lemma leaves_harmless o s key κ : eq_ok -> ages_ok k -> J s -> leaves key o = true -> okind k o κ -> (k_max_size k = None -> ~ evicting κ) -> harmless k s key false κ.
  Proof.
    intros Hq Ha HJ. assert (k_resolver k <> RAsync -> m_cbs (me s) = ∅) as Hcb. { intros Hr. by destruct (j_sync _ _ HJ) as [?|[? _]]. }
    assert (forall i o δ, match k_resolver k with RAsync => false | _ => true end = true -> harmless k s key false (KDone i o δ)) as Hdone.
    { intros i o' δ Hr. simpl. split; [intros c Hc|intros c el Hc]; (rewrite Hcb in Hc; [by rewrite lookup_empty in Hc|intros E; by rewrite E in Hr]). }
    induction o as [o IH] using op_ind'. destruct o; simpl; intros Hl Hκ Hne; try done; try (by subst).
    - destruct Hκ as [-> |[-> |[Er [(o' & -> & _)|(x & Hx & Ho)%anyof_exists]]]]; try done; [simpl; apply Ha|..]; rewrite Er in Hl; apply andb_true_iff in Hl as [Hl1 Hl2].
      + simpl. left. by apply negb_true_iff.
      + apply (Forall_in _ _ _ IH Hx); [exact (forallb_in _ _ _ Hl2 Hx)|done|done].
    - destruct IH as [IH1 IH2]. destruct Hκ as [Er Hκ]. rewrite Er in Hl. apply andb_true_iff in Hl as [Hl1 Hl2].
      destruct Hκ as [-> |[-> |[-> |[(? & -> & _)|[(x & Hx & Ho)%anyof_exists|(x & Hx & Ho)%anyof_exists]]]]]; try done; [simpl; apply Ha|..].
      + simpl. auto.
      + apply (Forall_in _ _ _ IH1 Hx); [exact (forallb_in _ _ _ Hl1 Hx)|done|done].
      + apply (Forall_in _ _ _ IH2 Hx); [exact (forallb_in _ _ _ Hl2 Hx)|done|done].
    - apply andb_true_iff in Hl as [Hl1%bool_decide_eq_true Hl2%negb_true_iff]. destruct Hκ as [-> |[He |[-> | ->]]]; simpl; try done; [by destruct (Hne Hl1 He)|by apply other_of|by left].
    - apply negb_true_iff in Hl. destruct Hκ as [-> | ->]; simpl; [done|by apply other_of].
    - apply andb_true_iff in Hl as [Hl1%bool_decide_eq_true Hl2%negb_true_iff]. destruct Hκ as [-> |[He |[-> | ->]]]; simpl; try done; [by destruct (Hne Hl1 He)|apply Ha|by left].
    - apply negb_true_iff in Hl. destruct Hκ as [-> | ->]; simpl; [done|by apply other_of].
    - subst. by apply Hdone.
    - subst. by apply Hdone.
    - by destruct Hκ as [-> | ->]; simpl; auto.
    - by destruct Hκ as [-> |[-> | ->]]; simpl; auto.
    - apply andb_true_iff in Hl as [H1%bool_decide_eq_true H2%bool_decide_eq_true]. subst. simpl. by right.
    - apply andb_true_iff in Hl as [H1%bool_decide_eq_true H2%bool_decide_eq_true]. subst. simpl. by right.
    - apply bool_decide_eq_true in Hl. destruct Hκ as [[? Hr] _]. congruence.
  Qed.
  Lemma leaves_look o s s' n key : tame -> eq_ok -> ages_ok k -> J s -> leaves key o = true -> path (upto (okind k o) n) s s' ->
    look s' key false = look s key false.
  Proof.
    intros Hta Hq Ha HJ Hl P.
    assert (path (fun κ => upto (okind k o) n κ /\ (k_max_size k = None -> ~ evicting κ)) s s') as P'.
    { destruct (k_max_size k) eqn:Em; [eapply path_weaken; [|exact P]; by intros|]. eapply path_weaken; [|apply path_noevict; [done|exact P]]. intros κ [? ?]. done. }
    apply (path_look k _ s s' key false Hta HJ P'). intros s1 κ [[Hκ|(i & -> & _)] Hne] HJ1 _; [by eapply leaves_harmless|]. simpl. by left.
  Qed.
End effects.
