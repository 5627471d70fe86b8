(** Calls during which the equality throws (lemmas for PropertiesThrowing.v). *)
From stdpp Require Import sorting.
From Verif Require Import Base LinkedList AQueue ATable BasicHashtable LinkedListProofs QueueProofs BasicHashtableProofs ContainersProofs Mapped Cache Throwing CachePtr CacheAbs CompSim CacheSim AbsInv AbsPrim AbsPrim2 AbsSweep AbsOps AbsComp Trace AbsTrace TraceInv Delay AbsTraceCb Histories AbsResolve AbsStep AbsLook Effects Observe Transfer Lookups Origins Rounds Answers.

Section throwing.
  Context (k : cfg) (Hk : fine_cfg k).
  Notation srel := (srel comp_abs comp_ptr crel).
  Notation srel2 := (srel2 comp_abs comp_ptr crel).
  Notation top := (top k).

  (** ** the two levels *)
  Lemma h_comparing bad key v v' : vrel comp_abs comp_ptr crel v v' -> vrel comp_abs comp_ptr crel (comparing k bad key v) (comparing k bad key v').
  Proof using.
    intros Hv sa sc e H. unfold comparing.
    eapply rsim_bind; [apply (sim_hashof _ _ _ comp_ptr_sim); by apply srel_cs|]. intros h ? <-.
    assert (s_el sa e = s_el sc e) as -> by (unfold s_el; by rewrite (srel_me _ _ H)).
    destruct (s_el sc e) as [el| | |] eqn:E; simpl; try done. destruct (_ && _); [|by apply Hv].
    destruct H as [a c m H]. eexists. split; [done|]. by constructor.
  Qed.
  Lemma h_el {A B} (sa : sta) (sc : cache) e (f : elem -> res A) (f' : elem -> res B) (P : A -> B -> Prop) : srel sa sc -> (forall el, rsim P (f el) (f' el)) ->
    rsim P (el <- s_el sa e;; f el) (el <- s_el sc e;; f' el).
  Proof using.
    intros H Hf. unfold s_el. rewrite (srel_me _ _ H). destruct (rd_el (me sc) e) as [el| | |]; simpl; try done.
  Qed.
  (** ** what the loops do *)
  Section loop.
    Context (bad : Z -> Z -> bool) (key : Z) (visit : sta -> N -> res (sta * act)) (vs : sta -> N -> sta) (va : sta -> N -> act).
    Definition bads (s : sta) (e : N) : bool :=
      match a_hash (cs s) !! e, m_els (me s) !! e with Some h, Some el => bool_decide (h = k_hash k key) && bad (el_key el) key | _, _ => false end.
    Definition vs_c (s : sta) (e : N) : sta := if bads s e then s else vs s e.
    Definition va_c (s : sta) (e : N) : act := if bads s e then Stop R0 else va s e.
    Definition f_until (s : sta) : sta * option (N * mres) := fsw k vs_c va_c (bucket s (k_hash k key)) s.
    Lemma until_ends g s :
      (forall s e el, inv k g s -> a_torn (cs s) = None -> e ∈ concat (a_bs (cs s)) -> m_els (me s) !! e = Some el ->
        visit s e = Ok (vs s e, va s e) /\ inv k g (vs s e) /\ ext [] g s g (vs s e) /\ same_tab s (vs s e) /\
        (va s e = Drop -> exists el', m_els (me (vs s e)) !! e = Some el' /\ ~ is_pend el')) ->
      (forall s e s' a, visit s e = Ok (s', a) -> same_tab s s') -> inv k g s -> a_torn (cs s) = None ->
      sweep_bucket k (comparing k bad key visit) s (k_hash k key) = Ok (f_until s) /\
      inv k g (f_until s).1 /\ ext [] g s g (f_until s).1 /\ a_torn (cs (f_until s).1) = None.
    Proof using.
      intros Hv Hst Hi Ht. rewrite sweep_bucket_sw; [|..|done|by eapply tab_dom].
      2: { intros s1 e s1' a H. unfold comparing in H. rinv H. destruct (_ && _); [by injection H as <- <-|by eapply Hst]. }
      2: { by eapply tab_nodup. }
      apply (sw_fsw k (comparing k bad key visit) vs_c va_c g); try done.
      - intros s1 e el I1 T1 He Hel. destruct (Hv s1 e el I1 T1 He Hel) as (E & I & X & T & D).
        unfold comparing, vs_c, va_c, bads, s_el, rd_el. simpl. rewrite (i_hash _ _ _ I1 e el) by (done || by apply tab_LT). rewrite Hel. simpl.
        destruct (_ && _); [|done]. split_and!; try done. apply ext_refl.
      - by eapply bucket_nodup.
      - intros e. apply bucket_in.
    Qed.
    Lemma until_path A g s :
      (forall s e el, inv k g s -> a_torn (cs s) = None -> e ∈ tab s -> m_els (me s) !! e = Some el ->
        inv k g (vs s e) /\ same_tab s (vs s e) /\ path k A s (vs s e) /\
        (va s e = Drop -> exists el', m_els (me (vs s e)) !! e = Some el' /\ ~ is_pend el' /\ path k A (vs s e) (f_rem k (vs s e) e))) ->
      inv k g s -> a_torn (cs s) = None -> path k A s (f_until s).1.
    Proof using.
      intros Hv Hi Ht. unfold f_until. eapply (fsw_path k A g); try done; [|by eapply bucket_nodup|intros e; apply bucket_in].
      intros s1 e el I1 T1 He Hel. unfold vs_c, va_c. destruct (bads s1 e); [|by eapply Hv].
      split_and!; [done|apply same_tab_refl|apply path_refl|done].
    Qed.
    Lemma until_bad s e : (forall s e, va s e <> Stop R0) -> (f_until s).2 = Some (e, R0) -> exists a, bad a key = true.
    Proof using.
      intros Hn. unfold f_until. generalize (bucket s (k_hash k key)) as M. intros M. revert s. induction M as [|x M IH]; intros s; simpl; [done|].
      destruct (va_c s x) as [| |r] eqn:Ea; [by apply IH|by apply IH|]. simpl. intros [= -> ->]. unfold va_c, bads in Ea.
      destruct (a_hash (cs s) !! e) as [h|]; [|by apply Hn in Ea]. destruct (m_els (me s) !! e) as [el|]; [|by apply Hn in Ea].
      destruct (bool_decide _); simpl in Ea; [|by apply Hn in Ea]. destruct (bad (el_key el) key) eqn:Eb; [by eexists|by apply Hn in Ea].
    Qed.
    Lemma until_throws g e :
      (forall s e el, inv k g s -> a_torn (cs s) = None -> e ∈ tab s -> m_els (me s) !! e = Some el ->
        inv k g (vs s e) /\ cs (vs s e) = cs s /\ (forall x, x <> e -> m_els (me (vs s e)) !! x = m_els (me s) !! x) /\
        (va s e = Drop -> exists el', m_els (me (vs s e)) !! e = Some el' /\ ~ is_pend el')) ->
      (forall s e r, va s e = Stop r -> bads s e = true) ->
      forall M s, inv k g s -> a_torn (cs s) = None -> NoDup M -> (forall e, e ∈ M -> e ∈ tab s) -> e ∈ M -> bads s e = true ->
      exists y, (fsw k vs_c va_c M s).2 = Some (y, R0).
    Proof using.
      intros Hv Hs. induction M as [|x M IH]; intros s Hi Ht Hnd HM He Hb; [by apply elem_of_nil in He|].
      apply NoDup_cons in Hnd as [HxM Hnd]. simpl. unfold va_c at 1. destruct (bads s x) eqn:Ex; [by eexists|].
      apply elem_of_cons in He as [->|He]; [congruence|]. assert (e <> x) as Hne by (by intros ->).
      assert (vs_c s x = vs s x) as -> by (unfold vs_c; by rewrite Ex).
      assert (x ∈ tab s) as Hx by (apply HM; left). destruct (i_tab _ _ _ Hi x) as [el Hel]; [by apply tab_LT|].
      destruct (Hv s x el Hi Ht Hx Hel) as (I1 & T1 & O1 & D1). assert (a_torn (cs (vs s x)) = None) as Ht1 by congruence.
      assert (tab (vs s x) = tab s) as Tb by (unfold tab; by rewrite T1).
      destruct (va s x) eqn:Ea.
      - apply IH; try done; [intros y Hy; rewrite Tb; apply HM; by right|]. unfold bads in *. by rewrite T1, O1.
      - destruct (D1 eq_refl) as (el' & Hel' & Hp). assert (x ∈ tab (vs s x)) as Hx1 by (by rewrite Tb).
        destruct (rem_ends k g (vs s x) x el' I1 Ht1 Hx1 Hel' Hp) as (_ & I2 & _). destruct (f_rem_tab k (vs s x) x) as [Q1 Q2].
        apply IH; try done; [congruence|..].
        + intros y Hy. unfold tab. rewrite Q1, concat_unlink. fold (tab (vs s x)). rewrite Tb. unfold rm. apply elem_of_list_filter. split; [intros ->; done|]. apply HM. by right.
        + unfold bads in *. rewrite (f_rem_els k _ _ _ _ Hel' Hp), O1 by done. rewrite (f_rem_settled k _ _ _ Hel' Hp). rewrite f_dec_hash by done. simpl. by rewrite T1.
      - rewrite (Hs _ _ _ Ea) in Ex. done.
    Qed.
  End loop.

  Lemma h_get_visit key incl : vrel comp_abs comp_ptr crel (get_visit k (k_hash k key) key incl) (get_visit k (k_hash k key) key incl).
  Proof using.
    intros sa sc e H. unfold get_visit. eapply rsim_bind; [apply (sim_hashof _ _ _ comp_ptr_sim); by apply srel_cs|]. intros h ? <-.
    apply h_el; [done|]. intros el. rewrite (srel_me _ _ H). destruct H as [a c m H]. eexists. split; [done|]. by constructor.
  Qed.
  Lemma h_expire_visit key : vrel comp_abs comp_ptr crel (expire_visit k (k_hash k key) key) (expire_visit k (k_hash k key) key).
  Proof using.
    intros sa sc e H. unfold expire_visit. eapply rsim_bind; [apply (sim_hashof _ _ _ comp_ptr_sim); by apply srel_cs|]. intros h ? <-.
    apply h_el; [done|]. intros el. destruct (_ && _); [destruct (el_pending el)|].
    - eapply rsim_bind; [by apply h_mark|]. intros sa' sc' H'. destruct H' as [a c m H']. eexists. split; [done|]. by constructor.
    - destruct H as [a c m H]. eexists. split; [done|]. by constructor.
    - rewrite (srel_me _ _ H). destruct H as [a c m H]. eexists. split; [done|]. by constructor.
  Qed.
  Lemma until_c bad key v v' (sa sa' : sta) (sc : cache) r : vrel comp_abs comp_ptr crel v v' -> srel sa sc ->
    sweep_bucket k (comparing k bad key v) sa (k_hash k key) = Ok (sa', r) ->
    exists sc', sweep_bucket k (comparing k bad key v') sc (k_hash k key) = Ok (sc', r) /\ srel sa' sc'.
  Proof using.
    intros Hv S E. pose proof (h_sweep_bucket k _ _ _ comp_ptr_sim _ _ (k_hash k key) sa sc (h_comparing bad key v v' Hv) S) as H.
    rewrite E in H. destruct H as ([sc' r'] & E' & H'). inversion H'; subst. eexists. split; [exact E'|by constructor].
  Qed.

  (** ** the calls *)
  (** what an interrupted call leaves *)
  Record left_by (A : kind -> Prop) (sa sa' : sta) : Prop := {
    l_top : top sa';
    l_up : m_up (me sa') = true;
    l_path : path k A sa sa';
    l_ext : ext [] g0 sa g0 sa'
  }.
  Lemma left_of A (sa sa' : sta) : top sa -> m_up (me sa) = true -> inv k g0 sa' -> ext [] g0 sa g0 sa' -> path k A sa sa' -> left_by A sa sa'.
  Proof using.
    intros T Hup I X P. destruct (top_facts k sa T Hup) as (_ & _ & HJ). pose proof (x_up _ _ _ _ _ X) as U. rewrite Hup in U.
    split; try done. split; [done|by rewrite U|]. intros _. by eapply path_J.
  Qed.
  Lemma lookup_left bad key incl (sa : sta) (sc : cache) : srel sa sc -> top sa -> m_up (me sa) = true ->
    exists sa' sc' b, lookup_until k bad sc key incl = Ok (sc', b) /\ lookup_until k bad sa key incl = Ok (sa', b) /\ srel sa' sc' /\ left_by (fun κ => κ = KFree) sa sa' /\ env sa sa' /\ (b = true -> exists a, bad a key = true) /\
      ((forall a, bad a key = true) -> forall e, e ∈ bucket sa (k_hash k key) -> bads bad key sa e = true -> b = true).
  Proof using.
    intros S T Hup. destruct (top_facts k sa T Hup) as (Hi & Ht & HJ).
    destruct (until_ends bad key (get_visit k (k_hash k key) key incl) (fun s _ => s) (va_get k (k_hash k key) key incl) g0 sa) as (E & I & X & _); try done.
    { intros s1 e el I1 T1 He Hel. split_and!; try done; [|apply ext_refl|].
      - by eapply get_visit_eq.
      - unfold va_get. destruct (gone k s1 e) eqn:Eg; [|by destruct (ans _ _ _ _ _ _)]. intros _. exists el. split; [done|]. by eapply gone_nopend. }
    { intros s1 e s1' a H. unfold get_visit in H. rinv H. by injection H as <- <-. }
    assert (path k (fun κ => κ = KFree) sa (f_until bad key (fun s _ => s) (va_get k (k_hash k key) key incl) sa).1) as P.
    { eapply (until_path bad key _ _ _ g0); try done. intros s' e el Hi' Ht' He Hel. split_and!; [done|apply same_tab_refl|apply path_refl|].
      unfold va_get. destruct (gone k s' e) eqn:Eg; [|by destruct (ans _ _ _ _ _ _)]. intros _. exists el. destruct (gone_tv k s' e el Hel Eg) as (?&?&?).
      split_and!; [done|done|]. eapply path_one; [done|]. by eapply gone_mini. }
    assert (env sa (f_until bad key (fun s _ => s) (va_get k (k_hash k key) key incl) sa).1) as V.
    { unfold f_until. assert (forall M s, env s (fsw k (vs_c bad key (fun s _ => s)) (va_c bad key (va_get k (k_hash k key) key incl)) M s).1) as H; [|apply H].
      induction M as [|e M IH]; intros s; simpl; [done|]. assert (vs_c bad key (fun s _ => s) s e = s) as -> by (unfold vs_c; by destruct (bads _ _ _ _)).
      destruct (va_c bad key _ s e) eqn:Ea; [by apply IH| |done].
      assert (gone k s e = true) as Hg. { unfold va_c, va_get in Ea. destruct (bads _ _ _ _), (gone k s e), (ans k s (k_hash k key) key incl e); done. }
      destruct (gone_el k s e Hg) as (el & H1 & H2). by eapply env_trans; [apply (env_rem k s e el)|apply IH]. }
    pose proof (fun e => until_bad bad key (fun s _ => s) (va_get k (k_hash k key) key incl) sa e) as HB.
    pose proof (until_throws bad key (fun s _ => s) (va_get k (k_hash k key) key incl) g0) as HT.
    destruct (f_until _ _ _ _ sa) as [sa' r] eqn:Ef. unfold f_until in Ef. destruct (until_c bad key _ _ sa sa' sc r (h_get_visit key incl) S E) as (sc' & E' & S').
    unfold lookup_until. rewrite E, E'. simpl. eexists _, _, _. split; [done|]. split; [done|]. split; [done|]. split; [by apply left_of|]. split; [done|].
    split; [destruct r as [[e []]|]; try done; intros _; apply (HB e); [|done]; intros s x; unfold va_get; destruct (gone k s x), (ans k s (k_hash k key) key incl x); congruence|].
    intros Hall e He Hbe. destruct (HT e) with (M := bucket sa (k_hash k key)) (s := sa) as [y Ey]; try done.
    { intros s1 x el I1 T1 Hx Hel. split_and!; try done. unfold va_get. destruct (gone k s1 x) eqn:Eg; [|by destruct (ans _ _ _ _ _ _)]. intros _. exists el. split; [done|]. by eapply gone_nopend. }
    { intros s1 x r0. unfold va_get, ans, bads. destruct (gone k s1 x); [done|]. destruct (a_hash (cs s1) !! x) as [h|]; [|done]. destruct (m_els (me s1) !! x) as [el|]; [|done].
      rewrite Hall. by destruct (bool_decide (h = k_hash k key)). }
    { by eapply bucket_nodup. } { intros x. apply bucket_in. }
    simpl in Ey. rewrite Ef in Ey. simpl in Ey. by rewrite Ey.
  Qed.
  Lemma expire_left bad key (sa : sta) (sc : cache) : srel sa sc -> top sa -> m_up (me sa) = true ->
    exists sa' sc' b, expire_until k bad sc key = Ok (sc', b) /\ expire_until k bad sa key = Ok (sa', b) /\ srel sa' sc' /\ left_by (fun κ => κ = KFree \/ κ = KErase key) sa sa' /\ (b = true -> exists a, bad a key = true) /\
      ((forall a, bad a key = true) -> forall e, e ∈ bucket sa (k_hash k key) -> bads bad key sa e = true -> b = true).
  Proof using.
    intros S T Hup. destruct (top_facts k sa T Hup) as (Hi & Ht & HJ).
    destruct (until_ends bad key (expire_visit k (k_hash k key) key) (vs_exp k (k_hash k key) key) (va_exp k (k_hash k key) key) g0 sa) as (E & I & X & _); try done.
    { intros s1 e el I1 T1 He Hel. unfold expire_visit, vs_exp, va_exp, matches, pends, gone, s_el, rd_el. simpl.
      assert (e ∈ LT g0 (cs s1)) as HeL by (by apply tab_LT).
      rewrite (i_hash _ _ _ I1 e el) by done. rewrite Hel. simpl. destruct (bool_decide _ && _); simpl.
      + destruct (el_pending el) eqn:Ep; simpl.
        * destruct (mark_ends k g0 s1 e I1) as (E1 & I2 & X2); [eauto|by eapply LT_not_priv|]. rewrite E1. simpl. split_and!; try done. apply f_mark_tab.
        * split_and!; try done; [apply ext_refl|]. intros _. exists el. split; [done|]. unfold is_pend. congruence.
      + split_and!; try done; [apply ext_refl|]. destruct (el_expired k (me s1) el && negb (el_pending el)) eqn:Eg; [|done].
        intros _. exists el. split; [done|]. unfold is_pend. by destruct (el_pending el), (el_expired k (me s1) el). }
    { intros s1 e s1' a H. unfold expire_visit in H. rinv H. destruct (_ && _); [destruct (el_pending a1)|]; rinv H; injection H as <- <-; try done.
      unfold mark_expired in *. by eapply s_upd_tab. }
    assert (path k (fun κ => κ = KFree \/ κ = KErase key) sa (f_until bad key (vs_exp k (k_hash k key) key) (va_exp k (k_hash k key) key) sa).1) as P.
    { eapply (until_path bad key _ _ _ g0); try done. intros s' e el Hi' Ht' He Hel. unfold vs_exp, va_exp, pends. rewrite Hel.
      destruct (matches k s' (k_hash k key) key e) eqn:Em; simpl.
      - destruct (matches_tv k _ _ _ _ _ Hel Em) as [_ Hm]. destruct (el_pending el) eqn:Ep.
        + destruct (mark_ends k g0 s' e) as (_ & I1 & _); [done|eauto|eapply LT_not_priv; [done|by apply tab_LT]|].
          split_and!; [done|apply f_mark_tab| |done]. eapply path_one; [by right|]. eapply mark_mini; try done. by apply c_erasing.
        + split_and!; [done|apply same_tab_refl|apply path_refl|]. intros _. exists el. split_and!; [done|by unfold is_pend; rewrite Ep|].
          eapply path_one; [by right|]. eapply rem_mini; try done; [by unfold is_pend; rewrite Ep|]. by apply c_erase.
      - split_and!; [done|apply same_tab_refl|apply path_refl|]. destruct (gone k s' e) eqn:Eg; [|done]. intros _. exists el.
        destruct (gone_tv k s' e el Hel Eg) as (?&?&?). split_and!; [done|done|]. eapply path_one; [by left|]. by eapply gone_mini. }
    pose proof (fun e => until_bad bad key (vs_exp k (k_hash k key) key) (va_exp k (k_hash k key) key) sa e) as HB.
    pose proof (until_throws bad key (vs_exp k (k_hash k key) key) (va_exp k (k_hash k key) key) g0) as HT.
    destruct (f_until _ _ _ _ sa) as [sa' r] eqn:Ef. unfold f_until in Ef. destruct (until_c bad key _ _ sa sa' sc r (h_expire_visit key) S E) as (sc' & E' & S').
    unfold expire_until. rewrite E, E'. simpl. eexists _, _, _. split; [done|]. split; [done|]. split; [done|]. split; [by apply left_of|].
    split; [destruct r as [[e []]|]; try done; intros _; apply (HB e); [|done]; intros s x; unfold va_exp; by destruct (matches k s _ _ x), (pends s x), (gone k s x)|].
    intros Hall e He Hbe. destruct (HT e) with (M := bucket sa (k_hash k key)) (s := sa) as [y Ey]; try done.
    { intros s1 x el I1 T1 Hx Hel. unfold vs_exp, va_exp, pends. rewrite Hel. destruct (matches k s1 (k_hash k key) key x) eqn:Em; simpl.
      - destruct (el_pending el) eqn:Ep.
        + destruct (mark_ends k g0 s1 x) as (_ & I2 & _); [done|eauto|eapply LT_not_priv; [done|by apply tab_LT]|].
          split_and!; [done|apply p_upd_cs| |done]. intros z Hz. unfold f_mark. by rewrite p_upd_lookup, decide_False.
        + split_and!; try done. intros _. exists el. by unfold is_pend; rewrite Ep.
      - split_and!; try done. destruct (gone k s1 x) eqn:Eg; [|done]. intros _. exists el. split; [done|]. by eapply gone_nopend. }
    { intros s1 x r0. unfold va_exp. by destruct (matches k s1 _ _ x), (pends s1 x), (gone k s1 x). }
    { by eapply bucket_nodup. } { intros x. apply bucket_in. }
    simpl in Ey. rewrite Ef in Ey. simpl in Ey. by rewrite Ey.
  Qed.

  Definition fine_call (c : (Z -> Z -> bool) * op) : bool := fine_op false c.2.
  Definition is_lookup (o : op) : bool := match o with OGet _ _ _ | OAGet _ _ _ _ _ _ | OGetOrEmplace _ _ => true | _ => false end.
  Lemma call_ends bad o (sa : sta) (sc : cache) : srel sa sc -> top sa -> fine_op false o = true ->
    (exists sa' sc' r, call k bad o sc = Ok (sc', r) /\ srel sa' sc' /\ top sa' /\
      (r = None -> m_up (me sa) = true /\ m_up (me sa') = true /\ ext [] g0 sa g0 sa' /\
        (is_lookup o = true /\ path k (fun κ => κ = KFree) sa sa' /\ env sa sa' \/
         exists key, (o = OEmplaceThrow key \/ exists v, o = OEmplace key v) /\ path k (fun κ => κ = KFree \/ κ = KErase key) sa sa'))) \/
    call k bad o sc = Term /\ exists key, o = OErase key.
  Proof using Hk.
    intros S T Hf. destruct (fine_step k Hk o sa sc Hf S T) as (sa1 & sc1 & r1 & E1 & E1c & S1 & T1 & _ & _).
    set (rest := ('(s, r) <- step k false o sc;; Ok (s, Some r)) : res (cache * option ret)).
    assert (rest = Ok (sc1, Some r1)) as Er by (unfold rest; by rewrite E1c).
    unfold call. fold rest. rewrite <-(srel_me _ _ S).
    assert (forall x : res (cache * option ret), x = rest -> (exists sa' sc' r, x = Ok (sc', r) /\ srel sa' sc' /\ top sa' /\
      (r = None -> m_up (me sa) = true /\ m_up (me sa') = true /\ ext [] g0 sa g0 sa' /\
        (is_lookup o = true /\ path k (fun κ => κ = KFree) sa sa' /\ env sa sa' \/
         exists key, (o = OEmplaceThrow key \/ exists v, o = OEmplace key v) /\ path k (fun κ => κ = KFree \/ κ = KErase key) sa sa')))) as Hrest.
    { intros x ->. exists sa1, sc1, (Some r1). split_and!; try done. }
    destruct (m_up (me sa)) eqn:Hup; simpl; [|left; by apply Hrest].
    assert (forall key incl, is_lookup o = true -> exists sa' sc' r, ('(s, threw) <- lookup_until k bad sc key incl;; if (threw : bool) then Ok (s, None) else rest) = Ok (sc', r) /\ srel sa' sc' /\ top sa' /\
      (r = None -> true = true /\ m_up (me sa') = true /\ ext [] g0 sa g0 sa' /\
        (is_lookup o = true /\ path k (fun κ => κ = KFree) sa sa' /\ env sa sa' \/
         exists key, (o = OEmplaceThrow key \/ exists v, o = OEmplace key v) /\ path k (fun κ => κ = KFree \/ κ = KErase key) sa sa'))) as Hlk.
    { intros key incl Ho. destruct (lookup_left bad key incl sa sc S T Hup) as (sa' & sc' & b & E & _ & S' & [L1 L2 L3 L4] & V & _). rewrite E. simpl.
      destruct b; [|by apply Hrest]. exists sa', sc', None. split_and!; try done. intros _. split_and!; try done. by left. }
    assert (forall key, (o = OEmplaceThrow key \/ exists v, o = OEmplace key v) -> exists sa' sc' r, ('(s, threw) <- expire_until k bad sc key;; if (threw : bool) then Ok (s, None) else rest) = Ok (sc', r) /\ srel sa' sc' /\ top sa' /\
      (r = None -> true = true /\ m_up (me sa') = true /\ ext [] g0 sa g0 sa' /\
        (is_lookup o = true /\ path k (fun κ => κ = KFree) sa sa' /\ env sa sa' \/
         exists key, (o = OEmplaceThrow key \/ exists v, o = OEmplace key v) /\ path k (fun κ => κ = KFree \/ κ = KErase key) sa sa'))) as Hex.
    { intros key Ho. destruct (expire_left bad key sa sc S T Hup) as (sa' & sc' & b & E & _ & S' & [L1 L2 L3 L4] & _). rewrite E. simpl.
      destruct b; [|by apply Hrest]. exists sa', sc', None. split_and!; try done. intros _. split_and!; try done. right. by exists key. }
    destruct o; try (left; by apply Hrest).
    - left. destruct (k_resolver k); [by apply Hlk|by apply Hlk|by apply Hrest].
    - left. destruct (k_resolver k); [by apply Hrest|by apply Hrest|by apply Hlk].
    - left. destruct (holds k sc v); [|by apply Hrest]. apply Hex. right. by eexists.
    - left. apply Hex. by left.
    - left. destruct (holds k sc v); [by apply Hlk|by apply Hrest].
    - destruct (expire_left bad key sa sc S T Hup) as (sa' & sc' & b & E & _). rewrite E. simpl. destruct b; [right; split; [done|by eexists]|left; by apply Hrest].
  Qed.
  Lemma calls_ends l : forall (sa : sta) (sc : cache), srel sa sc -> top sa -> forallb fine_call l = true ->
    (exists sa' sc', run_calls k l sc = Ok sc' /\ srel sa' sc' /\ top sa') \/ run_calls k l sc = Term /\ exists bad key, (bad, OErase key) ∈ l.
  Proof using Hk.
    induction l as [|[bad o] l IH]; intros sa sc S T Hf; [left; by exists sa, sc|].
    simpl in Hf. apply andb_true_iff in Hf as [Hf1 Hf2]. simpl.
    destruct (call_ends bad o sa sc S T Hf1) as [(sa1 & sc1 & r & -> & S1 & T1 & _)|(-> & key & ->)]; simpl.
    - destruct (IH sa1 sc1 S1 T1 Hf2) as [?|(E & b & key & H)]; [by left|]. right. split; [done|]. exists b, key. by right.
    - right. split; [done|]. exists bad, key. by left.
  Qed.
  Lemma calls_abs l (sc : cache) : forallb fine_call l = true -> run_calls k l st_init = Ok sc -> exists sa : sta, srel sa sc /\ top sa.
  Proof using Hk.
    intros Hf E. destruct (calls_ends l st_init st_init (h_init _ _ _ comp_ptr_sim) (top_init k) Hf) as [(sa & sc' & E' & S & T)|[E' _]]; [|congruence].
    exists sa. split; [|done]. congruence.
  Qed.

  Lemma calls_safe l : forallb fine_call l = true ->
    (exists s : cache, run_calls k l st_init = Ok s) \/ run_calls k l (st_init : cache) = Term /\ exists bad key, (bad, OErase key) ∈ l.
  Proof using Hk. intros Hf. destruct (calls_ends l st_init st_init (h_init _ _ _ comp_ptr_sim) (top_init k) Hf) as [(sa & sc & E & _)|H]; [left; by exists sc|by right]. Qed.

  Lemma call_waits (sa sa' : sta) (sc sc' : cache) w : srel sa sc -> srel sa' sc' -> ext [] g0 sa g0 sa' ->
    waiting w sc' + length (deliveries w sc') = waiting w sc + length (deliveries w sc).
  Proof using.
    intros S S' X. rewrite !(waiting_nwait _ _ _ S), !(waiting_nwait _ _ _ S'), !(deliveries_ndone _ _ _ S), !(deliveries_ndone _ _ _ S').
    pose proof (x_wait _ _ _ _ _ X w) as H. unfold wtot in H. rewrite !cnt_nil in H. lia.
  Qed.
  Lemma lookup_threw l bad o (sc sc' : cache) : forallb fine_call l = true -> run_calls k l st_init = Ok sc -> fine_op false o = true -> is_lookup o = true ->
    call k bad o sc = Ok (sc', None) ->
    m_log (me sc') = m_log (me sc) /\ m_cbs (me sc') = m_cbs (me sc) /\ (forall w, waiting w sc' = waiting w sc) /\ (tame k -> forall key, peek k sc' key = peek k sc key).
  Proof using Hk.
    intros Hf Ha Ho Hl E. destruct (calls_abs l sc Hf Ha) as (sa & S & T).
    destruct (call_ends bad o sa sc S T Ho) as [(sa' & sc1 & r & E1 & S' & T' & H)|(E1 & _)]; [|congruence].
    rewrite E1 in E. injection E as -> ->. destruct (H eq_refl) as (Hup & Hup' & X & [(_ & P & V)|(key & [-> |[v ->]] & _)]); try done.
    assert (m_log (me sc') = m_log (me sc)) as Elog. { rewrite <-(srel_me _ _ S), <-(srel_me _ _ S'). apply V. }
    split; [done|]. split; [rewrite <-(srel_me _ _ S), <-(srel_me _ _ S'); apply V|]. split.
    - intros w. pose proof (call_waits sa sa' sc sc' w S S' X) as Hw. unfold deliveries in Hw. rewrite Elog in Hw. lia.
    - intros Hta key. rewrite (peek_look k Hta sa sc), (peek_look k Hta sa' sc') by done. rewrite <-(srel_me _ _ S), <-(srel_me _ _ S'), Hup, Hup'.
      destruct (top_facts k sa T Hup) as (_ & _ & HJ). by rewrite (free_look k sa sa').
  Qed.
  Lemma emplace_threw l bad key v (sc sc' : cache) : forallb fine_call l = true -> run_calls k l st_init = Ok sc ->
    call k bad (OEmplace key v) sc = Ok (sc', None) ->
    (forall w, waiting w sc' + length (deliveries w sc') = waiting w sc + length (deliveries w sc)) /\
    (tame k -> eq_ok k -> forall key', k_eq k key key' = false -> peek k sc' key' = peek k sc key').
  Proof using Hk.
    intros Hf Ha E. destruct (calls_abs l sc Hf Ha) as (sa & S & T).
    destruct (call_ends bad (OEmplace key v) sa sc S T eq_refl) as [(sa' & sc1 & r & E1 & S' & T' & H)|(E1 & _)]; [|congruence].
    rewrite E1 in E. injection E as -> ->. destruct (H eq_refl) as (Hup & Hup' & X & [(? & _)|(key0 & [?|[v0 [= <- <-]]] & P)]); try done.
    split; [intros w; by eapply call_waits|]. intros Hta Hq key' Ek.
    rewrite (peek_look k Hta sa sc), (peek_look k Hta sa' sc') by done. rewrite <-(srel_me _ _ S), <-(srel_me _ _ S'), Hup, Hup'.
    destruct (top_facts k sa T Hup) as (_ & _ & HJ). f_equal. eapply path_look; try done. intros s1 κ [-> | ->] _ _; simpl; [done|]. by apply other_of.
  Qed.

  Lemma call_quiet l bad o (sc : cache) : forallb fine_call l = true -> run_calls k l st_init = Ok sc -> fine_op false o = true -> (forall a b, bad a b = false) ->
    call k bad o sc = ('(s, r) <- step k false o sc;; Ok (s, Some r)).
  Proof using Hk.
    intros Hf Ha Ho Hb. destruct (calls_abs l sc Hf Ha) as (sa & S & T). unfold call. destruct (m_up (me sc)) eqn:Hup; simpl; [|done].
    assert (m_up (me sa) = true) as Hupa by (by rewrite (srel_me _ _ S)).
    assert (forall key incl, exists s, lookup_until k bad sc key incl = Ok (s, false)) as H1.
    { intros key incl. destruct (lookup_left bad key incl sa sc S T Hupa) as (_ & sc' & b & E & _ & _ & _ & _ & H & _). exists sc'. rewrite E. destruct b; [|done]. destruct (H eq_refl) as [a Hx]. by rewrite Hb in Hx. }
    assert (forall key, exists s, expire_until k bad sc key = Ok (s, false)) as H2.
    { intros key. destruct (expire_left bad key sa sc S T Hupa) as (_ & sc' & b & E & _ & _ & _ & H & _). exists sc'. rewrite E. destruct b; [|done]. destruct (H eq_refl) as [a Hx]. by rewrite Hb in Hx. }
    destruct o; try done.
    - destruct (H1 key false) as [s ->]. by destruct (k_resolver k).
    - destruct (H1 key true) as [s ->]. by destruct (k_resolver k).
    - destruct (H2 key) as [s ->]. by destruct (holds k sc v).
    - by destruct (H2 key) as [s ->].
    - destruct (H1 key true) as [s ->]. by destruct (holds k sc v).
    - by destruct (H2 key) as [s ->].
  Qed.

  (** a comparison that throws is reported *)
  Definition asked_key (o : op) : option Z :=
    match o with
    | OGet key _ _ => match k_resolver k with RAsync => None | _ => Some key end
    | OAGet _ key _ _ _ _ => match k_resolver k with RAsync => Some key | _ => None end
    | OGetOrEmplace key v | OEmplace key v => if k_pointer k then None else Some key
    | OEmplaceThrow key | OErase key => Some key
    | _ => None
    end.
  Lemma call_reports l bad o key v (sc : cache) : eq_ok k -> forallb fine_call l = true -> run_calls k l st_init = Ok sc -> peek k sc key = Some v ->
    asked_key o = Some key -> (forall a, bad a key = true) ->
    match o with OErase _ => call k bad o sc = Term | _ => exists s', call k bad o sc = Ok (s', None) end.
  Proof using Hk.
    intros Hq Hf Ha Hp Ho Hb. destruct (calls_abs l sc Hf Ha) as (sa & S & T).
    destruct (peek_entry k sa sc key v S T Hp) as (Hup & x & el & Tx & Ek & _). destruct (top_facts k sa T Hup) as (Hi & Ht & HJ).
    apply tv_elim in Tx as (Hx & el0 & Hel0 & ->). simpl in Ek.
    assert (k_hash k (el_key el0) = k_hash k key) as Eh by (by apply Hq).
    destruct (in_bucket k g0 sa x el0 (k_hash k key) Hi Ht Hx Hel0 Eh) as [Hxb Hh].
    assert (bads bad key sa x = true) as Hbx. { unfold bads. rewrite Hh, Hel0, Hb. by rewrite bool_decide_true. }
    assert (forall incl, exists s, lookup_until k bad sc key incl = Ok (s, true)) as H1.
    { intros incl. destruct (lookup_left bad key incl sa sc S T Hup) as (_ & sc' & b & E & _ & _ & _ & _ & _ & H). exists sc'. rewrite E. by rewrite (H Hb x Hxb Hbx). }
    assert (exists s, expire_until k bad sc key = Ok (s, true)) as [s2 H2].
    { destruct (expire_left bad key sa sc S T Hup) as (_ & sc' & b & E & _ & _ & _ & _ & H). exists sc'. rewrite E. by rewrite (H Hb x Hxb Hbx). }
    unfold call. rewrite <-(srel_me _ _ S), Hup. simpl. destruct o; try done; simpl in Ho.
    - destruct (k_resolver k); try done; injection Ho as ->; destruct (H1 false) as [s ->]; by eexists.
    - destruct (k_resolver k); try done; injection Ho as ->; destruct (H1 true) as [s ->]; by eexists.
    - unfold holds. destruct (k_pointer k); [done|]. injection Ho as ->. rewrite H2. by eexists.
    - injection Ho as ->. rewrite H2. by eexists.
    - unfold holds. destruct (k_pointer k); [done|]. injection Ho as ->. destruct (H1 true) as [s ->]. by eexists.
    - injection Ho as ->. by rewrite H2.
  Qed.
End throwing.
