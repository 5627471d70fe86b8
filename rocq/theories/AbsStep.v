(** Every operation of a fine history keeps the invariant. *)
From Verif Require Import Base AQueue ATable BasicHashtable QueueProofs BasicHashtableProofs ContainersProofs Mapped Cache CacheAbs CompSim CacheSim AbsInv AbsPrim AbsPrim2 AbsSweep AbsOps AbsComp Trace AbsTrace TraceInv Delay AbsTraceCb Histories AbsResolve.

(** ** The kinds of changes (Trace.v) an operation makes *)
Definition anyof {A} (P : A -> Prop) : list A -> Prop :=
  fix go l := match l with [] => False | x :: l => P x \/ go l end.
Lemma anyof_exists {A} (P : A -> Prop) l : anyof P l <-> exists x, x ∈ l /\ P x.
Proof.
  induction l as [|y l IH]; simpl; [split; [done|by intros (x & ?%elem_of_nil & _)]|]. rewrite IH. split.
  - intros [H|(x & Hx & HP)]; [exists y|exists x]; split; try done; [by left|by right].
  - intros (x & [->|Hx]%elem_of_cons & HP); [by left|]. right. eauto.
Qed.

Section kinds.
  Context (k : cfg).
  Definition same (key key' : Z) : bool := bool_decide (k_hash k key' = k_hash k key) && k_eq k key' key.
  (** how far a completion callback moves the clocks *)
  Definition drift_op (o : op) : drift :=
    match o with OAdvance dw _ => if bool_decide (0 <= dw)%Z then Forward else Anyhow | ORelease _ => Forward | _ => Still end.
  Definition drift_ops (l : list op) : drift := foldr drift_max Still (map drift_op l).
  Definition drift_runs (ls : list (list op)) : drift := foldr drift_max Still (map drift_ops ls).
  Fixpoint okind (o : op) (κ : kind) {struct o} : Prop :=
    match o with
    | OGetIf _ | OCount | OReserve _ => κ = KFree
    | OEmplace key v => κ = KFree \/ evicting κ \/ κ = KErase key \/ κ = KEnter key HClean (Some v)
    | OEmplaceThrow key | OErase key => κ = KFree \/ κ = KErase key
    | OGetOrEmplace key v => κ = KFree \/ evicting κ \/ κ = KHit key \/ κ = KEnter key HClean (Some v)
    | OGet key script out => κ = KFree \/ κ = KHit key \/ k_resolver k = RSync /\
        ((exists o, κ = KEnter key (if existsb (enters (same key)) script then HAny else HClean) o /\ (o = None \/ exists v, out = ROk v /\ o = Some v)) \/
        anyof (fun o => okind o κ) script)
    | OAGet w key script keep throw imm => k_resolver k = RAsync /\ (κ = KFree \/ κ = KHit key \/ κ = KEnter key HClean None \/ (exists b, κ = KWait w b /\ (b = true \/ throw || (keep && negb (existsb discards script)) = false)) \/
        anyof (fun o => okind o κ) script \/ anyof (fun o => okind o κ) imm)
    | OClear => κ = KFree \/ κ = KClear
    | OAssign i v us => κ = KDone i (Some v) (drift_runs us)
    | OFail i _ us => κ = KDone i None (drift_runs us)
    | OCancel i => κ = KFree \/ κ = KCancel i
    | ODropCb i => κ = KFree \/ κ = KCancel i \/ κ = KLet i
    | OAdvance _ _ | ORelease _ => κ = KTime (drift_op o)
    | OTick items => is_Some (k_refresh k) /\ (κ = KFree \/ (exists key, κ = KRefresh key false \/ κ = KRefresh key true /\
          (k_resolver k = RSync \/ exists j v δ, anyof (fun i => anyof (fun o => okind o (KDone j v δ)) i.1.1) items)) \/
        (exists key o, κ = KEnter key HAny o /\ (o = None \/ exists i v, i ∈ items /\ i.1.2 = ROk v /\ o = Some v)) \/
        anyof (fun i => anyof (fun o => okind o κ) i.1.1) items \/ exists e, κ = KPop e)
    | OAssignThrow _ | ODestroy => False
    end.
  (** Operations that do not create two entries for a key: a synchronous resolver does not itself
      create the entry that is being looked up. *)
  Fixpoint clean_op (o : op) : bool :=
    match o with
    | OGet key script _ => match k_resolver k with RSync => negb (existsb (enters (same key)) script) && forallb clean_op script | _ => true end
    | OAGet _ _ script _ _ imm => forallb clean_op script && forallb clean_op imm
    | OTick items => forallb (fun i => match k_resolver k with RSync => negb (existsb (enters (fun _ => true)) i.1.1) | _ => forallb clean_op i.1.1 end) items
    | _ => true
    end.

  Lemma existsb_false {A} (f : A -> bool) l x : existsb f l = false -> x ∈ l -> f x = false.
  Proof. induction l as [|y l IH]; simpl; [by intros _ ?%elem_of_nil|]. intros [H1 H2]%orb_false_iff [->|Hx]%elem_of_cons; auto. Qed.
  Lemma forallb_in {A} (f : A -> bool) l x : forallb f l = true -> x ∈ l -> f x = true.
  Proof. induction l as [|y l IH]; simpl; [by intros _ ?%elem_of_nil|]. intros [H1 H2]%andb_true_iff [->|Hx]%elem_of_cons; auto. Qed.
  Lemma Forall_in {A} (P : A -> Prop) l x : Forall P l -> x ∈ l -> P x.
  Proof. rewrite Forall_forall. auto. Qed.

  Lemma okind_enters P o key c v : fine_op true o = true -> okind o (KEnter key c v) -> enters P o = false -> P key = false.
  Proof.
    induction o as [o IH] using op_ind'. destruct o; simpl; try done; try (by intuition (subst; congruence)); try (by intros; subst; intuition (subst; done)).
    - intros [Hf _]%andb_true_iff [?|[?|[_ [(o & [= -> _ _] & _)|(x & Hx & Ho)%anyof_exists]]]] [HP Hs]%orb_false_iff; try done.
      apply (Forall_in _ _ _ IH Hx); [exact (forallb_in _ _ _ Hf Hx)|done|]. by eapply existsb_false.
    - destruct IH as [IH1 IH2]. intros [Hf1 Hf2]%andb_true_iff [_ [?|[?|[[= -> _ _]|[(? & ? & _)|[(x & Hx & Ho)%anyof_exists|(x & Hx & Ho)%anyof_exists]]]]]] [[HP Hs]%orb_false_iff Hi]%orb_false_iff; try done.
      + apply (Forall_in _ _ _ IH1 Hx); [exact (forallb_in _ _ _ Hf1 Hx)|done|]. exact (existsb_false _ _ _ Hs Hx).
      + apply (Forall_in _ _ _ IH2 Hx); [exact (forallb_in _ _ _ Hf2 Hx)|done|]. exact (existsb_false _ _ _ Hi Hx).
  Qed.
  Lemma okind_enters' P o nested key c v : fine_op nested o = true -> match o with OTick _ => False | _ => True end -> okind o (KEnter key c v) -> enters P o = false -> P key = false.
  Proof. intros Hf Ho. destruct o; try done; apply okind_enters; by destruct nested. Qed.
  Lemma okind_norefresh o key b : fine_op true o = true -> ~ okind o (KRefresh key b).
  Proof.
    induction o as [o IH] using op_ind'. destruct o; simpl; try done; try (by intuition (subst; congruence)); try (by intros; subst; intuition (subst; done)).
    - intros [Hf _]%andb_true_iff [?|[?|[_ [(o & ? & _)|(x & Hx & Ho)%anyof_exists]]]]; try done.
      apply (Forall_in _ _ _ IH Hx); [|done]. by eapply forallb_in.
    - destruct IH as [IH1 IH2]. intros [Hf1 Hf2]%andb_true_iff [_ [?|[?|[?|[(? & ? & _)|[(x & Hx & Ho)%anyof_exists|(x & Hx & Ho)%anyof_exists]]]]]]; try done.
      + apply (Forall_in _ _ _ IH1 Hx); [|done]. exact (forallb_in _ _ _ Hf1 Hx).
      + apply (Forall_in _ _ _ IH2 Hx); [|done]. exact (forallb_in _ _ _ Hf2 Hx).
  Qed.
  Lemma okind_clean o nested κ : fine_op nested o = true -> match o with OTick _ => False | _ => True end -> clean_op o = true -> okind o κ -> clean none κ.
  Proof.
    revert nested. assert (forall o, fine_op true o = true -> match o with OTick _ => False | _ => True end) as Hn by (by intros []).
    induction o as [o IH] using op_ind'. intros nested. destruct o; simpl; try done; try (by intuition (subst; congruence)); try (by intros; subst; intuition (subst; done)); try (by intros _ _ _ [->|[H|[->| ->]]]; try done; destruct κ).
    - intros [Hf _]%andb_true_iff _ Hcl [-> |[-> |[Er [(o & -> & _)|(x & Hx & Ho)%anyof_exists]]]]; try done; rewrite Er in Hcl; apply andb_true_iff in Hcl as [He Hc].
      + apply negb_true_iff in He. by rewrite He.
      + apply (Forall_in _ _ _ IH Hx true); [exact (forallb_in _ _ _ Hf Hx)|apply Hn, (forallb_in _ _ _ Hf Hx)|exact (forallb_in _ _ _ Hc Hx)|exact Ho].
    - destruct IH as [IH1 IH2]. intros [Hf1 Hf2]%andb_true_iff _ [Hc1 Hc2]%andb_true_iff [_ [-> |[-> |[-> |[(? & -> & _)|[(x & Hx & Ho)%anyof_exists|(x & Hx & Ho)%anyof_exists]]]]]]; try done.
      + apply (Forall_in _ _ _ IH1 Hx true); [exact (forallb_in _ _ _ Hf1 Hx)|apply Hn, (forallb_in _ _ _ Hf1 Hx)|exact (forallb_in _ _ _ Hc1 Hx)|exact Ho].
      + apply (Forall_in _ _ _ IH2 Hx true); [exact (forallb_in _ _ _ Hf2 Hx)|apply Hn, (forallb_in _ _ _ Hf2 Hx)|exact (forallb_in _ _ _ Hc2 Hx)|exact Ho].
  Qed.
  Lemma okind_discards o i : okind o (KCancel i) \/ okind o (KLet i) -> discards o = true.
  Proof.
    assert (forall l, Forall (fun o => okind o (KCancel i) \/ okind o (KLet i) -> discards o = true) l ->
      anyof (fun o => okind o (KCancel i)) l \/ anyof (fun o => okind o (KLet i)) l -> existsb discards l = true) as Hl.
    { intros l IH H. apply existsb_exists. destruct H as [(x & Hx & Ho)%anyof_exists|(x & Hx & Ho)%anyof_exists]; exists x; (split; [by apply elem_of_list_In|]); apply (Forall_in _ _ _ IH Hx); tauto. }
    induction o as [o IH] using op_ind'. destruct o; simpl; try done; try (by intuition (try congruence; try tauto)).
    - intros H. apply Hl; [done|]. destruct H as [[?|[?|[_ [(? & ? & _)|?]]]]|[?|[?|[_ [(? & ? & _)|?]]]]]; try done; tauto.
    - destruct IH as [IH1 IH2]. intros H. apply orb_true_iff. specialize (Hl script IH1) as H1. specialize (Hl imm IH2) as H2.
      destruct H as [[_ [?|[?|[?|[(? & ? & _)|[?|?]]]]]]|[_ [?|[?|[?|[(? & ? & _)|[?|?]]]]]]]; try done; tauto.
    - intros H. apply existsb_exists.
      assert (anyof (fun j => anyof (fun o => okind o (KCancel i)) j.1.1) items \/ anyof (fun j => anyof (fun o => okind o (KLet i)) j.1.1) items) as H'.
      { destruct H as [[_ [?|[(? & [?|[? _]])|[(? & ? & ? & _)|[?|(? & ?)]]]]]|[_ [?|[(? & [?|[? _]])|[(? & ? & ? & _)|[?|(? & ?)]]]]]]; try done; tauto. }
      destruct H' as [(x & Hx & Ho)%anyof_exists|(x & Hx & Ho)%anyof_exists]; exists x; (split; [by apply elem_of_list_In|]); apply Hl; try tauto; exact (Forall_in _ _ _ IH Hx).
  Qed.
  Lemma clean_all o : k_resolver k <> RSync -> clean_op o = true.
  Proof.
    intros Hr. induction o as [o IH] using op_ind'. destruct o; simpl; try done.
    - by destruct (k_resolver k).
    - destruct IH as [IH1 IH2]. apply andb_true_iff. split; apply forallb_forall; intros x Hx%elem_of_list_In; [exact (Forall_in _ _ _ IH1 Hx)|exact (Forall_in _ _ _ IH2 Hx)].
    - apply forallb_forall. intros i Hi%elem_of_list_In. pose proof (Forall_in _ _ _ IH Hi) as H. simpl in H.
      assert (forallb clean_op i.1.1 = true) by (apply forallb_forall; intros x Hx%elem_of_list_In; exact (Forall_in _ _ _ H Hx)). by destruct (k_resolver k).
  Qed.
End kinds.

Section step.
  Context (k : cfg) (Hk : fine_cfg k).
  Notation inv := (inv k).
  Notation safe := (safe k).
  Notation quiet := (quiet k).
  Notation calm := (calm k).
  Notation path := (path k).
  Notation mini := (mini k).
  Notation J := (J k).
  Notation okind := (okind k).
  Notation clean_op := (clean_op k).
  Notation uq := (uq k none).

  Lemma advance_clk (m : mem) dw ds :
    clk k (drift_op (OAdvance dw ds)) m (set_clocks m (m_wall m + (if k_steady k then Z.max 0 dw else dw)) (m_steady m + Z.max 0 ds)).
  Proof.
    split_and!; simpl; [lia| |by case_bool_decide]. destruct (k_steady k); [lia|]. case_bool_decide; [lia|]. by intros [?|?].
  Qed.
  Lemma release_clk (m : mem) v : clk k Forward m (set_dropped m ({[v]} ∪ m_dropped m)).
  Proof. split_and!; simpl; [lia|lia|done]. Qed.
  Lemma quiet_step g s o nested : inv g s -> m_up (me s) = true -> quiet_op o = true ->
    exists s' r, step k nested o s = Ok (s', r) /\ calm (drift_op o) s s'.
  Proof.
    intros Hi Hup Hq. pose proof (i_up _ _ _ Hi Hup) as Ht.
    destruct o; try done; rewrite step_eq; unfold step_with; rewrite Hup; simpl negb; simpl andb; cbv iota.
    - rewrite (lookup_eq k g s key Hi Ht). simpl. destruct (p_lookup k s key); try by eexists _, _.
      eexists _, _. split; [done|]. apply give_calm.
    - rewrite (count_eq k g s Hi Ht). simpl. eexists _, _. split; [done|]. apply calm_refl.
    - eexists _, _. split; [done|]. split; simpl; try done. apply advance_clk.
    - eexists _, _. split; [done|]. done.
  Qed.
  Lemma quiet_run l : forallb quiet_op l = true -> quiet (drift_ops l) (run_nested k l).
  Proof.
    induction l as [|o l IH]; intros Hl g s Hi Hup; [exists s; split; [done|apply calm_refl]|]. simpl in *. apply andb_true_iff in Hl as [Ho Hl].
    destruct (quiet_step g s o true Hi Hup Ho) as (s1 & r & E1 & C1). rewrite E1. simpl.
    destruct (IH Hl g s1) as (s2 & E2 & C2); [by eapply inv_calm|by rewrite (q_up _ _ _ _ C1)|]. exists s2. split; [done|].
    eapply calm_trans; [eapply calm_le; [|exact C1]|eapply calm_le; [|exact C2]]; [apply drift_le_l|apply drift_le_r].
  Qed.
  Lemma quiet_le a b u : drift_le a b = true -> quiet a u -> quiet b u.
  Proof. intros H Hq g s Hi Hup. destruct (Hq g s Hi Hup) as (s' & E & C). exists s'. split; [done|]. by eapply calm_le. Qed.
  Lemma quiet_runs ls : forallb (forallb quiet_op) ls = true -> Forall (quiet (drift_runs ls)) (map (run_nested k) ls).
  Proof.
    induction ls as [|l ls IH]; simpl; intros H; [done|]. apply andb_true_iff in H as [H1 H2]. constructor.
    - eapply quiet_le; [apply drift_le_l|by apply quiet_run].
    - eapply Forall_impl; [by apply IH|]. intros u. apply quiet_le, drift_le_r.
  Qed.

  (** the kinds of changes a program makes *)
  Definition kinds (l : list op) (κ : kind) : Prop := anyof (fun o => okind o κ) l.
  Definition good (o : op) : Prop := forall nested g s, fine_op nested o = true -> o <> ODestroy ->
    g_xs g = [] -> g_act g = [] -> inv g s -> (m_up (me s) = true -> J s) ->
    exists s' r, step k nested o s = Ok (s', r) /\ inv g s' /\ ext (op_waiters o) g s g s' /\
      (m_up (me s) = true -> path (upto (okind o) (m_ncb (me s))) s s' /\ (eq_ok k -> clean_op o = true -> uq s -> uq s') /\
        (forall key, enters (same k key) o = false -> nohope k s key -> nohope k s' key)).
  Lemma fine_nested o : fine_op true o = true -> o <> ODestroy.
  Proof. by intros H ->. Qed.
  Lemma safe_run l : Forall good l -> forallb (fine_op true) l = true -> safe (concat (map op_waiters l)) (kinds l) (run_nested k l).
  Proof.
    induction 1 as [|o l Ho Hl IH]; intros Hf g s Gx Ga Hup Hi HJ; simpl. { exists s. split_and!; [done|done|apply ext_refl|apply path_refl]. }
    simpl in Hf. apply andb_true_iff in Hf as [Hf1 Hf2].
    destruct (Ho true g s Hf1 (fine_nested _ Hf1) Gx Ga Hi (fun _ => HJ)) as (s1 & r & E1 & I1 & X1 & P1). rewrite E1. simpl.
    destruct (P1 Hup) as [P1' _].
    destruct (IH Hf2 g s1) as (s2 & E2 & I2 & X2 & P2); try done; [by rewrite (x_up _ _ _ _ _ X1)|by eapply path_J|]. exists s2. split_and!; try done.
    - by eapply (ext_trans k).
    - eapply path_trans; [eapply upto_path; [..|exact P1']|eapply upto_path; [..|exact P2]]; try done; [by left|by right|]. apply (x_ncb _ _ _ _ _ X1).
  Qed.
  Lemma rok_of out : no_ctor_throw out = true -> rok out.
  Proof. by destruct out. Qed.
  Lemma safe_weaken W (A B : kind -> Prop) u : (forall κ, A κ -> B κ) -> safe W A u -> safe W B u.
  Proof.
    intros H Hs g s H1 H2 H3 H4 H5. destruct (Hs g s H1 H2 H3 H4 H5) as (s' & E & I & X & P). exists s'. split_and!; try done.
    eapply upto_path; [exact H|done|exact P].
  Qed.

  Lemma good_step o : good o.
  Proof.
    assert (forall o nested (s s' : sta), fine_op nested o = true -> match o with OTick _ => False | _ => True end -> path (upto (okind o) (m_ncb (me s))) s s' ->
      path (upto (okind o) (m_ncb (me s))) s s' /\ (eq_ok k -> clean_op o = true -> uq s -> uq s') /\
        (forall key, enters (same k key) o = false -> nohope k s key -> nohope k s' key)) as Huq.
    { intros o' nested s s' Hf Ho P. split; [done|]. split.
      - intros H1 H3 H4. eapply (path_uq k none); [done| |exact P|done].
        intros κ [Hκ|(i & -> & _)]; [|done]. by eapply okind_clean.
      - intros key He. eapply path_nohope; [|exact P]. intros key' c o'' [Hκ|(i & ? & _)] [E1 E2]; [|done].
        pose proof (okind_enters' k (same k key) o' nested key' c o'' Hf Ho Hκ He) as H. unfold same in H. rewrite E2, bool_decide_true in H by done. done. }
    induction o as [o IH] using op_ind'. intros nested g s Hf Hnd Gx Ga Hi HJ. rewrite step_eq. pose proof (Huq o nested s) as Hu. clear Huq. specialize (fun s' => Hu s' Hf).
    assert (match o with OTick _ => False | _ => True end \/ k_refresh k = None ->
      exists s' r, Ok (s, RetNone) = Ok (s', r) /\ inv g s' /\ ext (op_waiters o) g s g s' /\
      (m_up (me s) = true -> path (upto (okind o) (m_ncb (me s))) s s' /\ (eq_ok k -> clean_op o = true -> uq s -> uq s') /\
        (forall key, enters (same k key) o = false -> nohope k s key -> nohope k s' key))) as Hnop.
    { eexists _, _. split_and!; [done|done| |intros _; split; [apply path_refl|done]]. eapply ext_weaken; [|apply ext_refl]. intros y. rewrite cnt_nil. lia. }
    unfold step_with.
    destruct (negb (m_up (me s)) && _) eqn:Eu.
    { eexists _, _. split_and!; [done|done| |]. { eapply ext_weaken; [|apply ext_refl]. intros y. rewrite cnt_nil. lia. }
      intros Hup. by rewrite Hup in Eu. }
    assert (match o with OTick _ => False | _ => True end -> forall m (s' : sta), ends k [] g s m g s' -> (m_up (me s) = true -> path (okind o) s s') -> forall (r : ret) W, exists s'' r', (s <- m;; Ok (s, r)) = Ok (s'', r') /\ inv g s'' /\ ext W g s g s'' /\
      (m_up (me s) = true -> path (upto (okind o) (m_ncb (me s))) s s'' /\ (eq_ok k -> clean_op o = true -> uq s -> uq s'') /\
        (forall key, enters (same k key) o = false -> nohope k s key -> nohope k s'' key))) as Hends.
    { intros Ho m s' (E & I & X) P r W. rewrite E. simpl. eexists _, _. split_and!; [done|done|..].
      - eapply ext_weaken; [|exact X]. intros y. rewrite cnt_nil. lia.
      - intros Hup. apply Hu; [done|]. eapply path_weaken; [|by apply P]. intros κ ?; by left. }
    assert (okind o KFree -> upto (okind o) (m_ncb (me s)) KFree) as HF by (by left).
    destruct o; simpl in Hf; try (assert (m_up (me s) = true) as Hup by (by destruct (m_up (me s))); pose proof (i_up _ _ _ Hi Hup) as Ht; specialize (HJ Hup)).
    - rewrite (lookup_eq k g s key Hi Ht). simpl. destruct (p_lookup k s key); try (by apply Hnop; left).
      eexists _, _. split_and!; [done|by apply inv_give|apply ext_give|]. intros _. apply Hu; [done|]. apply give_path. by apply HF.
    - rewrite (count_eq k g s Hi Ht). simpl. eexists _, _. split_and!; [done|done|apply ext_refl|]. intros _. apply Hu; [done|]. apply path_refl.
    - apply andb_true_iff in Hf as [Hf1 Hf2]. assert (k_resolver k <> RAsync -> exists s' r, get k s key (run_nested k script) out = Ok (s', r) /\ inv g s' /\ ext (op_waiters (OGet key script out)) g s g s' /\
        (m_up (me s) = true -> path (upto (okind (OGet key script out)) (m_ncb (me s))) s s' /\ (eq_ok k -> clean_op (OGet key script out) = true -> uq s -> uq s') /\
          (forall key', enters (same k key') (OGet key script out) = false -> nohope k s key' -> nohope k s' key'))) as Hg.
      { intros Hr. destruct (get_op_ends k _ g s key (run_nested k script) out (kinds script) Hi Hup Gx Ga (safe_run _ IH Hf1) (rok_of _ Hf2) HJ Hr) as (s' & r & E & I & X & P).
        eexists _, _. split_and!; [exact E|done|exact X|]. intros _. apply Hu; [done|].
        apply (P _ (if existsb (enters (same k key)) script then HAny else HClean)); simpl; try done; [by left|by right; left|..].
        - intros Er. split_and!.
          + right; right. split; [done|]. left. exists None. split; [done|by left].
          + intros v ->. right; right. split; [done|]. left. exists (Some v). split; [done|right; eauto].
          + intros κ Hκ. right; right. split; [done|]. by right.
        - destruct (existsb _ script) eqn:Ee; [by left|]. right. split; [done|]. intros key' c o (o' & Ho' & Hk')%anyof_exists [E1 E2].
          pose proof (okind_enters k (same k key) o' key' c o (forallb_in _ _ _ Hf1 Ho') Hk' (existsb_false _ _ _ Ee Ho')) as H. unfold same in H. rewrite E2, bool_decide_true in H by done. done. }
      destruct (k_resolver k) eqn:Er; [by apply Hg..|by apply Hnop; left].
    - apply andb_true_iff in Hf as [Hf1 Hf2]. destruct IH as [IH1 IH2]. destruct (k_resolver k) eqn:Er; [by apply Hnop; left|by apply Hnop; left|].
      destruct (async_get_ends k _ _ g s w key _ keep throw _ _ _ Hi Hup Gx Ga (safe_run _ IH1 Hf1) (safe_run _ IH2 Hf2) HJ Er) as (s' & r & E & I & X & _ & _ & P).
      eexists _, _. split_and!; [exact E|done|exact X|]. intros _. apply Hu; [done|]. apply P; simpl; rewrite ?Er; try tauto.
      + split; [done|]. right; right; right; left. exists true. auto.
      + destruct (throw || (keep && negb (existsb discards script))) eqn:Eks; [left|right].
        * apply orb_true_iff in Eks as [->|[-> Eks%negb_true_iff]%andb_true_iff]; [by left|right]. split; [done|].
          assert (forall j, (anyof (fun o => okind o (KCancel j)) script \/ anyof (fun o => okind o (KLet j)) script) -> False) as Hno.
          { intros j Hj. destruct Hj as [(x & Hx & Ho)%anyof_exists|(x & Hx & Ho)%anyof_exists]; pose proof (existsb_false _ _ _ Eks Hx) as Hd; assert (discards x = true) by (apply (okind_discards k x j); tauto); congruence. }
          intros j. split; intros Hj; apply (Hno j); [by left|by right].
        * split; [done|]. right; right; right; left. exists false. auto.
    - destruct (holds k s v); [|by apply Hnop; left]. eapply Hends; [done|apply (emplace_ends k g s key v Hi Ht)|].
      intros _. eapply emplace_path; simpl; try done; tauto.
    - unfold emplace_throw. eapply Hends; [done|apply (expire_ends k g s key Hi Ht)|]. intros _. eapply expire_path; simpl; try done; tauto.
    - destruct (holds k s v); [|by apply Hnop; left]. destruct (goe_ends k g s key v Hi Ht) as (E & I & X & _). rewrite E. simpl.
      assert (path (okind (OGetOrEmplace key v)) s (f_goe k s key v).1) as P. { eapply goe_path; simpl; try done; tauto. }
      destruct (f_goe k s key v) as [s1 r]. simpl in *.
      assert (path (upto (okind (OGetOrEmplace key v)) (m_ncb (me s))) s s1) as P' by (eapply path_weaken; [|exact P]; by left).
      destruct r as [|v'|x|]; try (by eexists _, _; split_and!; [done..|intros _; apply Hu]).
      eexists _, _. split_and!; [done|by apply inv_give| |].
      + eapply ext_trans1; [done|exact X|apply ext_give].
      + intros _. apply Hu; [done|]. eapply path_trans; [exact P'|]. apply give_path. by left; left.
    - eapply Hends; [done|apply (expire_ends k g s key Hi Ht)|]. intros _. eapply expire_path; simpl; try done; tauto.
    - eapply Hends; [done|apply (expire_all_ends k g s Hi Ht)|]. intros _. eapply expire_all_path; simpl; try done; tauto.
    - eapply Hends; [done|apply (reserve_ends k g s n Hi Ht)|]. intros _. eapply reserve_path; simpl; try done; tauto.
    - destruct (cb_assign_ends k (drift_runs scripts) g s cb v (map (run_nested k) scripts) Hi) as (s' & r & E & I & X & _ & P & _); try done; [rewrite Ga; apply not_elem_of_nil|by apply quiet_runs|].
      eexists _, _. split_and!; [exact E|done|exact X|]. intros Hup. apply Hu; [done|]. destruct (P Hup) as [[-> _]|[_ P']]; [apply path_refl|]. eapply path_one; [by left|exact P'].
    - done.
    - destruct (cb_fail_ends k (drift_runs scripts) g s cb x (map (run_nested k) scripts) Hi) as (s' & r & E & I & X & _ & P & _); try done; [rewrite Ga; apply not_elem_of_nil|by apply quiet_runs|].
      eexists _, _. split_and!; [exact E|done|exact X|]. intros Hup. apply Hu; [done|]. destruct (P Hup) as [[-> _]|[_ P']]; [apply path_refl|]. eapply path_one; [by left|exact P'].
    - destruct (m_cbs (me s) !! cb) as [c|] eqn:Hc; [|by apply Hnop; left].
      destruct (cb_cancel_ends k g s cb c Hi Hc) as (s1 & b & E & I & X & _ & _ & _ & P); [rewrite Ga; apply not_elem_of_nil|].
      rewrite E. simpl. eexists _, _. split_and!; [done|done|exact X|]. intros Hup. apply Hu; [done|]. eapply path_weaken; [|by apply P]. by left.
    - destruct (m_cbs (me s) !! cb) as [c|] eqn:Hc; [|by apply Hnop; left].
      destruct (cb_holders_ends k g g s cb c (cb_own c) false Hi Hc) as (s1 & E & I & X & _ & P); try done.
      + rewrite Ga; apply not_elem_of_nil.
      + rewrite orb_false_r. intros Hown e He. destruct (i_own _ _ _ Hi _ _ He) as (c' & Hc' & Ho & _). congruence.
      + rewrite E. simpl. eexists _, _. split_and!; [done|done|exact X|]. intros Hup. apply Hu; [done|]. eapply path_weaken; [|by apply P]. intros κ [H|[H|[H _]]]; left; simpl; auto.
    - eexists _, _. split; [done|]. set (s' := with_me s (set_clocks (me s) (m_wall (me s) + (if k_steady k then Z.max 0 dw else dw)) (m_steady (me s) + Z.max 0 ds))).
      assert (calm (drift_op (OAdvance dw ds)) s s') as C.
      { split; simpl; try done. apply advance_clk. }
      split; [by eapply inv_calm|]. split; [by eapply ext_calm|]. intros _. apply Hu; [done|]. apply (path_one k _ (KTime (drift_op (OAdvance dw ds)))); [by left|]. split; try done; [by exists []|apply C|by apply cbs_ok_same| |by apply keep_ok_same].
      apply b_same; try done. right; left; eauto.
    - eexists _, _. split; [done|]. set (s' := with_me s (set_dropped (me s) ({[v]} ∪ m_dropped (me s)))). assert (calm Forward s s') as C by done.
      split; [by eapply inv_calm|]. split; [by eapply ext_calm|]. intros _. apply Hu; [done|]. apply (path_one k _ (KTime Forward)); [by left|]. split; try done; [by exists []|by apply cbs_ok_same| |by apply keep_ok_same].
      apply b_same; try done. right; left; eauto.
    - destruct nested; [done|]. simpl in Hf. destruct (k_refresh k) eqn:Er; [|apply Hnop; by right].
      set (B := fun κ => anyof (fun i : list op * outcome * (bool * bool) => anyof (fun o => okind o κ) i.1.1) items).
      destruct (worker_ends k (m_steady (me s)) g B (map (fun i => (run_nested k i.1.1, i.1.2, i.2)) items)
        (map (fun i => concat (map op_waiters i.1.1)) items) s Hi Hup Gx Ga) as (s1 & E & I & X & P & U & NH & _).
      + assert (forall i κ, i ∈ items -> kinds i.1.1 κ -> B κ) as HB. { intros i κ Hin Hκ. apply anyof_exists. eauto. } clearbody B.
        clear -IH Hf HB. induction IH as [|i l Hi Hl IHl]; simpl in *; constructor.
        * apply andb_true_iff in Hf as [Hf _]. apply andb_true_iff in Hf as [[H1 H2]%andb_true_iff H3].
          split; [eapply safe_weaken; [|by apply safe_run]; intros κ; apply HB; by left|]. split; [by apply rok_of|]. simpl. by destruct i.2.2.
        * apply IHl; [by apply andb_true_iff in Hf as [_ ?]|]. intros i' κ Hin. apply HB. by right.
      + apply Hk. by rewrite Er.
      + done.
      + intros key b (i & Hin & (o & Ho & Hk')%anyof_exists)%anyof_exists. eapply okind_norefresh; [|exact Hk'].
        pose proof (forallb_in _ _ _ Hf Hin) as H. simpl in H. apply andb_true_iff in H as [[H _]%andb_true_iff _]. by eapply forallb_in.
      + rewrite E. simpl. eexists _, _. split_and!; [done|done|exact X|]. intros _. split.
        * assert (is_Some (k_refresh k)) as Hsr by (rewrite Er; eauto). apply P; simpl; try tauto.
          -- intros e. split; [done|]. do 4 right. eauto.
          -- intros key. split; [done|]. right; left; eauto.
          -- intros key Hr. split; [done|]. right; left. exists key. right. split; [done|]. destruct Hr as [?|(i & o & δ & HB & _)]; [by left|right; eauto].
          -- intros key. split; [done|]. right; right; left. eauto.
          -- intros it key v (i & -> & Hin)%elem_of_list_fmap Hv. split; [done|]. right; right; left. simpl in Hv. eexists _, _. split; [done|]. right. eauto.
        * split; [intros H1 H3 H4|].
          2: { intros key He HN. apply NH; [|done]. intros key' c o'' (i & Hin & (o & Ho & Hk')%anyof_exists)%anyof_exists [E1 E2].
            pose proof (forallb_in _ _ _ Hf Hin) as H'. simpl in H'. apply andb_true_iff in H' as [[H' _]%andb_true_iff _]. simpl in He.
            pose proof (existsb_false _ _ _ He Hin) as H1. simpl in H1. pose proof (existsb_false _ _ _ H1 Ho) as H2.
            pose proof (okind_enters k (same k key) o key' c o'' (forallb_in _ _ _ H' Ho) Hk' H2) as H. unfold same in H. rewrite E2, bool_decide_true in H by done. done. }
          simpl in H3. apply U; try done.
          -- intros κ (i & Hin & (o & Ho & Hk')%anyof_exists)%anyof_exists. pose proof (forallb_in _ _ _ H3 Hin) as H. simpl in H.
             pose proof (forallb_in _ _ _ Hf Hin) as H'. simpl in H'. apply andb_true_iff in H' as [[H' _]%andb_true_iff _].
             assert (fine_op true o = true) as Hfo by (by eapply forallb_in).
             destruct (k_resolver k) eqn:Er'.
             2: (apply negb_true_iff in H; pose proof (existsb_false _ _ _ H Ho) as He; destruct κ as [| | | | | |key cl v| | | | | |]; try done; by pose proof (okind_enters k _ o key cl v Hfo Hk' He)).
             all: eapply okind_clean; [exact Hfo|by destruct o| |exact Hk']; by eapply forallb_in.
          -- intros Hr key c o' (i & Hin & (o & Ho & Hk')%anyof_exists)%anyof_exists. pose proof (forallb_in _ _ _ H3 Hin) as H. simpl in H. rewrite Hr in H.
             pose proof (forallb_in _ _ _ Hf Hin) as H'. simpl in H'. apply andb_true_iff in H' as [[H' _]%andb_true_iff _].
             apply negb_true_iff in H. by pose proof (okind_enters k _ o key c o' (forallb_in _ _ _ H' Ho) Hk' (existsb_false _ _ _ H Ho)).
    - done.
  Qed.

  (** no operation inside another one takes entries off the refresh queue *)
  Lemma okind_nopop o e : fine_op true o = true -> ~ okind o (KPop e).
  Proof.
    induction o as [o IH] using op_ind'. destruct o; simpl; try done; try (by intuition (subst; congruence)); try (by intros; subst; intuition (subst; done)).
    - intros [Hf _]%andb_true_iff [?|[?|[_ [(o & ? & _)|(x & Hx & Ho)%anyof_exists]]]]; try done.
      apply (Forall_in _ _ _ IH Hx); [|done]. by eapply forallb_in.
    - destruct IH as [IH1 IH2]. intros [Hf1 Hf2]%andb_true_iff [_ [?|[?|[?|[(? & ? & _)|[(x & Hx & Ho)%anyof_exists|(x & Hx & Ho)%anyof_exists]]]]]]; try done.
      + apply (Forall_in _ _ _ IH1 Hx); [|done]. exact (forallb_in _ _ _ Hf1 Hx).
      + apply (Forall_in _ _ _ IH2 Hx); [|done]. exact (forallb_in _ _ _ Hf2 Hx).
  Qed.
  (** a round of the refresh worker *)
  Lemma tick_ends items g s : fine_op false (OTick items) = true -> g_xs g = [] -> g_act g = [] -> inv g s -> m_up (me s) = true -> J s -> k_refresh k <> None ->
    exists s', step k false (OTick items) s = Ok (s', RetNone) /\
      (tame k -> (forall i o κ, i ∈ items -> o ∈ i.1.1 -> okind o κ -> forward k κ) -> cover (fun _ => False) s -> cover (fun _ => False) s') /\
      (forall d i, k_refresh k = Some (d, i) -> (0 < d)%Z -> DQ d s -> length (dues (m_steady (me s)) s) <= length items -> dues (m_steady (me s)) s' = []) /\
      (forall A : kind -> Prop, (forall κ, okind (OTick items) κ -> (forall key b, κ <> KRefresh key b) -> A κ) -> (forall key, A (KRefresh key false)) ->
        (k_resolver k = RSync \/ (exists j v δ, okind (OTick items) (KDone j v δ) /\ (m_ncb (me s) <= j)%N) -> forall key, A (KRefresh key true)) ->
        path (upto A (m_ncb (me s))) s s') /\
      (forall d i (D : Z -> Prop) (A : kind -> Prop), k_refresh k = Some (d, i) -> (0 < d)%Z -> DQ d s -> (forall x el, x ∈ dues (m_steady (me s)) s -> tv s x = Some el -> D (el_key el)) ->
        (forall κ, okind (OTick items) κ -> (forall key b, κ <> KRefresh key b) -> A κ) -> (forall key b, D key -> A (KRefresh key b)) ->
        path (upto A (m_ncb (me s))) s s') /\
      (k_resolver k = RSync -> eq_ok k -> clean_op (OTick items) = true -> uq s -> swapped s -> swapped s').
  Proof.
    intros Hf Gx Ga Hi Hup HJ Hrf. rewrite step_eq. unfold step_with. rewrite Hup. simpl negb. simpl andb. cbv iota. simpl in Hf.
    destruct (k_refresh k) eqn:Er; [|done].
    set (B := fun κ => anyof (fun i : list op * outcome * (bool * bool) => anyof (fun o => okind o κ) i.1.1) items).
    assert (forall i o, i ∈ items -> o ∈ i.1.1 -> fine_op true o = true) as Hfo.
    { intros i o Hin Ho. pose proof (forallb_in _ _ _ Hf Hin) as H. simpl in H. apply andb_true_iff in H as [[H _]%andb_true_iff _]. by eapply forallb_in. }
    assert (forall key b, ~ B (KRefresh key b)) as HnoR.
    { intros key b (i & Hin & (o & Ho & Hk')%anyof_exists)%anyof_exists. eapply okind_norefresh; [|exact Hk']. by eapply Hfo. }
    destruct (worker_ends k (m_steady (me s)) g B (map (fun i => (run_nested k i.1.1, i.1.2, i.2)) items)
      (map (fun i => concat (map op_waiters i.1.1)) items) s Hi Hup Gx Ga) as (s1 & E & I & X & P & U & NH & C & D & K & Sw).
    - assert (forall i κ, i ∈ items -> kinds i.1.1 κ -> B κ) as HB. { intros i κ Hin Hκ. apply anyof_exists. eauto. } clearbody B.
      clear -Hk Hf HB. induction items as [|i l IHl]; simpl in *; constructor.
      + apply andb_true_iff in Hf as [Hf _]. apply andb_true_iff in Hf as [[H1 H2]%andb_true_iff H3].
        split; [eapply safe_weaken; [|apply safe_run; [apply Forall_forall; intros; apply good_step|done]]; intros κ; apply HB; by left|]. split; [by apply rok_of|]. simpl. by destruct i.2.2.
      + apply IHl; [by apply andb_true_iff in Hf as [_ ?]|]. intros i' κ Hin. apply HB. by right.
    - apply Hk. by rewrite Er.
    - done.
    - exact HnoR.
    - rewrite E. simpl. exists s1. split_and!; [done|..].
      + intros Ht HF HC. apply C; [done| |done]. intros κ (i & Hin & (o & Ho & Hk')%anyof_exists)%anyof_exists. split; [by eapply HF|].
        intros e ->. eapply okind_nopop; [|exact Hk']. by eapply Hfo.
      + intros d i [= ->] Hd HD Hl. eapply D; try done. by rewrite map_length.
      + intros A HA1 HA2 HA3. apply P.
        * apply HA1; [|done]. simpl. split; [by rewrite Er; eauto|tauto].
        * intros e. apply HA1; [|done]. simpl. split; [by rewrite Er; eauto|]. do 4 right. eauto.
        * done.
        * intros key [?|(j & v & δ & HB & Hle)]; apply HA3; [by left|right]. exists j, v, δ. split; [|done]. simpl. split; [by rewrite Er; eauto|]. do 3 right. by left.
        * intros κ HB. apply HA1; [simpl; split; [by rewrite Er; eauto|]; do 3 right; by left|]. intros key b ->. by eapply HnoR.
        * intros key. apply HA1; [|done]. simpl. split; [by rewrite Er; eauto|]. right; right; left. eauto.
        * intros it key v (i & -> & Hin)%elem_of_list_fmap Hv. apply HA1; [|done]. simpl. split; [by rewrite Er; eauto|]. right; right; left. simpl in Hv. eexists _, _. split; [done|]. right. eauto.
      + intros d i D' A [= ->] Hd HD HDk HA1 HA2. eapply (K d i D'); try done.
        * apply HA1; [|done]. simpl. split; [by rewrite Er; eauto|tauto].
        * intros e. apply HA1; [|done]. simpl. split; [by rewrite Er; eauto|]. do 4 right. eauto.
        * auto.
        * auto.
        * intros κ HB. apply HA1; [simpl; split; [by rewrite Er; eauto|]; do 3 right; by left|]. intros key b ->. by eapply HnoR.
        * intros key _. apply HA1; [|done]. simpl. split; [by rewrite Er; eauto|]. right; right; left. eauto.
        * intros it key v _ (i' & -> & Hin)%elem_of_list_fmap Hv. apply HA1; [|done]. simpl. split; [by rewrite Er; eauto|]. right; right; left. simpl in Hv. eexists _, _. split; [done|]. right. eauto.      + intros Hr Heq H3 HU HS. simpl in H3.
        assert (forall key c o', ~ B (KEnter key c o')) as HnoE.
        { intros key c o' (i & Hin & (o & Ho & Hk')%anyof_exists)%anyof_exists. pose proof (forallb_in _ _ _ H3 Hin) as H. simpl in H. rewrite Hr in H.
          apply negb_true_iff in H. by pose proof (okind_enters k _ o key c o' (Hfo _ _ Hin Ho) Hk' (existsb_false _ _ _ H Ho)). }
        apply Sw; try done. intros κ HB. destruct κ as [| | | | | |key cl v| | | | | |]; try done. by destruct (HnoE key cl v).
  Qed.

  Lemma down_step o nested g s s' r : inv g s -> m_up (me s) = false -> fine_op nested o = true -> g_xs g = [] -> g_act g = [] ->
    step k nested o s = Ok (s', r) -> same_tab s s'.
  Proof.
    intros Hi Hup Hf Gx Ga. rewrite step_eq. unfold step_with. rewrite Hup. simpl negb. rewrite andb_true_l.
    assert (forall i, i ∉ g_act g) as Hna by (intros i; rewrite Ga; apply not_elem_of_nil).
    destruct o; try (by intros [= <- _]); try done.
    - simpl in Hf. destruct (cb_assign_ends k (drift_runs scripts) g s cb v (map (run_nested k) scripts) Hi) as (s1 & r1 & E & _ & _ & ST & _); try done; [by apply quiet_runs|].
      rewrite E. intros [= <- _]. by apply ST.
    - simpl in Hf. destruct (cb_fail_ends k (drift_runs scripts) g s cb x (map (run_nested k) scripts) Hi) as (s1 & r1 & E & _ & _ & ST & _); try done; [by apply quiet_runs|].
      rewrite E. intros [= <- _]. by apply ST.
    - destruct (m_cbs (me s) !! cb) as [c|] eqn:Hc; [|by intros [= <- _]].
      destruct (cb_cancel_ends k g s cb c Hi Hc) as (s1 & b & E & I & X & _ & _ & ST & _); [done|]. rewrite E. by intros [= <- _].
    - destruct (m_cbs (me s) !! cb) as [c|] eqn:Hc; [|by intros [= <- _]].
      destruct (cb_holders_ends k g g s cb c (cb_own c) false Hi Hc) as (s1 & E & I & X & ST & _); try done.
      + rewrite orb_false_r. intros Hown e He. destruct (i_own _ _ _ Hi _ _ He) as (c' & Hc' & Ho & _). congruence.
      + rewrite E. by intros [= <- _].
  Qed.

  (** ** Histories *)
  Lemma inv_init : inv g0 st_init.
  Proof.
    split; unfold LT; simpl; try done.
    all: try (by constructor). all: try (by intros; match goal with H : _ ∈ _ |- _ => by apply elem_of_nil in H end).
    all: try (by intros e [? He]; rewrite lookup_empty in He).
    - intros e. rewrite !lookup_empty. split; by intros [? ?].
    - by destruct (has_queue k).
  Qed.
  (** what holds between operations *)
  Record top (s : sta) : Prop := {
    t_inv : inv g0 s;
    t_down : m_up (me s) = false -> a_tab (cs s) = [];
    t_J : m_up (me s) = true -> J s
  }.
  Lemma top_step o s : top s -> fine_op false o = true ->
    exists s' r, step k false o s = Ok (s', r) /\ top s' /\ (forall w, wtot g0 s w <= wtot g0 s' w <= wtot g0 s w + cnt w (op_waiters o)) /\
      (exists l, m_log (me s') = l ++ m_log (me s)) /\
      (m_up (me s) = true -> o <> ODestroy -> m_up (me s') = true /\ path (upto (okind o) (m_ncb (me s))) s s' /\ (eq_ok k -> clean_op o = true -> uq s -> uq s') /\
        (forall key, enters (same k key) o = false -> nohope k s key -> nohope k s' key)) /\
      (m_up (me s) = false -> m_up (me s') = false).
  Proof.
    intros [Hi Hd HJ] Hf. assert (o = ODestroy \/ o <> ODestroy) as [->|Hnd] by (destruct o; try (by right); by left).
    - rewrite step_eq. unfold step_with. destruct (m_up (me s)) eqn:Hup; simpl negb; simpl andb; cbv iota.
      + destruct (destroy_ends k g0 s Hi eq_refl) as (s' & E & I & Hw & T & U & L). rewrite E. simpl.
        eexists _, _. split; [done|]. split; [split; [done|done|by rewrite U]|]. split; [|by split_and!]. intros w. rewrite Hw, cnt_nil. lia.
      + eexists _, _. split; [done|]. split; [split; [done|intros _; by apply Hd|by rewrite Hup]|]. split; [|split; [by exists []|done]]. intros w. simpl. rewrite cnt_nil. lia.
    - destruct (good_step o false g0 s Hf Hnd eq_refl eq_refl Hi HJ) as (s' & r & E & I & X & P). eexists _, _. split; [done|]. split; [split; [done|..]|].
      + rewrite (x_up _ _ _ _ _ X). intros Hup. destruct (down_step o false g0 s s' r Hi Hup Hf eq_refl eq_refl E) as [Eb Et].
        unfold a_tab. rewrite Eb, Et. by apply Hd.
      + rewrite (x_up _ _ _ _ _ X). intros Hup. destruct (P Hup) as [P' _]. eapply path_J; [exact P'|by apply HJ].
      + split; [apply X|]. split; [apply X|]. rewrite (x_up _ _ _ _ _ X). split; [|done]. intros Hup _. split; [done|by apply P].
  Qed.
  Lemma top_init : top st_init.
  Proof. split; [apply inv_init|done|intros _; apply J_init]. Qed.
  Lemma top_run l : forall s, top s -> forallb (fine_op false) l = true ->
    exists s', run k l s = Ok s' /\ top s' /\ (forall w, wtot g0 s w <= wtot g0 s' w <= wtot g0 s w + cnt w (waiters l)) /\
      (exists l', m_log (me s') = l' ++ m_log (me s)).
  Proof.
    induction l as [|o l IH]; intros s Hs Hf; simpl.
    - exists s. split_and!; try done; [|by exists []]. intros w. unfold waiters; simpl. rewrite cnt_nil. lia.
    - simpl in Hf. apply andb_true_iff in Hf as [Hf1 Hf2].
      destruct (top_step o s Hs Hf1) as (s1 & r & E1 & T1 & W1 & [l1 L1] & _). rewrite E1. simpl.
      destruct (IH s1 T1 Hf2) as (s2 & E2 & T2 & W2 & [l2 L2]). exists s2. split_and!; try done.
      + intros w. specialize (W1 w). specialize (W2 w). unfold waiters in *. simpl. rewrite cnt_app. lia.
      + exists (l2 ++ l1). by rewrite L2, L1, app_assoc.
  Qed.

  (** prefixes *)
  Lemma run_app l1 l2 (s : sta) : run k (l1 ++ l2) s = (s <- run k l1 s;; run k l2 s).
  Proof.
    revert s. induction l1 as [|o l1 IH]; intros s; simpl; [done|]. destruct (step k false o s) as [[s1 r]| | |]; simpl; [apply IH|done..].
  Qed.
End step.
