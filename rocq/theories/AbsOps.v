(** The helper functions of the cache in closed form, and the invariant across them. *)
From Verif Require Import Base AQueue ATable BasicHashtable QueueProofs BasicHashtableProofs ContainersProofs Mapped Cache CacheAbs AbsInv AbsPrim AbsPrim2 AbsSweep.

Notation unq := AbsPrim2.a_unq.

Definition p_upd (s : sta) (e : N) (f : elem -> elem) : sta :=
  match m_els (me s) !! e with Some el => with_me s (wr_el (me s) e (f el)) | None => s end.

Section ops.
  Context (k : cfg).
  Notation inv := (inv k).

  (** [m] ends in state [s'], keeping the invariant *)
  Definition ends (W : list N) (g : gh) (s : sta) (m : res sta) (g' : gh) (s' : sta) : Prop :=
    m = Ok s' /\ inv g' s' /\ ext W g s g' s'.
  Lemma ends_bind W g1 s1 (m : res sta) g2 s2 f g3 s3 : inv g1 s1 ->
    ends [] g1 s1 m g2 s2 -> ends W g2 s2 (f s2) g3 s3 -> ends W g1 s1 (rbind m f) g3 s3.
  Proof.
    intros Hi (E1 & I1 & X1) (E2 & I2 & X2). split_and!; [by rewrite E1; simpl|done|by eapply ext_trans0].
  Qed.
  Lemma ends_bind1 W g1 s1 (m : res sta) g2 s2 f g3 s3 : inv g1 s1 ->
    ends W g1 s1 m g2 s2 -> ends [] g2 s2 (f s2) g3 s3 -> ends W g1 s1 (rbind m f) g3 s3.
  Proof.
    intros Hi (E1 & I1 & X1) (E2 & I2 & X2). split_and!; [by rewrite E1; simpl|done|by eapply ext_trans1].
  Qed.
  Lemma ends_ret g s : inv g s -> ends [] g s (Ok s) g s.
  Proof. intros. split_and!; [done|done|apply ext_refl]. Qed.

  Lemma inv_wait g s l : inv g s -> inv (with_wait g l) s.
  Proof. intros Hi. apply (inv_ghost k g); try done. Qed.

  (** ** mapped values *)
  Lemma mode_dead : mode_ok k (m_dead (k_pointer k)).
  Proof. unfold m_dead. destruct (k_pointer k) eqn:E; split; try done; congruence. Qed.
  Lemma mode_mark m : mode_ok k m -> mode_ok k (m_mark_expired (k_pointer k) m).
  Proof. intros H. destruct m; simpl; try apply mode_dead. split; done. Qed.
  Lemma mode_weaken m : mode_ok k m -> mode_ok k (m_weaken (k_pointer k) m).
  Proof.
    intros H. destruct m as [p|v|o|x| |]; simpl; try apply mode_dead; try done.
    - destruct (k_pointer k) eqn:E; split; try done; congruence.
    - by destruct H.
  Qed.
  Lemma mode_strengthen al m : mode_ok k m -> mode_ok k (m_strengthen (k_pointer k) al m).1.
  Proof.
    intros H. destruct m as [p|v|[v|]|x| |]; simpl; try done.
    - destruct (p_strengthen p). split; done.
    - destruct (al v); done.
  Qed.

  Lemma upd_soft g s e el f : inv g s -> m_els (me s) !! e = Some el -> soft k el (f el) ->
    (e ∉ g_priv g \/ el_map (f el) = el_map el /\ (blank el -> blank (f el))) -> ends [] g s (s_upd s e f) g (p_upd s e f).
  Proof.
    intros Hi He Hs Hp. unfold p_upd. rewrite He. by apply soft_ok.
  Qed.
  Lemma soft_map el m : mode_ok k m -> cbq_of m = cbq_of (el_map el) -> m_pending m = el_pending el -> soft k el (with_map el m).
  Proof. intros. by split_and!. Qed.
  Lemma soft_meta el el' : mode_ok k (el_map el) -> el_key el' = el_key el -> el_rc el' = el_rc el -> el_map el' = el_map el -> soft k el el'.
  Proof. intros H E1 E2 E3. unfold soft, el_pending. by rewrite E1, E2, E3. Qed.
  Lemma LT_not_priv g s e : inv g s -> e ∈ LT g (cs s) -> e ∉ g_priv g.
  Proof. intros Hi He Hp. by destruct (i_priv _ _ _ Hi e Hp) as [? _]. Qed.
  Lemma nopend_not_priv g s e el : inv g s -> m_els (me s) !! e = Some el -> ~ is_pend el -> e ∉ g_priv g.
  Proof.
    intros Hi He Hn Hp. destruct (i_priv _ _ _ Hi e Hp) as (_ & el' & He' & Em & _). rewrite He in He'. injection He' as <-.
    apply Hn. unfold is_pend, el_pending. by rewrite Em.
  Qed.

  Definition f_mark (s : sta) (e : N) : sta := p_upd s e (fun el => with_map el (m_mark_expired (k_pointer k) (el_map el))).
  Definition f_weaken (s : sta) (e : N) : sta := p_upd s e (fun el => with_map el (m_weaken (k_pointer k) (el_map el))).
  Definition f_strengthen (s : sta) (e : N) : sta :=
    p_upd s e (fun el => with_map el (m_strengthen (k_pointer k) (alive (me s)) (el_map el)).1).
  Lemma mark_ends g s e : inv g s -> is_Some (m_els (me s) !! e) -> e ∉ g_priv g ->
    ends [] g s (mark_expired k s e) g (f_mark s e).
  Proof.
    intros Hi [el He] Hp. apply (upd_soft _ _ _ el); [done|done| |by left]. apply soft_map.
    - apply mode_mark. by eapply i_mode.
    - unfold m_dead. destruct (el_map el); simpl; try destruct (k_pointer k); done.
    - unfold el_pending, m_dead. destruct (el_map el); simpl; try destruct (k_pointer k); done.
  Qed.
  Lemma weaken_ends g s e : inv g s -> is_Some (m_els (me s) !! e) -> e ∉ g_priv g ->
    ends [] g s (weaken k s e) g (f_weaken s e).
  Proof.
    intros Hi [el He] Hp. apply (upd_soft _ _ _ el); [done|done| |by left]. apply soft_map.
    - apply mode_weaken. by eapply i_mode.
    - unfold m_dead. destruct (el_map el); simpl; try destruct (k_pointer k); done.
    - unfold el_pending, m_dead. destruct (el_map el); simpl; try destruct (k_pointer k); done.
  Qed.
  Lemma strengthen_ends g s e : inv g s -> is_Some (m_els (me s) !! e) -> e ∉ g_priv g ->
    ends [] g s (strengthen k s e) g (f_strengthen s e).
  Proof.
    intros Hi [el He] Hp. apply (upd_soft _ _ _ el); [done|done| |by left]. apply soft_map.
    - apply mode_strengthen. by eapply i_mode.
    - unfold p_strengthen. destruct (el_map el) as [[? [] ?]| |[v|]| | |]; simpl; try done. by destruct (alive _ v).
    - unfold el_pending, p_strengthen. destruct (el_map el) as [[? [] ?]| |[v|]| | |]; simpl; try done. by destruct (alive _ v).
  Qed.

  (** ** dropping callbacks *)
  Definition f_drop (s : sta) (p : pcb) : sta :=
    match p with PWait w => s_log s (EvDrop w) | PRefresh _ o => f_dec s o end.
  Definition f_drops (s : sta) (ps : list pcb) : sta := foldl f_drop s ps.
  Definition hold (ps : list pcb) (g : gh) : gh :=
    with_wait (with_pins g (olds_of ps ++ g_pins g)) (waits_of ps ++ g_wait g).
  Lemma drops_ends ps : forall g s, inv (hold ps g) s -> ends [] (hold ps g) s (drop_pcbs s ps) g (f_drops s ps).
  Proof.
    induction ps as [|p ps IH]; intros g s Hi; simpl.
    - assert (hold [] g = g) as E by (by destruct g). rewrite E in *. by apply ends_ret.
    - apply ends_bind with (g2 := hold ps g) (s2 := f_drop s p); [done| |].
      2: { apply IH. destruct p as [w|n o]; simpl.
           - apply inv_log. apply (inv_ghost k (hold (PWait w :: ps) g)); done.
           - apply (drop_ok k (hold ps g)). apply (inv_ghost k (hold (PRefresh n o :: ps) g)); done. }
      destruct p as [w|n o]; simpl.
      + split_and!; [done| |].
        * apply inv_log. apply (inv_ghost k (hold (PWait w :: ps) g)); done.
        * apply ext_log. intros x. unfold hold, waits_of; simpl. rewrite !cnt_app, ?cnt_cons, ?cnt_nil, ?cnt_app. simpl. lia.
      + assert (inv (pin o (hold ps g)) s) as Hi'. { apply (inv_ghost k (hold (PRefresh n o :: ps) g)); done. }
        destruct (drop_ok k _ _ _ Hi') as (E & I & X). split_and!; [done|done|]. eapply ext_ghost; [| |exact X]; done.
  Qed.

  Definition f_cancel (s : sta) (e : N) : sta :=
    match m_els (me s) !! e with
    | Some el =>
      match el_map el with
      | MPend p => f_drops (p_upd s e (fun el => with_map el (MPend (p_cancel p)))) (p_cbq p)
      | _ => s
      end
    | None => s
    end.
  Lemma cancel_ends g s e : inv g s -> is_Some (m_els (me s) !! e) -> e ∉ g_priv g ->
    ends [] g s (el_cancel s e) g (f_cancel s e).
  Proof.
    intros Hi [el He] Hp. unfold el_cancel, f_cancel, s_el, rd_el. rewrite He. simpl.
    destruct (el_map el) as [p| | | | |] eqn:Em; try by apply ends_ret.
    apply ends_bind with (g2 := hold (p_cbq p) g) (s2 := p_upd s e (fun el => with_map el (MPend (p_cancel p)))); [done| |].
    2: { apply drops_ends. unfold p_upd. rewrite He. 
         apply (inv_upd k g _ s e el); try done; simpl.
         - intros x. unfold el_olds; rewrite Em; unfold olds_of; simpl. rewrite ?cnt_app, ?cnt_nil. lia.
         - intros _. unfold is_pend, el_pending. by rewrite Em.
         - intros q Hq. by apply elem_of_nil in Hq.
         - by left. }
    unfold p_upd. rewrite He. split_and!.
    - unfold s_upd, upd_el, rd_el. by rewrite He.
    - apply (inv_upd k g _ s e el); try done; simpl.
         + intros x. unfold el_olds; rewrite Em; unfold olds_of; simpl. rewrite ?cnt_app, ?cnt_nil. lia.
         + intros _. unfold is_pend, el_pending. by rewrite Em.
         + intros q Hq. by apply elem_of_nil in Hq.
         + by left.
    - apply (ext_upd [] _ _ _ _ el); try done.
      + intros _. unfold is_pend, el_pending. by rewrite Em.
      + intros w. unfold el_waits; rewrite Em; unfold hold; simpl; unfold waits_of; simpl. rewrite ?cnt_app, ?cnt_nil. lia.
  Qed.
  Lemma f_dec_els s o x : x <> o -> m_els (me (f_dec s o)) !! x = m_els (me s) !! x.
  Proof.
    intros Hne. unfold f_dec. destruct (m_els (me s) !! o) as [el|] eqn:E; [|done].
    destruct (el_rc el) as [|[|n]]; simpl; by rewrite ?lookup_delete_ne, ?lookup_insert_ne.
  Qed.
  Lemma f_drops_els ps s x : x ∉ olds_of ps -> m_els (me (f_drops s ps)) !! x = m_els (me s) !! x.
  Proof.
    revert s. induction ps as [|p ps IH]; intros s Hx; [done|]. simpl.
    assert (x ∉ olds_of ps) as Hx'. { intros H. apply Hx. unfold olds_of; simpl. apply elem_of_app. by right. }
    unfold f_drops in IH. rewrite (IH _ Hx'). destruct p as [w|n o]; simpl; [done|]. apply f_dec_els.
    intros ->. apply Hx. unfold olds_of; simpl. by left.
  Qed.
  Lemma f_dec_cs s o : a_bs (cs (f_dec s o)) = a_bs (cs s) /\ a_torn (cs (f_dec s o)) = a_torn (cs s) /\
    a_q (cs (f_dec s o)) = a_q (cs s) /\ a_dq (cs (f_dec s o)) = a_dq (cs s).
  Proof. unfold f_dec. destruct (m_els (me s) !! o) as [el|]; [|done]. by destruct (el_rc el) as [|[|n]]. Qed.
  Lemma f_drops_cs ps s : a_bs (cs (f_drops s ps)) = a_bs (cs s) /\ a_torn (cs (f_drops s ps)) = a_torn (cs s) /\
    a_q (cs (f_drops s ps)) = a_q (cs s) /\ a_dq (cs (f_drops s ps)) = a_dq (cs s).
  Proof.
    revert s. induction ps as [|p ps IH]; intros s; [done|]. simpl. destruct (IH (f_drop s p)) as (E1 & E2 & E3 & E4).
    unfold f_drops in *. rewrite E1, E2, E3, E4. destruct p; [done|]. apply f_dec_cs.
  Qed.
  Lemma f_cancel_cs s e : a_bs (cs (f_cancel s e)) = a_bs (cs s) /\ a_torn (cs (f_cancel s e)) = a_torn (cs s) /\
    a_q (cs (f_cancel s e)) = a_q (cs s) /\ a_dq (cs (f_cancel s e)) = a_dq (cs s).
  Proof.
    unfold f_cancel. destruct (m_els (me s) !! e) as [el|] eqn:E; [|done]. destruct (el_map el); try done.
    pose proof (f_drops_cs (p_cbq p) (p_upd s e (fun el => with_map el (MPend (p_cancel p))))) as H. 
    unfold p_upd in *. rewrite E in *. done.
  Qed.
  Lemma f_cancel_self g s e el : inv g s -> m_els (me s) !! e = Some el ->
    exists el', m_els (me (f_cancel s e)) !! e = Some el' /\ cbq_of (el_map el') = [] /\ el_pending el' = el_pending el.
  Proof.
    intros Hi He. unfold f_cancel. rewrite He. destruct (el_map el) as [p| | | | |] eqn:Em.
    2-6: exists el; rewrite Em; done.
    exists (with_map el (MPend (p_cancel p))). split_and!; [|done|unfold el_pending; by rewrite Em].
    rewrite f_drops_els.
    - unfold p_upd. rewrite He. simpl. by rewrite lookup_insert.
    - intros Ho. assert (e ∈ el_olds el) as Ho' by (unfold el_olds; by rewrite Em).
      apply el_olds_elem in Ho' as [n Hn]. destruct (i_ref _ _ _ Hi _ _ _ _ He Hn) as (_ & ? & _). done.
  Qed.

  (** ** removal from the queues, disposal *)
  Lemma on_unlink_eq g s e : inv g s -> e ∈ LT g (cs s) -> on_unlink_ k s e = Ok (with_cs s (unq k (cs s) e)).
  Proof.
    intros Hi He. unfold on_unlink_. pose proof (i_q _ _ _ Hi) as Hq.
    assert ((if has_queue k then c <- c_qunlink comp_abs (cs s) e;; Ok (with_cs s c) else Ok s) =
      Ok (with_cs s (a_set_q (cs s) (if has_queue k then aq_unlink (a_q (cs s)) e else a_q (cs s))))) as ->.
    { destruct (has_queue k).
      - simpl. unfold need. rewrite decide_True; [done|]. by rewrite Hq.
      - by destruct s as [[] ?]. }
    simpl. destruct (k_refresh k) as [r|] eqn:Er.
    - rewrite bool_decide_true by eauto. simpl. unfold need. rewrite decide_True.
      2: { apply Hi. by apply (i_tab _ _ _ Hi). }
      simpl. case_bool_decide as Hd.
      + rewrite decide_True by done. done.
      + unfold unq. rewrite (rm_notin e (a_dq (cs s))) by done. done.
    - rewrite bool_decide_false by (intros [? ?]; done).
      unfold unq. rewrite (rm_notin e (a_dq (cs s))); [done|]. intros Hd. apply Hi in Hd as [_ ?]. done.
  Qed.

  Definition f_disp (s : sta) (e : N) : sta := f_dec (with_cs (f_cancel s e) (unq k (cs (f_cancel s e)) e)) e.
  Lemma dispose_ends g X s e el : inv (with_xs g (e :: X)) s -> m_els (me s) !! e = Some el ->
    (is_pend el -> m_up (me s) = false) ->
    ends [] (with_xs g (e :: X)) s (dispose k s e) (with_xs g X) (f_disp s e).
  Proof.
    intros Hi He Hp. assert (e ∈ LT (with_xs g (e :: X)) (cs s)) as HeL by (left).
    assert (e ∉ g_priv g) as Hnp by (by apply (LT_not_priv _ _ _ Hi)).
    destruct (cancel_ends _ _ e Hi) as (E1 & I1 & X1); [eauto|done|].
    destruct (f_cancel_self _ _ _ _ Hi He) as (el' & He' & Hc' & Hp').
    assert (e ∈ LT (with_xs g (e :: X)) (cs (f_cancel s e))) as HeL' by left.
    assert (inv (pin e (with_xs g X)) (with_cs (f_cancel s e) (unq k (cs (f_cancel s e)) e))) as I2.
    { eapply inv_unq; [done|done|done|]. unfold is_pend. rewrite Hp', (x_up _ _ _ _ _ X1). done. }
    destruct (drop_ok k _ _ _ I2) as (E3 & I3 & X3).
    unfold dispose. rewrite E1. simpl. rewrite (on_unlink_eq _ _ _ I1 HeL'). simpl. split_and!; [done|done|].
    eapply ext_trans0; [done|done|]. eapply ext_trans0; [done| |exact X3]. by apply ext_cs.
  Qed.

  (** unlinking and disposing an element of the table *)
  Definition f_rem (s : sta) (e : N) : sta := f_disp (with_cs s (a_set_bs (cs s) (at_unlink (a_bs (cs s)) e))) e.
  Lemma a_tab_None (c : acs) : a_torn c = None -> a_tab c = concat (a_bs c).
  Proof. unfold a_tab. by intros ->. Qed.
  Lemma tab_LT g (s : sta) e : a_torn (cs s) = None -> e ∈ concat (a_bs (cs s)) -> e ∈ LT g (cs s).
  Proof. intros Ht He. unfold LT. rewrite (a_tab_None _ Ht). apply elem_of_app. by right. Qed.
  Lemma rem_ends g s e el : inv g s -> a_torn (cs s) = None -> e ∈ concat (a_bs (cs s)) -> m_els (me s) !! e = Some el -> ~ is_pend el ->
    ends [] g s (dispose k (with_cs s (a_set_bs (cs s) (at_unlink (a_bs (cs s)) e))) e) g (f_rem s e).
  Proof.
    intros Hi Ht He Hel Hnp. pose proof (inv_unlink k g s e Hi Ht He) as I1.
    destruct (dispose_ends g (g_xs g) _ e el I1 Hel) as (E & I & X); [done|].
    assert (with_xs g (g_xs g) = g) as Eg by (by destruct g). rewrite Eg in *.
    split_and!; [done|done|]. eapply ext_trans0; [done| |exact X]. by apply ext_cs.
  Qed.
  (** closed form of the removal of a settled element *)
  Lemma f_rem_settled s e el : m_els (me s) !! e = Some el -> ~ is_pend el ->
    f_rem s e = f_dec (with_cs s (unq k (a_set_bs (cs s) (at_unlink (a_bs (cs s)) e)) e)) e.
  Proof.
    intros He Hn. unfold f_rem, f_disp. set (s1 := with_cs s _). assert (f_cancel s1 e = s1) as ->; [|done].
    unfold f_cancel. simpl. rewrite He. unfold is_pend, el_pending in Hn. by destruct (el_map el).
  Qed.
  Lemma f_rem_bs s e el : m_els (me s) !! e = Some el -> ~ is_pend el ->
    a_bs (cs (f_rem s e)) = at_unlink (a_bs (cs s)) e /\ a_torn (cs (f_rem s e)) = a_torn (cs s).
  Proof.
    intros He Hn. rewrite (f_rem_settled _ _ _ He Hn).
    destruct (f_dec_cs (with_cs s (unq k (a_set_bs (cs s) (at_unlink (a_bs (cs s)) e)) e)) e) as (-> & -> & _). done.
  Qed.
  Lemma f_rem_els s e el x : m_els (me s) !! e = Some el -> ~ is_pend el -> x <> e ->
    m_els (me (f_rem s e)) !! x = m_els (me s) !! x.
  Proof. intros He Hn Hx. rewrite (f_rem_settled _ _ _ He Hn). by rewrite f_dec_els. Qed.

  (** ** Sweeps with total visits *)
  Section visits.
    Context (visit : sta -> N -> res (sta * act)) (vs : sta -> N -> sta) (va : sta -> N -> act).
    Fixpoint fsw (M : list N) (s : sta) : sta * option (N * mres) :=
      match M with
      | [] => (s, None)
      | e :: M =>
        match va s e with
        | Keep => fsw M (vs s e)
        | Drop => fsw M (f_rem (vs s e) e)
        | Stop r => (vs s e, Some (e, r))
        end
      end.
    Context (g : gh).
    Context (Hv : forall s e el, inv g s -> a_torn (cs s) = None -> e ∈ concat (a_bs (cs s)) -> m_els (me s) !! e = Some el ->
      visit s e = Ok (vs s e, va s e) /\ inv g (vs s e) /\ ext [] g s g (vs s e) /\ same_tab s (vs s e) /\
      (va s e = Drop -> exists el', m_els (me (vs s e)) !! e = Some el' /\ ~ is_pend el')).
    Lemma sw_fsw M : forall s, inv g s -> a_torn (cs s) = None -> NoDup M -> (forall e, e ∈ M -> e ∈ concat (a_bs (cs s))) ->
      sw k visit M s = Ok (fsw M s) /\ inv g (fsw M s).1 /\ ext [] g s g (fsw M s).1 /\ a_torn (cs (fsw M s).1) = None.
    Proof.
      induction M as [|e M IH]; intros s Hi Ht Hnd Hin; simpl.
      { split_and!; try done. apply ext_refl. }
      apply NoDup_cons in Hnd as [HeM Hnd].
      assert (e ∈ concat (a_bs (cs s))) as He by (apply Hin; by left).
      destruct (i_tab _ _ _ Hi e) as [el Hel]; [by apply tab_LT|].
      destruct (Hv _ _ _ Hi Ht He Hel) as (E1 & I1 & X1 & [Eb Et] & Hd). rewrite E1. simpl.
      destruct (va s e) as [| |r].
      - destruct (IH (vs s e)) as (E2 & I2 & X2 & T2); try done.
        + by rewrite Et.
        + intros x Hx. rewrite Eb. apply Hin. by right.
        + split_and!; try done. by eapply ext_trans0.
      - destruct (Hd eq_refl) as (el' & Hel' & Hnp).
        destruct (rem_ends g (vs s e) e el') as (E2 & I2 & X2); try done.
        { by rewrite Et. } { by rewrite Eb. }
        rewrite E2. simpl.
        destruct (f_rem_bs _ _ _ Hel' Hnp) as [Eb2 Et2].
        destruct (IH (f_rem (vs s e) e)) as (E3 & I3 & X3 & T3); try done.
        + by rewrite Et2, Et.
        + intros x Hx. rewrite Eb2, at_unlink_elems, Eb. apply elem_of_list_filter. split; [|apply Hin; by right].
          intros ->. done.
        + split_and!; try done. eapply ext_trans0; [done|done|]. by eapply ext_trans0.
      - simpl. split_and!; try done. by rewrite Et.
    Qed.
  End visits.

  Lemma tab_nodup g s : inv g s -> a_torn (cs s) = None -> NoDup (concat (a_bs (cs s))).
  Proof. intros Hi Ht. pose proof (i_nd _ _ _ Hi) as H. unfold LT in H. rewrite (a_tab_None _ Ht) in H. by apply NoDup_app in H as (_ & _ & ?). Qed.
  Lemma tab_dom g s : inv g s -> a_torn (cs s) = None -> forall e, e ∈ concat (a_bs (cs s)) -> is_Some (m_els (me s) !! e).
  Proof. intros Hi Ht e He. apply (i_tab _ _ _ Hi). by apply tab_LT. Qed.
  Lemma bucket_in s h e : e ∈ bucket s h -> e ∈ concat (a_bs (cs s)).
  Proof.
    unfold bucket, at_bucket. destruct (a_bs (cs s) !! _) as [B|] eqn:E; simpl; [|by intros ?%elem_of_nil].
    by eapply elem_concat_lookup.
  Qed.
  Lemma bucket_nodup g s h : inv g s -> a_torn (cs s) = None -> NoDup (bucket s h).
  Proof.
    intros Hi Ht. pose proof (tab_nodup _ _ Hi Ht) as Hnd. unfold bucket, at_bucket.
    destruct (a_bs (cs s) !! _) as [B|] eqn:E; simpl; [|constructor].
    apply elem_of_list_split_length in E as (Xs & Ys & E & _). rewrite E, concat_mid in Hnd.
    apply NoDup_app in Hnd as (_ & _ & Hnd). by apply NoDup_app in Hnd as (? & _ & _).
  Qed.

  (** *** unlink_expired_elements_ *)
  Definition gone (s : sta) (e : N) : bool :=
    match m_els (me s) !! e with Some el => el_expired k (me s) el && negb (el_pending el) | None => false end.
  Definition va_ue (s : sta) (e : N) : act := if gone s e then Drop else Keep.
  Definition f_ue (s : sta) : sta := (fsw (fun s _ => s) va_ue (concat (a_bs (cs s))) s).1.
  Lemma gone_nopend s e el : m_els (me s) !! e = Some el -> gone s e = true -> ~ is_pend el.
  Proof. unfold gone, is_pend. intros ->. by destruct (el_pending el), (el_expired k (me s) el). Qed.
  Lemma ue_ends g s : inv g s -> a_torn (cs s) = None -> ends [] g s (unlink_expired k s) g (f_ue s) /\ a_torn (cs (f_ue s)) = None.
  Proof.
    intros Hi Ht. unfold unlink_expired. rewrite sweep_all_sw; [|..|done|by eapply tab_dom].
    2: { intros s1 e s1' a H. unfold unlink_expired_visit in H. rinv H. by injection H as <- <-. }
    2: { by eapply tab_nodup. }
    destruct (sw_fsw (unlink_expired_visit k) (fun s _ => s) va_ue g) with (M := concat (a_bs (cs s))) (s := s) as (E & I & X & T); try done.
    - intros s1 e el I1 T1 He Hel. split_and!; try done; [|apply ext_refl|].
      + unfold unlink_expired_visit, s_el, rd_el, va_ue, gone. rewrite Hel. done.
      + unfold va_ue. destruct (gone s1 e) eqn:Eg; [|done]. intros _. exists el. split; [done|]. by eapply gone_nopend.
    - by eapply tab_nodup.
    - unfold f_ue. rewrite E. destruct (fsw _ _ _ _) as [s' r]. done.
  Qed.

  (** *** get_ *)
  Definition ans (s : sta) (hash : N) (key : Z) (incl : bool) (e : N) : mres :=
    match a_hash (cs s) !! e, m_els (me s) !! e with
    | Some h, Some el =>
      if bool_decide (h = hash) && k_eq k (el_key el) key && negb (el_expired k (me s) el)
      then m_get (alive (me s)) incl (el_map el) else R0
    | _, _ => R0
    end.
  Definition va_get (hash : N) (key : Z) (incl : bool) (s : sta) (e : N) : act :=
    if gone s e then Drop else match ans s hash key incl e with R0 => Keep | r => Stop r end.
  Definition f_find (s : sta) (key : Z) (incl : bool) : sta * option (N * mres) :=
    fsw (fun s _ => s) (va_get (k_hash k key) key incl) (bucket s (k_hash k key)) s.
  Lemma get_visit_eq g s hash key incl e el : inv g s -> a_torn (cs s) = None -> e ∈ concat (a_bs (cs s)) -> m_els (me s) !! e = Some el ->
    get_visit k hash key incl s e = Ok (s, va_get hash key incl s e).
  Proof.
    intros Hi Ht He Hel. unfold get_visit, s_el, rd_el, va_get, gone, ans. simpl.
    rewrite (i_hash _ _ _ Hi e el) by (done || by apply tab_LT). rewrite Hel. simpl. do 2 f_equal.
    destruct (decide (k_hash k (el_key el) = hash)) as [H1|H1].
    2: { rewrite bool_decide_true, bool_decide_false by done. simpl. by destruct (el_expired k (me s) el && negb (el_pending el)). }
    - rewrite bool_decide_false, bool_decide_true by (done || by intros []). simpl. destruct (el_expired k (me s) el), (el_pending el), (k_eq k (el_key el) key); simpl; try done;
        by destruct (m_get (alive (me s)) incl (el_map el)).
  Qed.
  Lemma find_ends g s key incl : inv g s -> a_torn (cs s) = None ->
    sweep_bucket k (get_visit k (k_hash k key) key incl) s (k_hash k key) = Ok (f_find s key incl) /\
    inv g (f_find s key incl).1 /\ ext [] g s g (f_find s key incl).1 /\ a_torn (cs (f_find s key incl).1) = None.
  Proof.
    intros Hi Ht. rewrite sweep_bucket_sw; [|..|done|by eapply tab_dom].
    2: { intros s1 e s1' a H. unfold get_visit in H. rinv H. by injection H as <- <-. }
    2: { by eapply tab_nodup. }
    apply (sw_fsw (get_visit k (k_hash k key) key incl) (fun s _ => s) (va_get (k_hash k key) key incl) g); try done.
    - intros s1 e el I1 T1 He Hel. split_and!; try done; [|apply ext_refl|].
      + by eapply get_visit_eq.
      + unfold va_get. destruct (gone s1 e) eqn:Eg; [|by destruct (ans _ _ _ _ _)]. intros _. exists el. split; [done|]. by eapply gone_nopend.
    - by eapply bucket_nodup.
    - intros e. apply bucket_in.
  Qed.
  (** the element found *)
  Lemma f_find_spec M g hash key incl : forall s, inv g s -> a_torn (cs s) = None -> NoDup M -> (forall e, e ∈ M -> e ∈ concat (a_bs (cs s))) ->
    forall e r, (fsw (fun s _ => s) (va_get hash key incl) M s).2 = Some (e, r) ->
    let s' := (fsw (fun s _ => s) (va_get hash key incl) M s).1 in
    e ∈ M /\ e ∈ concat (a_bs (cs s')) /\ r = ans s' hash key incl e /\ r <> R0 /\ gone s' e = false.
  Proof.
    induction M as [|x M IH]; intros s Hi Ht Hnd Hin e r; simpl; [done|].
    apply NoDup_cons in Hnd as [HxM Hnd].
    assert (x ∈ concat (a_bs (cs s))) as Hx by (apply Hin; by left).
    destruct (i_tab _ _ _ Hi x) as [el Hel]; [by apply tab_LT|].
    destruct (va_get hash key incl s x) as [| |r'] eqn:Ea.
    - intros H. destruct (IH s) with (e := e) (r := r) as (? & ? & ?); try done.
      + intros y Hy. apply Hin. by right.
      + split_and!; try done; [by right|tauto..].
    - unfold va_get in Ea. destruct (gone s x) eqn:Eg; [|by destruct (ans _ _ _ _ _)].
      pose proof (gone_nopend _ _ _ Hel Eg) as Hnp. destruct (f_rem_bs _ _ _ Hel Hnp) as [Eb Et].
      destruct (rem_ends g s x el) as (_ & I2 & _); try done.
      intros H. destruct (IH (f_rem s x)) with (e := e) (r := r) as (? & ? & ?); try done.
      + by rewrite Et.
      + intros y Hy. rewrite Eb, at_unlink_elems. apply elem_of_list_filter. split; [intros ->; done|apply Hin; by right].
      + split_and!; try done; [by right|tauto..].
    - simpl. intros [= <- <-]. split_and!; [by left|done|..]; unfold va_get in Ea; destruct (gone s x); try done.
      + destruct (ans s hash key incl x); try done; by injection Ea as <-.
      + destruct (ans s hash key incl x); try done; by injection Ea as <-.
  Qed.

  (** *** on_hit_ *)
  Definition f_hitq (s : sta) (e : N) : sta :=
    if has_queue k then f_strengthen (with_cs s (a_set_q (cs s) (aq_hit (a_q (cs s)) e))) e else s.
  Definition holds_value (s : sta) (e : N) : bool :=
    match m_els (me s) !! e with Some el => m_holds_value (alive (me s)) (el_map el) | None => false end.
  Definition f_hit (s : sta) (e : N) : sta :=
    let s := f_hitq s e in
    match k_refresh k with
    | Some (_, idle) =>
      if negb (bool_decide (idle = 0%Z)) && holds_value s e
      then p_upd s e (fun el => with_cn el (Some (m_steady (me s) + idle)%Z)) else s
    | None => s
    end.
  Lemma p_upd_cs s e f : cs (p_upd s e f) = cs s.
  Proof. unfold p_upd. by destruct (m_els (me s) !! e). Qed.
  Lemma LT_cs g s e f : LT g (cs (p_upd s e f)) = LT g (cs s).
  Proof. by rewrite p_upd_cs. Qed.
  Lemma q_nodup g s : inv g s -> NoDup (aq_elems (a_q (cs s))).
  Proof. intros Hi. pose proof (i_q _ _ _ Hi) as Hq. destruct (has_queue k); rewrite Hq; [apply Hi|constructor]. Qed.
  Lemma hitq_ends g s e : inv g s -> e ∈ LT g (cs s) ->
    ends [] g s (if has_queue k then c <- c_qhit comp_abs (cs s) e;; strengthen k (with_cs s c) e else Ok s) g (f_hitq s e).
  Proof.
    intros Hi He. unfold f_hitq. destruct (has_queue k) eqn:Ehq; [|by apply ends_ret].
    pose proof (i_q _ _ _ Hi) as Hq. rewrite Ehq in Hq.
    assert (e ∈ aq_elems (a_q (cs s))) as HeQ by (by rewrite Hq).
    pose proof (q_nodup _ _ Hi) as HnQ.
    simpl. unfold need. rewrite decide_True by done. simpl.
    assert (inv g (with_cs s (a_set_q (cs s) (aq_hit (a_q (cs s)) e)))) as I1.
    { apply inv_q; try done. - by apply aq_hit_perm. - apply aq_hit_balanced; try done. apply Hi. }
    destruct (strengthen_ends g _ e I1) as (E2 & I2 & X2).
    - by apply (i_tab _ _ _ Hi).
    - by eapply LT_not_priv.
    - split_and!; [done|done|]. eapply ext_trans0; [done| |exact X2]. by apply ext_cs.
  Qed.
  Lemma f_hitq_tab s e : same_tab s (f_hitq s e).
  Proof. unfold f_hitq. destruct (has_queue k); [|done]. unfold same_tab, f_strengthen. by rewrite p_upd_cs. Qed.
  Lemma f_hitq_LT g s e : LT g (cs (f_hitq s e)) = LT g (cs s).
  Proof. destruct (f_hitq_tab s e) as [E1 E2]. unfold LT, a_tab. by rewrite E1, E2. Qed.
  Lemma hit_ends g s e : inv g s -> e ∈ LT g (cs s) -> ends [] g s (on_hit_ k s e) g (f_hit s e).
  Proof.
    intros Hi He. unfold on_hit_, f_hit. destruct (hitq_ends g s e Hi He) as (E & I & X).
    eapply ends_bind; [done|split_and!; [exact E|exact I|exact X]|].
    destruct (k_refresh k) as [[d idle]|]; [|by apply ends_ret].
    assert (e ∈ LT g (cs (f_hitq s e))) as He' by (by rewrite f_hitq_LT).
    destruct (i_tab _ _ _ I e He') as [el Hel]. unfold holds_value, s_el, rd_el. rewrite Hel. simpl.
    destruct (negb (bool_decide (idle = 0%Z)) && m_holds_value (alive (me (f_hitq s e))) (el_map el)); [|by apply ends_ret].
    apply (upd_soft _ _ _ el); [done|done| |left; by eapply LT_not_priv]. apply soft_meta; try done. by eapply i_mode.
  Qed.
  Lemma f_hit_tab s e : same_tab s (f_hit s e).
  Proof.
    eapply same_tab_trans; [apply (f_hitq_tab s e)|]. unfold f_hit. destruct (k_refresh k) as [[d idle]|]; [|done].
    destruct (_ && _); [|done]. unfold same_tab. by rewrite p_upd_cs.
  Qed.

  Definition f_get (s : sta) (key : Z) (incl : bool) : sta * option (N * mres) :=
    let '(s, r) := f_find s key incl in
    match r with Some (e, v) => (f_hit s e, Some (e, v)) | None => (s, None) end.
  Lemma get_ends g s key incl : inv g s -> a_torn (cs s) = None ->
    get_ k s key incl = Ok (f_get s key incl) /\ inv g (f_get s key incl).1 /\ ext [] g s g (f_get s key incl).1 /\
    a_torn (cs (f_get s key incl).1) = None /\
    (forall e r, (f_get s key incl).2 = Some (e, r) -> e ∈ concat (a_bs (cs (f_get s key incl).1))).
  Proof.
    intros Hi Ht. destruct (find_ends g s key incl Hi Ht) as (E & I & X & T).
    pose proof (f_find_spec (bucket s (k_hash k key)) g (k_hash k key) key incl s Hi Ht (bucket_nodup _ _ _ Hi Ht) (bucket_in _ _)) as Hsp.
    unfold get_, f_get. rewrite E. simpl. fold (f_find s key incl) in Hsp. destruct (f_find s key incl) as [s1 [[e r]|]]; simpl in *.
    - destruct (Hsp e r eq_refl) as (_ & He & _). 
      destruct (hit_ends g s1 e) as (E2 & I2 & X2); [done|by apply tab_LT|]. rewrite E2. simpl.
      destruct (f_hit_tab s1 e) as [Eb Et].
      split_and!; try done; [by eapply ext_trans0|by rewrite Et|]. intros e' r' [= <- <-]. by rewrite Eb.
    - split_and!; try done.
  Qed.

  (** *** erase *)
  Definition matches (s : sta) (hash : N) (key : Z) (e : N) : bool :=
    match a_hash (cs s) !! e, m_els (me s) !! e with
    | Some h, Some el => bool_decide (h = hash) && k_eq k (el_key el) key
    | _, _ => false
    end.
  Definition pends (s : sta) (e : N) : bool := match m_els (me s) !! e with Some el => el_pending el | None => false end.
  Definition vs_exp (hash : N) (key : Z) (s : sta) (e : N) : sta := if matches s hash key e && pends s e then f_mark s e else s.
  Definition va_exp (hash : N) (key : Z) (s : sta) (e : N) : act :=
    if matches s hash key e then if pends s e then Keep else Drop else if gone s e then Drop else Keep.
  Definition f_expire (s : sta) (key : Z) : sta :=
    (fsw (vs_exp (k_hash k key) key) (va_exp (k_hash k key) key) (bucket s (k_hash k key)) s).1.
  Lemma f_mark_tab s e : same_tab s (f_mark s e).
  Proof. unfold same_tab, f_mark. by rewrite p_upd_cs. Qed.
  Lemma expire_ends g s key : inv g s -> a_torn (cs s) = None ->
    ends [] g s (expire k s key) g (f_expire s key) /\ a_torn (cs (f_expire s key)) = None.
  Proof.
    intros Hi Ht. unfold expire. rewrite sweep_bucket_sw; [|..|done|by eapply tab_dom].
    2: { intros s1 e s1' a H. unfold expire_visit in H. rinv H. destruct (_ && _); [destruct (el_pending a1)|]; rinv H; injection H as <- <-; try done.
         unfold mark_expired in *. by eapply s_upd_tab. }
    2: { by eapply tab_nodup. }
    destruct (sw_fsw (expire_visit k (k_hash k key) key) (vs_exp (k_hash k key) key) (va_exp (k_hash k key) key) g)
      with (M := bucket s (k_hash k key)) (s := s) as (E & I & X & T); try done.
    - intros s1 e el I1 T1 He Hel. unfold expire_visit, vs_exp, va_exp, matches, pends, gone, s_el, rd_el. simpl.
      assert (e ∈ LT g (cs s1)) as HeL by (by apply tab_LT).
      rewrite (i_hash _ _ _ I1 e el) by done. rewrite Hel. simpl.
      destruct (bool_decide _ && _); simpl.
      + destruct (el_pending el) eqn:Ep; simpl.
        * destruct (mark_ends g s1 e I1) as (E1 & I2 & X2); [eauto|by eapply LT_not_priv|]. rewrite E1. simpl.
          split_and!; try done. apply f_mark_tab.
        * split_and!; try done; [apply ext_refl|]. intros _. exists el. split; [done|]. unfold is_pend. congruence.
      + split_and!; try done; [apply ext_refl|]. destruct (el_expired k (me s1) el && negb (el_pending el)) eqn:Eg; [|done].
        intros _. exists el. split; [done|]. unfold is_pend. by destruct (el_pending el), (el_expired k (me s1) el).
    - by eapply bucket_nodup.
    - intros e. apply bucket_in.
    - unfold f_expire. rewrite E. destruct (fsw _ _ _ _) as [s' r]. done.
  Qed.

  (** *** clear *)
  Definition vs_all (s : sta) (e : N) : sta := if pends s e then f_mark s e else s.
  Definition va_all (s : sta) (e : N) : act := if pends s e then Keep else Drop.
  Definition f_expire_all (s : sta) : sta := (fsw vs_all va_all (concat (a_bs (cs s))) s).1.
  Lemma expire_all_ends g s : inv g s -> a_torn (cs s) = None ->
    ends [] g s (expire_all k s) g (f_expire_all s) /\ a_torn (cs (f_expire_all s)) = None.
  Proof.
    intros Hi Ht. unfold expire_all. rewrite sweep_all_sw; [|..|done|by eapply tab_dom].
    2: { intros s1 e s1' a H. unfold expire_all_visit in H. rinv H. destruct (el_pending a0); rinv H; injection H as <- <-; try done.
         unfold mark_expired in *. by eapply s_upd_tab. }
    2: { by eapply tab_nodup. }
    destruct (sw_fsw (expire_all_visit k) vs_all va_all g) with (M := concat (a_bs (cs s))) (s := s) as (E & I & X & T); try done.
    - intros s1 e el I1 T1 He Hel. unfold expire_all_visit, vs_all, va_all, pends, s_el, rd_el. simpl.
      assert (e ∈ LT g (cs s1)) as HeL by (by apply tab_LT). rewrite Hel. simpl.
      destruct (el_pending el) eqn:Ep; simpl.
      + destruct (mark_ends g s1 e I1) as (E1 & I2 & X2); [eauto|by eapply LT_not_priv|]. rewrite E1. simpl.
        split_and!; try done. apply f_mark_tab.
      + split_and!; try done; [apply ext_refl|]. intros _. exists el. split; [done|]. unfold is_pend. congruence.
    - by eapply tab_nodup.
    - unfold f_expire_all. rewrite E. destruct (fsw _ _ _ _) as [s' r]. done.
  Qed.

  (** ** Rehash, link *)
  Definition f_rehash (s : sta) (n : nat) : sta :=
    with_cs s (a_set_bs (cs s) (at_rehash (fun e => default 0%N (a_hash (cs s) !! e)) n (a_bs (cs s)))).
  Lemma rehash_ends g s n : inv g s -> a_torn (cs s) = None -> n <> 0 ->
    ends [] g s (c <- c_rehash comp_abs (cs s) n;; Ok (with_cs s c)) g (f_rehash s n) /\ a_torn (cs (f_rehash s n)) = None /\
    a_bs (cs (f_rehash s n)) <> [].
  Proof.
    intros Hi Ht Hn. split_and!; try done.
    - simpl. unfold need. rewrite decide_True by done. split_and!; [done|by apply inv_rehash|by apply ext_cs].
    - intros E. apply (f_equal length) in E. simpl in E. rewrite at_rehash_length in E. done.
  Qed.
  Definition f_mrehash (s : sta) : sta :=
    let s := if k_over k (length (concat (a_bs (cs s))) + 1) (length (a_bs (cs s))) then f_ue s else s in
    let n := length (a_bs (cs s)) in
    if bool_decide (n = 0) || (k_over k (length (concat (a_bs (cs s))) + 1) n && bool_decide (n < k_mbc k)) then
      f_rehash s (if bool_decide (n = 0) then initial_size else if bool_decide (k_mbc k / 2 < n) then k_mbc k else 2 * n)
    else s.
  Lemma mrehash_ends g s : inv g s -> a_torn (cs s) = None ->
    ends [] g s (maybe_rehash k s) g (f_mrehash s) /\ a_torn (cs (f_mrehash s)) = None /\ a_bs (cs (f_mrehash s)) <> [].
  Proof.
    intros Hi Ht. unfold maybe_rehash, f_mrehash. simpl c_size. simpl c_bcount.
    set (s1 := if k_over k _ _ then f_ue s else s).
    assert (ends [] g s (if k_over k (length (concat (a_bs (cs s))) + 1) (length (a_bs (cs s))) then unlink_expired k s else Ok s) g s1 /\ a_torn (cs s1) = None) as [H1 T1].
    { unfold s1. destruct (k_over k _ _); [by apply ue_ends|]. split; [by apply ends_ret|done]. }
    destruct H1 as (E1 & I1 & X1).
    destruct (bool_decide (length (a_bs (cs s1)) = 0)) eqn:E0.
    - destruct (rehash_ends g s1 initial_size I1 T1) as (H2 & T2 & B2); [done|]. simpl. split_and!; try done.
      eapply ends_bind; [done|split_and!; [exact E1|exact I1|exact X1]|]. rewrite E0. simpl orb. cbv iota. exact H2.
    - apply bool_decide_eq_false in E0. simpl orb.
      destruct (k_over k (length (concat (a_bs (cs s1))) + 1) (length (a_bs (cs s1))) && bool_decide (length (a_bs (cs s1)) < k_mbc k)) eqn:Eo.
      + apply andb_true_iff in Eo as [Eo1 Eo2%bool_decide_eq_true].
        destruct (rehash_ends g s1 (if bool_decide (k_mbc k / 2 < length (a_bs (cs s1))) then k_mbc k else 2 * length (a_bs (cs s1))) I1 T1) as (H2 & T2 & B2).
        { case_bool_decide; lia. }
        split_and!; try done. eapply ends_bind; [done|split_and!; [exact E1|exact I1|exact X1]|].
        rewrite (bool_decide_false (length (a_bs (cs s1)) = 0)) by done. simpl orb. rewrite Eo1, bool_decide_true by done. exact H2.
      + split_and!; try done.
        * eapply ends_bind; [done|split_and!; [exact E1|exact I1|exact X1]|].
          rewrite (bool_decide_false (length (a_bs (cs s1)) = 0)) by done. simpl orb. rewrite Eo. by apply ends_ret.
        * intros E. by rewrite E in E0.
  Qed.

  (** *** on_assign_ *)
  Definition f_age (s : sta) (e : N) (d : Z) : sta :=
    p_upd s e (fun el => with_exp el (tp_min (el_xw el) (Some (m_wall (me s) + d)%Z))
        (if k_steady k then el_xs el else tp_min (el_xs el) (Some (m_steady (me s) + d)%Z))).
  Definition f_arefresh (s : sta) (e : N) (delay idle : Z) : sta :=
    let s := p_upd s e (fun el => with_rf el (m_steady (me s) + delay)%Z) in
    let s := with_cs s (a_set_dq (cs s) (a_dq (cs s) ++ [e])) in
    if bool_decide (idle = 0%Z) then s
    else p_upd s e (fun el => with_cn el (tp_min (el_cn el) (Some (m_steady (me s) + idle)%Z))).
  Definition f_assign (s : sta) (e : N) (value : bool) : sta :=
    let s := match k_max_age k with Some d => if value then f_age s e d else s | None => s end in
    let s := match k_err_age k with Some d => if value then s else f_age s e d | None => s end in
    match k_refresh k with
    | Some (delay, idle) => if value then f_arefresh s e delay idle else s
    | None => s
    end.
  Lemma p_upd_lookup s e f x : m_els (me (p_upd s e f)) !! x =
    if decide (x = e) then f <$> m_els (me s) !! e else m_els (me s) !! x.
  Proof.
    unfold p_upd. destruct (m_els (me s) !! e) as [el|] eqn:E.
    - simpl. destruct (decide (x = e)) as [->|]; [by rewrite lookup_insert|by rewrite lookup_insert_ne].
    - destruct (decide (x = e)) as [->|]; done.
  Qed.
  Lemma age_ends g s e d : inv g s -> is_Some (m_els (me s) !! e) -> e ∉ g_priv g -> ends [] g s (on_assign_age k s e d) g (f_age s e d).
  Proof.
    intros Hi [el He] Hp. apply (upd_soft _ _ _ el); [done|done| |by left]. apply soft_meta; try done. by eapply i_mode.
  Qed.
  Lemma f_age_cs s e d : cs (f_age s e d) = cs s.
  Proof. apply p_upd_cs. Qed.
  Definition f_assign1 (s : sta) (e : N) (value : bool) : sta :=
    let s := match k_max_age k with Some d => if value then f_age s e d else s | None => s end in
    match k_err_age k with Some d => if value then s else f_age s e d | None => s end.
  Lemma assign1_facts s e value : cs (f_assign1 s e value) = cs s /\
    (forall x, x <> e -> m_els (me (f_assign1 s e value)) !! x = m_els (me s) !! x) /\
    (forall el, m_els (me s) !! e = Some el -> exists el', m_els (me (f_assign1 s e value)) !! e = Some el' /\ el_map el' = el_map el).
  Proof.
    assert (forall s d, cs (f_age s e d) = cs s /\ (forall x, x <> e -> m_els (me (f_age s e d)) !! x = m_els (me s) !! x) /\
      (forall el, m_els (me s) !! e = Some el -> exists el', m_els (me (f_age s e d)) !! e = Some el' /\ el_map el' = el_map el)) as H.
    { intros s1 d. split_and!; [apply f_age_cs| |].
      - intros x Hx. unfold f_age. rewrite p_upd_lookup, decide_False by done. done.
      - intros el Hel. unfold f_age. rewrite p_upd_lookup, decide_True by done. rewrite Hel. simpl. eexists. done. }
    unfold f_assign1. destruct value, (k_max_age k), (k_err_age k); try apply H; split_and!; naive_solver.
  Qed.
  Lemma f_assign_eq s e value : f_assign s e value =
    match k_refresh k with Some (delay, idle) => if value then f_arefresh (f_assign1 s e value) e delay idle else f_assign1 s e value | None => f_assign1 s e value end.
  Proof. done. Qed.
  Lemma assign_ends g s e value el : inv g s -> m_els (me s) !! e = Some el -> e ∈ LT g (cs s) -> e ∉ a_dq (cs s) -> ~ is_pend el ->
    ends [] g s (on_assign_ k s e value) g (f_assign s e value).
  Proof.
    intros Hi Hel HeL Hd Hnp. rewrite f_assign_eq. pose proof (LT_not_priv _ _ _ Hi HeL) as HeP.
    assert (ends [] g s (s <- (match k_max_age k with Some d => if value then on_assign_age k s e d else Ok s | None => Ok s end);;
       match k_err_age k with Some d => if value then Ok s else on_assign_age k s e d | None => Ok s end) g (f_assign1 s e value)) as H.
    { unfold f_assign1. destruct (k_max_age k) as [d|]; [destruct value|].
      - eapply ends_bind; [done|apply age_ends; eauto|].
        destruct (k_err_age k); apply ends_ret; eapply age_ends; eauto.
      - simpl. destruct (k_err_age k); [apply age_ends; eauto|by apply ends_ret].
      - simpl. destruct (k_err_age k); [destruct value; [by apply ends_ret|apply age_ends; eauto]|by apply ends_ret]. }
    destruct H as (E1 & I1 & X1). destruct (assign1_facts s e value) as (Ec & _ & Hel'). destruct (Hel' el Hel) as (el1 & Hel1 & Em1).
    unfold on_assign_. 
    assert (forall (A : Type) (m : res sta) (f : sta -> res sta) (h : sta -> res A), (s <- m;; s <- f s;; h s) = (s <- (s <- m;; f s);; h s)) as Hassoc.
    { intros A m f h. by destruct m. }
    rewrite Hassoc. eapply ends_bind; [done|split_and!; [exact E1|exact I1|exact X1]|].
    set (s1 := f_assign1 s e value) in *. rewrite <-Ec in HeL, Hd.
    destruct (k_refresh k) as [[delay idle]|] eqn:Er; [|by apply ends_ret]. destruct value; [|by apply ends_ret].
    unfold on_assign_refresh, f_arefresh.
    assert (mode_ok k (el_map el1)) as Hmode1 by (by eapply i_mode).
    eapply ends_bind; [done|apply (upd_soft _ _ _ el1); [done|done|by apply soft_meta|by left]|].
    set (s2 := p_upd s1 e _).
    assert (inv g s2) as I2. { eapply (upd_soft g s1 e el1); [done|done|by apply soft_meta|by left]. }
    assert (cs s2 = cs s1) as Ec2 by apply p_upd_cs.
    assert (m_els (me s2) !! e = Some (with_rf el1 (m_steady (me s1) + delay)%Z)) as Hel2.
    { unfold s2. rewrite p_upd_lookup, decide_True by done. by rewrite Hel1. }
    simpl. unfold need. rewrite decide_True; simpl.
    2: { rewrite Ec2. split; [done|]. apply I1. eauto. }
    set (s3 := with_cs s2 _).
    assert (inv g s3) as I3.
    { apply inv_dq; [done|..].
      - rewrite Ec2. apply NoDup_app. split; [apply I1|]. split; [|apply NoDup_singleton]. intros x Hx ->%elem_of_list_singleton. done.
      - intros x. rewrite Ec2, elem_of_app, elem_of_list_singleton. intros [Hx| ->]; [by apply I1 in Hx|]. by rewrite Er.
      - intros x ex. rewrite Ec2, elem_of_app, elem_of_list_singleton. intros [Hx| ->] Hex.
        + destruct (decide (x = e)) as [->|]; [done|]. unfold s2 in Hex. rewrite p_upd_lookup, decide_False in Hex by done. by eapply (i_dnp _ _ _ I1).
        + replace ex with (with_rf el1 (m_steady (me s1) + delay)%Z) by congruence. unfold is_pend, el_pending. simpl. by rewrite Em1. }
    case_bool_decide.
    - split_and!; [done|done|]. by apply ext_cs.
    - destruct (upd_soft g s3 e (with_rf el1 (m_steady (me s1) + delay)%Z) (fun el => with_cn el (tp_min (el_cn el) (Some (m_steady (me s3) + idle)%Z)))) as (E4 & I4 & X4).
      + done. + done. + by apply soft_meta. + by left.
      + split_and!; [done|done|]. eapply ext_trans0; [done| |exact X4]. by apply ext_cs.
  Qed.

  (** *** link *)
  Definition f_create (s : sta) (h e : N) : sta :=
    let s1 := with_cs s (a_enter k (cs s) h e) in
    if has_queue k then match (aq_create (a_q (cs s)) e).2 with Some x => f_strengthen s1 x | None => s1 end else s1.
  Definition f_link (s : sta) (h e : N) : sta :=
    let s := f_create (f_mrehash s) h e in
    if pends s e then s else f_assign s e (holds_value s e).
  (** the reference handed to the table comes from the pins or from the private elements *)
  Definition handed (g g' : gh) (e : N) : Prop :=
    g_xs g' = g_xs g /\ g_act g' = g_act g /\ g_own g' = g_own g /\ g_wait g' = g_wait g /\
    (forall x, (if decide (e = x) then 1 else 0) + cnt x (g_pins g') + cnt x (g_priv g') = cnt x (g_pins g) + cnt x (g_priv g)) /\
    (forall x, x ∈ g_priv g' -> x <> e /\ x ∈ g_priv g) /\ (forall x, x ∈ g_priv g -> x <> e -> x ∈ g_priv g') /\
    NoDup (g_priv g').
  Lemma handed_pin g s e : inv (pin e g) s -> e ∉ g_priv g -> handed (pin e g) g e.
  Proof.
    intros Hi He. unfold handed. simpl. split_and!; try done.
    - intros x. rewrite cnt_cons. lia.
    - intros x Hx. split; [by intros ->|done].
    - apply Hi.
  Qed.
  Lemma handed_priv g P s e : inv (with_priv g (e :: P)) s -> handed (with_priv g (e :: P)) (with_priv g P) e.
  Proof.
    intros Hi. pose proof (i_pnd _ _ _ Hi) as Hn. simpl in Hn. apply NoDup_cons in Hn as [Hn1 Hn2]. unfold handed. simpl. split_and!; try done.
    - intros x. rewrite cnt_cons. lia.
    - intros x Hx. split; [by intros ->|by right].
    - intros x Hx Hne. apply elem_of_cons in Hx as [?|?]; done.
  Qed.
  Lemma create_ends g g' s e el : inv g s -> m_els (me s) !! e = Some el -> a_torn (cs s) = None -> a_bs (cs s) <> [] ->
    e ∉ LT g (cs s) -> handed g g' e ->
    ends [] g s (c <- c_link comp_abs (cs s) (k_hash k (el_key el)) e;; on_create_ k (with_cs s c) e) g' (f_create s (k_hash k (el_key el)) e).
  Proof.
    intros Hi Hel Ht Hb Hn (H1 & H2 & H3 & H4 & H5 & H6 & H7 & H8).
    assert (e ∉ concat (a_bs (cs s))) as Hnc. { intros Hc. apply Hn. by apply tab_LT. }
    pose proof (inv_enter k g g' s e el Hi Hel Ht Hb Hn H1 H2 H3 H5 H6 H7 H8) as I1.
    pose proof (i_q _ _ _ Hi) as Hq.
    simpl. unfold need at 1. rewrite decide_True.
    2: { split_and!; try done. apply Hi. eauto. }
    simpl. unfold on_create_, f_create. destruct (has_queue k) eqn:Ehq.
    - simpl. unfold need at 1. rewrite decide_True.
      2: { split; [by rewrite Hq|]. rewrite lookup_insert. eauto. }
      simpl.
      assert (with_cs (with_cs s (Acs (<[e:=k_hash k (el_key el)]> (a_hash (cs s))) (at_link (a_bs (cs s)) (k_hash k (el_key el)) e) (a_torn (cs s)) (a_q (cs s)) (a_dq (cs s))))
        (a_set_q (Acs (<[e:=k_hash k (el_key el)]> (a_hash (cs s))) (at_link (a_bs (cs s)) (k_hash k (el_key el)) e) (a_torn (cs s)) (a_q (cs s)) (a_dq (cs s)))
          (aq_create (a_q (cs s)) e).1) = with_cs s (a_enter k (cs s) (k_hash k (el_key el)) e)) as Es.
      { unfold a_enter. rewrite Ehq. done. }
      rewrite Es. destruct ((aq_create (a_q (cs s)) e).2) as [x|] eqn:Ex.
      + pose proof (aq_create_promoted _ _ _ Ex) as Hx. rewrite Hq in Hx.
        destruct (strengthen_ends g' _ x I1) as (E2 & I2 & X2).
        * by apply (i_tab _ _ _ Hi).
        * intros Hp. apply H6 in Hp as [_ Hp]. by eapply LT_not_priv in Hp.
        * split_and!; [done|done|]. eapply ext_trans0; [done| |exact X2]. by apply ext_cs.
      + split_and!; [done|done|]. by apply ext_cs.
    - assert (Acs (<[e:=k_hash k (el_key el)]> (a_hash (cs s))) (at_link (a_bs (cs s)) (k_hash k (el_key el)) e) (a_torn (cs s)) (a_q (cs s)) (a_dq (cs s)) = a_enter k (cs s) (k_hash k (el_key el)) e) as Es.
      { unfold a_enter. by rewrite Ehq. }
      rewrite Es. split_and!; [done|done|]. by apply ext_cs.
  Qed.
  Lemma f_create_cs s h e : cs (f_create s h e) = a_enter k (cs s) h e.
  Proof.
    unfold f_create. destruct (has_queue k); [|done]. destruct ((aq_create (a_q (cs s)) e).2); [|done]. apply p_upd_cs.
  Qed.
  Lemma f_create_els s h e x el : m_els (me s) !! x = Some el -> exists el', m_els (me (f_create s h e)) !! x = Some el' /\ el_pending el' = el_pending el.
  Proof.
    intros Hx. unfold f_create. destruct (has_queue k); [|eauto]. destruct ((aq_create (a_q (cs s)) e).2) as [y|]; [|eauto].
    unfold f_strengthen. rewrite p_upd_lookup. destruct (decide (x = y)) as [->|]; [|eauto]. simpl. rewrite Hx. simpl.
    eexists. split; [done|]. unfold el_pending. simpl. unfold p_strengthen.
    destruct (el_map el) as [[? [] ?]| |[v|]| | |]; simpl; try done. by destruct (alive _ v).
  Qed.
  (** the table only shrinks in sweeps *)
  Lemma f_rem_tab s e : a_bs (cs (f_rem s e)) = at_unlink (a_bs (cs s)) e /\ a_torn (cs (f_rem s e)) = a_torn (cs s).
  Proof.
    unfold f_rem, f_disp. set (s1 := with_cs s _).
    destruct (f_dec_cs (with_cs (f_cancel s1 e) (unq k (cs (f_cancel s1 e)) e)) e) as (-> & -> & _). simpl.
    destruct (f_cancel_cs s1 e) as (-> & -> & _). done.
  Qed.
  Lemma fsw_sub vs va M : (forall s e, same_tab s (vs s e)) -> forall s x,
    x ∈ concat (a_bs (cs (fsw vs va M s).1)) -> x ∈ concat (a_bs (cs s)).
  Proof.
    intros Hv. induction M as [|e M IH]; intros s x; simpl; [done|]. destruct (Hv s e) as [Eb _].
    destruct (va s e).
    - intros H%IH. by rewrite Eb in H.
    - intros H%IH. destruct (f_rem_tab (vs s e) e) as [Eb2 _]. rewrite Eb2, at_unlink_elems, Eb in H.
      by apply elem_of_list_filter in H as [_ ?].
    - simpl. by rewrite Eb.
  Qed.
  Lemma f_ue_sub s x : x ∈ concat (a_bs (cs (f_ue s))) -> x ∈ concat (a_bs (cs s)).
  Proof. apply fsw_sub. done. Qed.
  Lemma f_rehash_elems s n x : n <> 0 -> x ∈ concat (a_bs (cs (f_rehash s n))) -> x ∈ concat (a_bs (cs s)).
  Proof. intros Hn. simpl. by rewrite at_rehash_perm. Qed.
  Lemma f_mrehash_sub s x : x ∈ concat (a_bs (cs (f_mrehash s))) -> x ∈ concat (a_bs (cs s)).
  Proof.
    unfold f_mrehash. set (s1 := if k_over k _ _ then f_ue s else s).
    assert (x ∈ concat (a_bs (cs s1)) -> x ∈ concat (a_bs (cs s))) as H1.
    { unfold s1. destruct (k_over k _ _); [apply f_ue_sub|done]. }
    case_bool_decide as E0; simpl orb.
    - intros H. apply H1. by apply f_rehash_elems in H.
    - destruct (_ && _) eqn:Eo; [|done]. apply andb_true_iff in Eo as [_ Eo%bool_decide_eq_true]. intros H. apply H1.
      apply f_rehash_elems in H; [done|]. case_bool_decide; lia.
  Qed.
  Lemma fsw_ue_els M : forall s x, x ∉ M -> m_els (me (fsw (fun s _ => s) va_ue M s).1) !! x = m_els (me s) !! x.
  Proof.
    induction M as [|e M IH]; intros s x Hx; [done|]. apply not_elem_of_cons in Hx as [Hne Hx]. simpl.
    unfold va_ue at 1. destruct (gone s e) eqn:Eg; [|by apply IH]. rewrite IH by done.
    unfold gone in Eg. destruct (m_els (me s) !! e) as [el|] eqn:He; [|done]. eapply f_rem_els; [done| |done].
    unfold is_pend. by destruct (el_pending el), (el_expired k (me s) el).
  Qed.
  Lemma f_mrehash_els (s : sta) x : x ∉ concat (a_bs (cs s)) -> m_els (me (f_mrehash s)) !! x = m_els (me s) !! x.
  Proof.
    intros Hx. unfold f_mrehash. set (s1 := if k_over k _ _ then f_ue s else s).
    assert (m_els (me s1) !! x = m_els (me s) !! x) as <-.
    { unfold s1. destruct (k_over k _ _); [by apply fsw_ue_els|done]. }
    by destruct (_ || _).
  Qed.
  Lemma f_assign_tab s e v : same_tab s (f_assign s e v).
  Proof.
    rewrite f_assign_eq. destruct (assign1_facts s e v) as (Ec & _).
    assert (same_tab s (f_assign1 s e v)) as H by (unfold same_tab; by rewrite Ec).
    destruct (k_refresh k) as [[d i]|]; [|done]. destruct v; [|done]. eapply same_tab_trans; [exact H|].
    unfold f_arefresh. set (s1 := f_assign1 s e true). set (s2 := p_upd s1 e _). assert (cs s2 = cs s1) as E2 by apply p_upd_cs.
    simpl. rewrite E2. case_bool_decide; unfold same_tab; rewrite ?p_upd_cs; done.
  Qed.
  Lemma f_link_tab s h e : a_torn (cs (f_link s h e)) = a_torn (cs (f_mrehash s)) /\
    a_bs (cs (f_link s h e)) = at_link (a_bs (cs (f_mrehash s))) h e.
  Proof.
    unfold f_link. destruct (pends _ _).
    - by rewrite f_create_cs.
    - destruct (f_assign_tab (f_create (f_mrehash s) h e) e (holds_value (f_create (f_mrehash s) h e) e)) as [-> ->].
      by rewrite f_create_cs.
  Qed.
  Lemma f_create_self (s : sta) h e el : m_els (me s) !! e = Some el -> e ∉ aq_elems (a_q (cs s)) -> m_els (me (f_create s h e)) !! e = Some el.
  Proof.
    intros He Hq. unfold f_create. destruct (has_queue k); [|done]. destruct ((aq_create (a_q (cs s)) e).2) as [x|] eqn:Ex; [|done].
    unfold f_strengthen. rewrite p_upd_lookup, decide_False; [done|]. intros ->. apply aq_create_promoted in Ex. done.
  Qed.
  Lemma link_ends g g' s e el : inv g s -> m_els (me s) !! e = Some el -> a_torn (cs s) = None ->
    e ∉ LT g (cs s) -> handed g g' e ->
    ends [] g s (link k s (k_hash k (el_key el)) e) g' (f_link s (k_hash k (el_key el)) e) /\
    a_torn (cs (f_link s (k_hash k (el_key el)) e)) = None /\ e ∈ concat (a_bs (cs (f_link s (k_hash k (el_key el)) e))).
  Proof.
    intros Hi Hel Ht Hn Hh. set (h := k_hash k (el_key el)).
    destruct (mrehash_ends g s Hi Ht) as ((E1 & I1 & X1) & T1 & B1).
    assert (e ∉ concat (a_bs (cs s))) as Hnc. { intros Hc. apply Hn. by apply tab_LT. }
    assert (m_els (me (f_mrehash s)) !! e = Some el) as Hel1 by (by rewrite f_mrehash_els).
    assert (e ∉ LT g (cs (f_mrehash s))) as Hn1.
    { unfold LT in *. rewrite (a_tab_None _ T1). rewrite (a_tab_None _ Ht) in Hn. rewrite elem_of_app in *.
      intros [H|H%f_mrehash_sub]; apply Hn; eauto. }
    destruct (f_link_tab s h e) as [Et Eb]. rewrite Et, Eb. split_and!; [|done|].
    2: { rewrite at_link_perm by done. by left. }
    destruct (create_ends g g' (f_mrehash s) e el I1 Hel1 T1 B1 Hn1 Hh) as (E2 & I2 & X2). fold h in E2, I2, X2.
    assert (m_els (me (f_create (f_mrehash s) h e)) !! e = Some el) as Hel2.
    { apply f_create_self; [done|]. pose proof (i_q _ _ _ I1) as Hq. destruct (has_queue k); rewrite Hq; [done|by apply not_elem_of_nil]. }
    unfold link, f_link. set (s2 := f_create (f_mrehash s) h e) in *.
    eapply ends_bind; [done|split_and!; [exact E1|exact I1|exact X1]|].
    assert (forall (A B D : Type) (m : res A) (f : A -> res B) (h : B -> res D), (c <- m;; s <- f c;; h s) = (s <- (c <- m;; f c);; h s)) as Hassoc.
    { intros A B D m f h'. by destruct m. }
    rewrite Hassoc. eapply ends_bind; [done|split_and!; [exact E2|exact I2|exact X2]|].
    unfold s_el, rd_el, pends, holds_value. rewrite Hel2. simpl. destruct (el_pending el) eqn:Ep; [by apply ends_ret|].
    assert (e ∈ concat (a_bs (cs s2))) as He2. { unfold s2. rewrite f_create_cs. simpl. rewrite at_link_perm by done. by left. }
    assert (a_torn (cs s2) = None) as T2 by (unfold s2; by rewrite f_create_cs).
    apply (assign_ends g' s2 e _ el I2 Hel2); [by apply tab_LT| |unfold is_pend; congruence].
    unfold s2. rewrite f_create_cs. simpl. intros Hd. apply (i_dq _ _ _ I1) in Hd as [? _]. done.
  Qed.

  (** *** reserve, maintenance *)
  Definition f_reserve (s : sta) (n : nat) : sta :=
    let r := Nat.min (k_req k n) (k_mbc k) in
    let s := if bool_decide (length (a_bs (cs s)) < r) then f_ue s else s in
    if bool_decide (length (a_bs (cs s)) < r) then f_rehash s r else s.
  Lemma reserve_ends g s n : inv g s -> a_torn (cs s) = None ->
    ends [] g s (reserve k s n) g (f_reserve s n) /\ a_torn (cs (f_reserve s n)) = None.
  Proof.
    intros Hi Ht. unfold reserve, f_reserve. simpl c_bcount. set (r := Nat.min _ _).
    set (s1 := if bool_decide _ then f_ue s else s).
    assert (ends [] g s (if bool_decide (length (a_bs (cs s)) < r) then unlink_expired k s else Ok s) g s1 /\ a_torn (cs s1) = None) as [(E1 & I1 & X1) T1].
    { unfold s1. destruct (bool_decide _); [by apply ue_ends|]. split; [by apply ends_ret|done]. }
    clearbody s1. destruct (decide (length (a_bs (cs s1)) < r)) as [H|H].
    - rewrite (bool_decide_true (_ (a_bs (cs s1)) < _)) by done. destruct (rehash_ends g s1 r I1 T1) as (H2 & T2 & B2); [lia|]. split; [|done].
      eapply ends_bind; [done|split_and!; [exact E1|exact I1|exact X1]|]. rewrite bool_decide_true by done. exact H2.
    - rewrite (bool_decide_false (_ (a_bs (cs s1)) < _)) by done. split; [|done]. eapply ends_bind; [done|split_and!; [exact E1|exact I1|exact X1]|].
      rewrite bool_decide_false by done. by apply ends_ret.
  Qed.

  Definition f_note (s : sta) (e : N) : sta :=
    match m_els (me s) !! e with Some el => if m_live (el_map el) then s_log s (EvEvict (el_key el)) else s | None => s end.
  Definition f_evict (s : sta) (e : N) : sta := if k_weaken k then f_weaken (f_note s e) e else f_mark (f_note s e) e.
  Lemma f_note_els s e : m_els (me (f_note s e)) = m_els (me s).
  Proof. unfold f_note. destruct (m_els (me s) !! e); [|done]. by destruct (m_live _). Qed.
  Lemma f_note_cs s e : cs (f_note s e) = cs s.
  Proof. unfold f_note. destruct (m_els (me s) !! e); [|done]. by destruct (m_live _). Qed.
  Definition f_evicts (s : sta) (l : list N) : sta := foldl f_evict s l.
  Lemma f_evict_cs s e : cs (f_evict s e) = cs s.
  Proof. unfold f_evict. rewrite <-(f_note_cs s e). destruct (k_weaken k); apply p_upd_cs. Qed.
  Lemma f_evicts_cs l s : cs (f_evicts s l) = cs s.
  Proof. revert s. induction l as [|e l IH]; intros s; [done|]. simpl. unfold f_evicts in IH. rewrite IH. apply f_evict_cs. Qed.
  Lemma evicts_ends g l : forall s, inv g s -> (forall e, e ∈ l -> e ∈ LT g (cs s)) ->
    ends [] g s (expire_victims k s l) g (f_evicts s l).
  Proof.
    induction l as [|e l IH]; intros s Hi Hl; simpl; [by apply ends_ret|].
    assert (e ∈ LT g (cs s)) as He by (apply Hl; by left).
    assert (exists el, m_els (me s) !! e = Some el) as [el Hel] by exact (i_tab _ _ _ Hi e He).
    unfold rd_el. rewrite Hel. simpl. change (if m_live (el_map el) then _ else _) with (if m_live (el_map el) then s_log s (EvEvict (el_key el)) else s).
    assert ((if m_live (el_map el) then s_log s (EvEvict (el_key el)) else s) = f_note s e) as -> by (unfold f_note; by rewrite Hel).
    assert (ends [] g s (if k_weaken k then weaken k (f_note s e) e else mark_expired k (f_note s e) e) g (f_evict s e)) as (E1 & I1 & X1).
    { assert (inv g (f_note s e) /\ ext [] g s g (f_note s e)) as [I0 X0].
      { unfold f_note. rewrite Hel. destruct (m_live _); [|split; [done|apply ext_refl]]. split; [by apply inv_log|]. apply ext_log. intros w. simpl. lia. }
      assert (e ∈ LT g (cs (f_note s e))) as He0 by (by rewrite f_note_cs). pose proof (i_tab _ _ _ I0 e He0). pose proof (LT_not_priv _ _ _ I0 He0).
      apply (ends_bind [] g s (Ok (f_note s e)) g (f_note s e) (fun s => if k_weaken k then weaken k s e else mark_expired k s e)); [done|split_and!; [done|exact I0|exact X0]|].
      unfold f_evict. destruct (k_weaken k); [by apply weaken_ends|by apply mark_ends]. }
    eapply ends_bind; [done|split_and!; [exact E1|exact I1|exact X1]|]. apply IH; [done|].
    intros x Hx. rewrite f_evict_cs. apply Hl. by right.
  Qed.
  Definition victims (s : sta) : list N :=
    match k_max_size k with
    | Some mx => let sz := length (concat (a_bs (cs s))) in aq_victims (a_q (cs s)) (if bool_decide (mx < sz) then sz - mx else 0)
    | None => []
    end.
  Definition f_maint (s : sta) : sta := f_evicts s (victims s).
  Lemma maint_ends g s : inv g s -> ends [] g s (maintenance_ k s) g (f_maint s).
  Proof.
    intros Hi. unfold maintenance_, f_maint, victims. pose proof (i_q _ _ _ Hi) as Hq. unfold has_queue in Hq.
    destruct (k_max_size k) as [mx|]; [|by apply ends_ret].
    rewrite bool_decide_true in Hq by eauto. simpl.
    apply evicts_ends; [done|]. intros e He%aq_victims_elems. by rewrite Hq in He.
  Qed.
  Lemma f_maint_cs s : cs (f_maint s) = cs s.
  Proof. apply f_evicts_cs. Qed.

  (** *** emplace, get_or_emplace *)
  Definition f_insert (s : sta) (key v : Z) : sta := f_link (f_alloc s key (MVal v)) (k_hash k key) (m_nxt (me s)).
  Lemma mode_val v : mode_ok k (MVal v).
  Proof. by split. Qed.
  Lemma f_alloc_self s key m : m_els (me (f_alloc s key m)) !! m_nxt (me s) = Some (fresh_el key m).
  Proof. simpl. by rewrite lookup_insert. Qed.
  Lemma f_alloc_LT g (s : sta) key m : LT g (cs (f_alloc s key m)) = LT g (cs s).
  Proof. done. Qed.
  Lemma nxt_not_LT g (s : sta) : inv g s -> m_nxt (me s) ∉ LT g (cs s).
  Proof. intros Hi H. apply (i_tab _ _ _ Hi) in H as [? H]. by rewrite (nxt_fresh k _ _ Hi) in H. Qed.
  Lemma nxt_not_priv g (s : sta) : inv g s -> m_nxt (me s) ∉ g_priv g.
  Proof. intros Hi H. apply (i_priv _ _ _ Hi) in H as (_ & ? & H & _). by rewrite (nxt_fresh k _ _ Hi) in H. Qed.
  Definition f_emplace (s : sta) (key v : Z) : sta := f_maint (f_insert (f_expire s key) key v).
  Lemma emplace_ends g s key v : inv g s -> a_torn (cs s) = None ->
    ends [] g s (emplace k s key v) g (f_emplace s key v) /\ a_torn (cs (f_emplace s key v)) = None.
  Proof.
    intros Hi Ht. unfold emplace, f_emplace, f_insert.
    destruct (expire_ends g s key Hi Ht) as [(E1 & I1 & X1) T1]. set (s1 := f_expire s key) in *.
    destruct (alloc_pin k g s1 key (MVal v) I1 eq_refl (mode_val v)) as (_ & I2 & _).
    pose proof (alloc_ext k g (pin (m_nxt (me s1)) g) s1 key (MVal v) I1 eq_refl eq_refl) as X2.
    set (s2 := f_alloc s1 key (MVal v)) in *. set (e := m_nxt (me s1)) in *.
    destruct (link_ends (pin e g) g s2 e (fresh_el key (MVal v))) as ((E3 & I3 & X3) & T3 & H3).
    - done. - apply f_alloc_self. - done. - exact (nxt_not_LT _ _ I1). - eapply handed_pin; [done|]. exact (nxt_not_priv _ _ I1).
    - simpl in *. split; [|by rewrite f_maint_cs].
      eapply ends_bind; [done|split_and!; [exact E1|exact I1|exact X1]|].
      rewrite (alloc_eq k g) by done. simpl rbind. fold s2 e.
      destruct (maint_ends g (f_link s2 (k_hash k key) e) I3) as (E4 & I4 & X4).
      split_and!; [|done|].
      + by rewrite E3.
      + eapply ext_trans0; [exact I1|exact X2|]. eapply ext_trans0; [exact I2|exact X3|exact X4].
  Qed.

  Definition p_inc (s : sta) (e : N) : sta := p_upd s e (fun el => with_rc el (S (el_rc el))).
  Lemma inc_ends g s e : inv g s -> is_Some (m_els (me s) !! e) -> ends [] g s (inc_ref s e) (pin e g) (p_inc s e).
  Proof.
    intros Hi [el He]. destruct (inc_ok k g s e Hi) as (s' & E & I & X & _); [eauto|].
    assert (s' = p_inc s e) as ->; [|done].
    unfold inc_ref, s_upd, upd_el, rd_el in E. rewrite He in E. injection E as <-. unfold p_inc, p_upd. by rewrite He.
  Qed.
  Lemma f_dec_tab (s : sta) e : same_tab s (f_dec s e).
  Proof. destruct (f_dec_cs s e) as (? & ? & _). done. Qed.

  Definition f_goe (s : sta) (key v : Z) : sta * mres :=
    let '(s, r) := f_get s key true in
    match r with
    | Some (_, r) => (f_maint s, match r with RP => R0 | x => x end)
    | None =>
      let e := m_nxt (me s) in
      (f_dec (f_maint (f_link (p_inc (f_alloc s key (MVal v)) e) (k_hash k key) e)) e, RV v)
    end.
  Lemma goe_ends g s key v : inv g s -> a_torn (cs s) = None ->
    get_or_emplace k s key v = Ok (f_goe s key v) /\ inv g (f_goe s key v).1 /\ ext [] g s g (f_goe s key v).1 /\
    a_torn (cs (f_goe s key v).1) = None.
  Proof.
    intros Hi Ht. destruct (get_ends g s key true Hi Ht) as (E1 & I1 & X1 & T1 & _).
    unfold get_or_emplace, f_goe. rewrite E1. simpl rbind. destruct (f_get s key true) as [s1 [[e r]|]]; simpl in *.
    - destruct (maint_ends g s1 I1) as (E2 & I2 & X2). rewrite E2. simpl. split_and!; try done; [by eapply ext_trans0|by rewrite f_maint_cs].
    - destruct (alloc_pin k g s1 key (MVal v) I1 eq_refl (mode_val v)) as (_ & I2 & _).
      pose proof (alloc_ext k g (pin (m_nxt (me s1)) g) s1 key (MVal v) I1 eq_refl eq_refl) as X2.
      rewrite (alloc_eq k g) by done. simpl rbind.
      set (s2 := f_alloc s1 key (MVal v)) in *. set (e := m_nxt (me s1)) in *.
      destruct (inc_ends (pin e g) s2 e I2) as (E3 & I3 & X3). { unfold s2, e. rewrite f_alloc_self. eauto. }
      rewrite E3. simpl rbind. set (s3 := p_inc s2 e) in *.
      destruct (link_ends (pin e (pin e g)) (pin e g) s3 e (with_rc (fresh_el key (MVal v)) 2)) as ((E4 & I4 & X4) & T4 & H4).
      + done.
      + unfold s3, p_inc. rewrite p_upd_lookup, decide_True by done. unfold s2, e. by rewrite f_alloc_self.
      + unfold s3, p_inc. by rewrite p_upd_cs.
      + unfold s3, p_inc. rewrite p_upd_cs. exact (nxt_not_LT _ _ I1).
      + eapply handed_pin; [done|]. exact (nxt_not_priv _ _ I1).
      + simpl in E4, I4, X4, T4. rewrite E4. simpl rbind.
        destruct (maint_ends (pin e g) _ I4) as (E5 & I5 & X5). rewrite E5. simpl rbind.
        destruct (drop_ok k g _ e I5) as (E6 & I6 & X6). rewrite E6. simpl.
        split_and!; [done|done| |].
        * eapply ext_trans0; [exact Hi|exact X1|]. eapply ext_trans0; [exact I1|exact X2|]. eapply ext_trans0; [exact I2|exact X3|].
          eapply ext_trans0; [exact I3|exact X4|]. eapply ext_trans0; [exact I4|exact X5|exact X6].
        * destruct (f_dec_tab (f_maint (f_link s3 (k_hash k key) e)) e) as [_ Et]. rewrite Et, f_maint_cs. done.
  Qed.
End ops.
