(** Preservation of the invariant by the primitive state changes: containers, allocation, resolver
    callbacks. *)
From Verif Require Import Base AQueue ATable BasicHashtable QueueProofs BasicHashtableProofs ContainersProofs Mapped Cache CacheAbs AbsInv AbsPrim.

(** * Queue on lists *)
Lemma aq_create_perm q v : aq_elems (aq_create q v).1 ≡ₚ v :: aq_elems q.
Proof.
  unfold aq_create, aq_elems. destruct q as [H C]; simpl. destruct (aq_odd (H, C)); [destruct C as [|c cs]|]; simpl.
  - rewrite app_nil_r. by rewrite Permutation_app_comm.
  - rewrite <-app_assoc. simpl. rewrite (Permutation_swap v c cs). by rewrite <-Permutation_middle.
  - by rewrite <-Permutation_middle.
Qed.
Lemma aq_create_balanced q v : aq_balanced q -> aq_balanced (aq_create q v).1.
Proof.
  unfold aq_create, aq_balanced, aq_odd. destruct q as [H C]; simpl. case_bool_decide; [destruct C as [|c cs]|]; simpl in *; rewrite ?app_length; simpl; lia.
Qed.
Lemma removelast_len {A} (l : list A) x : last l = Some x -> length l = S (length (removelast l)).
Proof. intros (l' & ->)%last_Some. rewrite removelast_snoc, app_length. simpl. lia. Qed.
Lemma aq_hit_perm q v : NoDup (aq_elems q) -> v ∈ aq_elems q -> aq_elems (aq_hit q v) ≡ₚ aq_elems q.
Proof.
  unfold aq_hit, aq_elems. destruct q as [H C]; simpl. intros Hnd Hv. apply NoDup_app in Hnd as (H1 & Hd & H2).
  case_bool_decide as Hc; simpl.
  - by rewrite (rm_perm v H) at 2.
  - rewrite elem_of_app in Hv. destruct Hv as [?|Hv]; [done|].
    destruct (last H) as [x|] eqn:El; simpl.
    + apply last_Some in El as [l ->]. rewrite removelast_snoc. rewrite (rm_perm v C) at 2 by done.
      rewrite <-app_assoc. simpl. rewrite <-!Permutation_middle. rewrite Permutation_swap. done.
    + apply last_None in El as ->. simpl. by rewrite <-rm_perm.
Qed.
Lemma aq_hit_balanced q v : aq_balanced q -> NoDup (aq_elems q) -> v ∈ aq_elems q -> aq_balanced (aq_hit q v).
Proof.
  unfold aq_hit, aq_elems, aq_balanced. destruct q as [H C]; simpl. intros Hb Hnd Hv. apply NoDup_app in Hnd as (H1 & Hd & H2).
  case_bool_decide as Hc; simpl.
  - rewrite <-(rm_length v H) by done. done.
  - rewrite elem_of_app in Hv. destruct Hv as [?|Hv]; [done|]. pose proof (rm_length v C H2 Hv).
    destruct (last H) as [x|] eqn:El; simpl; [pose proof (removelast_len _ _ El)|apply last_None in El as ->; simpl in *]; lia.
Qed.
Lemma aq_unlink_perm q v : NoDup (aq_elems q) -> v ∈ aq_elems q -> aq_elems q ≡ₚ v :: aq_elems (aq_unlink q v).
Proof.
  unfold aq_unlink, aq_elems. destruct q as [H C]; simpl. intros Hnd Hv. apply NoDup_app in Hnd as (H1 & Hd & H2).
  rewrite elem_of_app in Hv. case_bool_decide as Hc; simpl.
  - rewrite (rm_perm v H) at 1 by done. destruct (aq_odd (H, C)); [destruct C as [|c cs]|]; simpl; try done.
    by rewrite <-app_assoc.
  - destruct Hv as [?|Hv]; [done|]. rewrite (rm_perm v C) at 1 by done. destruct (aq_odd (H, C)); simpl.
    + by rewrite <-Permutation_middle.
    + destruct (last H) as [x|] eqn:El; simpl.
      * apply last_Some in El as [l ->]. rewrite removelast_snoc, <-app_assoc. simpl. rewrite Permutation_swap. by rewrite <-Permutation_middle.
      * by rewrite <-Permutation_middle.
Qed.
Lemma aq_unlink_balanced q v : aq_balanced q -> NoDup (aq_elems q) -> v ∈ aq_elems q -> aq_balanced (aq_unlink q v).
Proof.
  unfold aq_unlink, aq_elems, aq_balanced, aq_odd. destruct q as [H C]; simpl. intros Hb Hnd Hv. apply NoDup_app in Hnd as (H1 & Hd & H2).
  rewrite elem_of_app in Hv. case_bool_decide as Hc; simpl.
  - pose proof (rm_length v H H1 Hc). case_bool_decide; [destruct C as [|c cs]|]; simpl in *; rewrite ?app_length; simpl; lia.
  - destruct Hv as [?|Hv]; [done|]. pose proof (rm_length v C H2 Hv). case_bool_decide; simpl; [lia|].
    destruct (last H) as [x|] eqn:El; simpl; [pose proof (removelast_len _ _ El)|apply last_None in El as ->; simpl in *]; lia.
Qed.
Lemma aq_create_promoted q v x : (aq_create q v).2 = Some x -> x ∈ aq_elems q.
Proof.
  unfold aq_create, aq_elems. destruct (aq_odd q); [|done]. destruct (q.2) as [|c cs]; simpl; [done|].
  intros [= ->]. apply elem_of_app. right. left.
Qed.
Lemma aq_victims_elems q n x : x ∈ aq_victims q n -> x ∈ aq_elems q.
Proof.
  unfold aq_victims, aq_elems. intros Hx. apply elem_of_app. right. apply elem_of_reverse.
  rewrite <-(take_drop n (reverse q.2)). apply elem_of_app. by left.
Qed.

(** * Buckets *)
Lemma at_unlink_lookup Bs e b : at_unlink Bs e !! b = filter (fun x => x <> e) <$> Bs !! b.
Proof. unfold at_unlink. by rewrite list_lookup_fmap. Qed.
Lemma at_link_lookup Bs h e b B : at_link Bs h e !! b = Some B ->
  exists B', Bs !! b = Some B' /\ forall x, x ∈ B -> x ∈ B' \/ (x = e /\ b = bidx (length Bs) h).
Proof.
  unfold at_link. destruct (decide (bidx (length Bs) h = b)) as [<-|Hne].
  - rewrite list_lookup_alter. destruct (Bs !! _) as [B'|]; [|done]. simpl. intros [= <-]. exists B'. split; [done|].
    intros x Hx. apply elem_of_app in Hx as [?|?%elem_of_list_singleton]; auto.
  - rewrite list_lookup_alter_ne by done. intros ->. eauto.
Qed.
Lemma elem_concat_lookup (Bs : list (list N)) b B x : Bs !! b = Some B -> x ∈ B -> x ∈ concat Bs.
Proof.
  intros HB Hx. apply elem_of_list_In, in_concat. exists B. split; apply elem_of_list_In; [|done]. by eapply elem_of_list_lookup_2.
Qed.
Lemma elem_concat_inv (Bs : list (list N)) x : x ∈ concat Bs -> exists b B, Bs !! b = Some B /\ x ∈ B.
Proof.
  intros Hx. apply elem_of_list_In, in_concat in Hx as (B & HB & Hx). apply elem_of_list_In in HB, Hx.
  apply elem_of_list_lookup in HB as [b Hb]. eauto.
Qed.

Section prim.
  Context (k : cfg).
  Notation inv := (inv k).

  Ltac dinv H := destruct H as [Hdom Hup Hnd Htab Hhash Hplace Hq Hbal Hdnd Hdq Hdnp Hrc Hrc0 Href Hout Hpin Hpriv Hpnd Hcb Hown Hheld Hinj Hnxt Hncb Hmode].

  (** moves between the ghost lists and the containers, with the elements unchanged *)
  Lemma inv_cs g g' s (c : acs) :
    inv g s ->
    g_act g' = g_act g -> g_own g' = g_own g ->
    (forall e, is_Some (a_hash c !! e) <-> is_Some (a_hash (cs s) !! e)) ->
    (m_up (me s) = true -> a_torn c = None) ->
    (forall e, cnt e (LT g' c) + cnt e (g_pins g') + cnt e (g_priv g') =
               cnt e (LT g (cs s)) + cnt e (g_pins g) + cnt e (g_priv g)) ->
    NoDup (LT g' c) ->
    (forall e, e ∈ LT g' c -> is_Some (m_els (me s) !! e)) ->
    (forall e el, e ∈ LT g' c -> m_els (me s) !! e = Some el -> a_hash c !! e = Some (k_hash k (el_key el))) ->
    (forall b B e el, a_torn c = None -> a_bs c !! b = Some B -> e ∈ B ->
      m_els (me s) !! e = Some el -> bidx (length (a_bs c)) (k_hash k (el_key el)) = b) ->
    (if has_queue k then aq_elems (a_q c) ≡ₚ LT g' c else a_q c = ([], [])) ->
    aq_balanced (a_q c) ->
    NoDup (a_dq c) ->
    (forall e, e ∈ a_dq c -> e ∈ LT g' c /\ k_refresh k <> None) ->
    (forall e el, e ∈ a_dq c -> m_els (me s) !! e = Some el -> ~ is_pend el) ->
    (forall e el, m_els (me s) !! e = Some el -> e ∉ LT g' c -> cbq_of (el_map el) = []) ->
    (forall e el, m_els (me s) !! e = Some el -> is_pend el -> m_up (me s) = true -> e ∈ LT g' c \/ e ∈ g_priv g') ->
    (forall e, e ∈ g_priv g' -> e ∉ LT g' c /\ e ∈ g_priv g) ->
    NoDup (g_priv g') ->
    inv g' (with_cs s c).
  Proof.
    intros Hi Ea Eo Hh Ht Hcnt H1 H2 H3 H4 H5 H6 H7 H8 H9 H10 H11 H12 H13. dinv Hi. split; simpl; try done.
    - intros e. by rewrite Hh.
    - intros e el He. specialize (Hcnt e). destruct (Hrc e el He). split; [lia|done].
    - intros e He. specialize (Hcnt e). specialize (Hrc0 e He).
      assert (cnt e (LT g (cs s)) = 0). { apply cnt_zero. intros Hin. apply Htab in Hin. rewrite He in Hin. by destruct Hin. }
      lia.
    - intros e He. destruct (H12 e He). split; [done|]. by apply Hpriv.
    - intros i c' Hc Hcall. rewrite Ea. intros Hact. destruct (Hcb i c' Hc Hcall Hact) as [Hn ?]. split; [|done].
      intros Hin. apply Hn. by apply H12.
    - intros i e. rewrite Eo. apply Hown.
    - intros i c'. rewrite Eo. apply Hheld.
  Qed.
  Lemma ext_cs g g' s c : g_wait g' = g_wait g -> ext [] g s g' (with_cs s c).
  Proof.
    intros E. split; simpl; try done; try lia.
    - naive_solver.
    - by exists [].
    - intros w. unfold wtot; simpl. rewrite E. lia.
  Qed.

  Lemma inv_q g s q : inv g s -> aq_elems q ≡ₚ aq_elems (a_q (cs s)) -> aq_balanced q -> has_queue k = true ->
    inv g (with_cs s (a_set_q (cs s) q)).
  Proof.
    intros Hi Hp Hb Hhq. apply (inv_cs g g); try done; try apply Hi.
    - rewrite Hhq. change (LT g (a_set_q (cs s) q)) with (LT g (cs s)). simpl. rewrite Hp. pose proof (i_q _ _ _ Hi) as Hq.
      by rewrite Hhq in Hq.
    - intros e He. split; [|done]. by apply Hi.
  Qed.

  Lemma inv_dq g s dq : inv g s -> NoDup dq -> (forall e, e ∈ dq -> e ∈ LT g (cs s) /\ k_refresh k <> None) ->
    (forall e el, e ∈ dq -> m_els (me s) !! e = Some el -> ~ is_pend el) ->
    inv g (with_cs s (a_set_dq (cs s) dq)).
  Proof.
    intros Hi H1 H2 H3. apply (inv_cs g g); try done; try apply Hi.
    intros e He. split; [|done]. by apply Hi.
  Qed.

  Lemma inv_rehash g s n : inv g s -> a_torn (cs s) = None -> n <> 0 ->
    inv g (with_cs s (a_set_bs (cs s) (at_rehash (fun e => default 0%N (a_hash (cs s) !! e)) n (a_bs (cs s))))).
  Proof.
    intros Hi Ht Hn. set (c := a_set_bs _ _).
    assert (LT g c ≡ₚ LT g (cs s)) as HL.
    { unfold LT, a_tab, c; simpl. rewrite Ht; simpl. by rewrite at_rehash_perm. }
    apply (inv_cs g g); try done; try apply Hi.
    - intros e. by rewrite (cnt_perm e _ _ HL).
    - rewrite HL. apply Hi.
    - intros e. rewrite HL. apply Hi.
    - intros e el. rewrite HL. apply Hi.
    - intros b B e el _. unfold c; simpl. rewrite at_rehash_length. unfold at_rehash. rewrite list_lookup_fmap.
      destruct (seq 0 n !! b) as [b'|] eqn:Eb; [|done]. apply lookup_seq in Eb as [-> Hb]. simpl. intros [= <-].
      rewrite elem_of_list_filter. intros [E Hin] Hel. rewrite <-E. f_equal.
      assert (e ∈ LT g (cs s)) as HT. { apply elem_of_app. right. unfold a_tab. by rewrite Ht. }
      by rewrite (i_hash _ _ _ Hi e el HT Hel).
    - pose proof (i_q _ _ _ Hi) as Hq. destruct (has_queue k); [|done]. by rewrite HL.
    - intros e. rewrite HL. apply Hi.
    - intros e el. rewrite HL. apply Hi.
    - intros e el. rewrite HL. apply Hi.
    - intros e He. rewrite HL. split; [|done]. by apply Hi.
  Qed.

  Lemma inv_unlink g s e : inv g s -> a_torn (cs s) = None -> e ∈ concat (a_bs (cs s)) ->
    inv (with_xs g (e :: g_xs g)) (with_cs s (a_set_bs (cs s) (at_unlink (a_bs (cs s)) e))).
  Proof.
    intros Hi Ht He. set (c := a_set_bs _ _). set (g' := with_xs _ _).
    assert (NoDup (concat (a_bs (cs s)))) as Hnd.
    { pose proof (i_nd _ _ _ Hi) as Hnd. unfold LT, a_tab in Hnd. rewrite Ht in Hnd. simpl in Hnd. by apply NoDup_app in Hnd as (_ & _ & ?). }
    assert (LT g' c ≡ₚ LT g (cs s)) as HL.
    { unfold LT, a_tab, c, g'; simpl. rewrite Ht; simpl. rewrite at_unlink_elems, Permutation_middle.
      apply Permutation_app_head. by rewrite (rm_perm e (concat (a_bs (cs s)))) at 2. }
    apply (inv_cs g g'); try done; try apply Hi.
    - intros x. rewrite (cnt_perm x _ _ HL). done.
    - rewrite HL. apply Hi.
    - intros x. rewrite HL. apply Hi.
    - intros x el. rewrite HL. apply Hi.
    - intros b B x el _. unfold c; simpl. rewrite at_unlink_length, at_unlink_lookup.
      destruct (a_bs (cs s) !! b) as [B'|] eqn:Eb; [|done]. simpl. intros [= <-].
      rewrite elem_of_list_filter. intros [_ Hin]. by eapply i_place.
    - pose proof (i_q _ _ _ Hi) as Hq. destruct (has_queue k); [|done]. by rewrite HL.
    - intros x. rewrite HL. apply Hi.
    - intros x el. rewrite HL. apply Hi.
    - intros x el. rewrite HL. apply Hi.
    - intros x Hx. rewrite HL. split; [|done]. by apply Hi.
  Qed.

  (** one element taken by the destructor's loop; the table stays torn *)
  Lemma inv_pop g s e r : inv g s -> m_up (me s) = false -> a_tab (cs s) = e :: r ->
    inv (with_xs g (e :: g_xs g)) (with_cs s (Acs (a_hash (cs s)) (a_bs (cs s)) (Some r) (a_q (cs s)) (a_dq (cs s)))).
  Proof.
    intros Hi Hup Et. set (c := Acs _ _ _ _ _). set (g' := with_xs _ _).
    assert (LT g' c ≡ₚ LT g (cs s)) as HL.
    { unfold LT, g'; simpl. rewrite Et. unfold a_tab, c; simpl. by rewrite Permutation_middle. }
    apply (inv_cs g g'); try done; try apply Hi.
    - congruence.
    - intros x. rewrite (cnt_perm x _ _ HL). done.
    - rewrite HL. apply Hi.
    - intros x. rewrite HL. apply Hi.
    - intros x el. rewrite HL. apply Hi.
    - pose proof (i_q _ _ _ Hi) as Hq. destruct (has_queue k); [|done]. by rewrite HL.
    - intros x. rewrite HL. apply Hi.
    - intros x el. rewrite HL. apply Hi.
    - intros x el. rewrite HL. apply Hi.
    - intros x Hx. rewrite HL. split; [|done]. by apply Hi.
  Qed.

  (** out of the queues: the element is only held by the code removing it *)
  Definition a_unq (c : acs) (e : N) : acs :=
    Acs (a_hash c) (a_bs c) (a_torn c) (if has_queue k then aq_unlink (a_q c) e else a_q c) (rm e (a_dq c)).
  Lemma inv_unq g X s e el : inv (with_xs g (e :: X)) s -> m_els (me s) !! e = Some el ->
    cbq_of (el_map el) = [] -> (is_pend el -> m_up (me s) = false) ->
    inv (pin e (with_xs g X)) (with_cs s (a_unq (cs s) e)).
  Proof.
    intros Hi Hel Hc Hp. set (c := a_unq _ _). set (g' := pin _ _).
    assert (LT (with_xs g (e :: X)) (cs s) = e :: LT g' c) as HL by done.
    pose proof (i_nd _ _ _ Hi) as Hnd. rewrite HL in Hnd. apply NoDup_cons in Hnd as [HeL Hnd].
    assert (forall x, x ∈ rm e (a_dq (cs s)) -> x ∈ a_dq (cs s)) as Hrm. { intros x Hx. apply elem_of_rm in Hx. tauto. }
    pose proof (i_q _ _ _ Hi) as Hq.
    assert (forall x, x ∈ LT g' c -> x ∈ LT (with_xs g (e :: X)) (cs s)) as Hsub.
    { intros x Hx. rewrite HL. by right. }
    apply (inv_cs (with_xs g (e :: X)) g'); try done; try apply Hi.
    - intros x. rewrite HL. unfold g'; simpl. rewrite !cnt_cons. lia.
    - intros x Hx. by apply (i_tab _ _ _ Hi), Hsub.
    - intros x ex Hx. by apply (i_hash _ _ _ Hi), Hsub.
    - unfold c at 1 3, a_unq. simpl. destruct (has_queue k); [|done]. rewrite HL in Hq.
      assert (NoDup (aq_elems (a_q (cs s)))) as HndQ. { rewrite Hq. by constructor. }
      assert (e ∈ aq_elems (a_q (cs s))) as HeQ. { rewrite Hq. by left. }
      rewrite (aq_unlink_perm _ _ HndQ HeQ) in Hq.
      by apply Permutation_cons_inv in Hq.
    - unfold c, a_unq; simpl. destruct (has_queue k); [|apply Hi]. rewrite HL in Hq.
      apply aq_unlink_balanced; [apply Hi| |]; rewrite Hq; [by constructor|by left].
    - by apply rm_nodup, Hi.
    - intros x. unfold c, a_unq; simpl. rewrite elem_of_rm. intros [Hne Hx]. apply Hi in Hx as [Hx ?]. split; [|done].
      rewrite HL in Hx. apply elem_of_cons in Hx as [?|?]; done.
    - intros x ex Hx. apply Hrm in Hx. by eapply i_dnp.
    - intros x ex Hex Hx. destruct (decide (x = e)) as [->|Hne]; [congruence|]. eapply i_out; [done..|].
      rewrite HL. apply not_elem_of_cons. done.
    - intros x ex Hex Hpe Hup. destruct (decide (x = e)) as [->|Hne].
      { replace ex with el in Hpe by congruence. rewrite (Hp Hpe) in Hup. done. }
      destruct (i_pin _ _ _ Hi x ex Hex Hpe Hup) as [Hx|Hx]; [|by right]. left.
      rewrite HL in Hx. apply elem_of_cons in Hx as [?|?]; done.
    - intros x Hx. split; [|done]. intros HxL. eapply i_priv in Hi; [|exact Hx]. apply (proj1 Hi). by apply Hsub.
  Qed.

  (** into the table and the queue *)
  Definition a_enter (c : acs) (h e : N) : acs :=
    Acs (<[e := h]> (a_hash c)) (at_link (a_bs c) h e) (a_torn c)
        (if has_queue k then (aq_create (a_q c) e).1 else a_q c) (a_dq c).
  Lemma inv_enter g g' s e el :
    inv g s -> m_els (me s) !! e = Some el -> a_torn (cs s) = None -> a_bs (cs s) <> [] -> e ∉ LT g (cs s) ->
    g_xs g' = g_xs g -> g_act g' = g_act g -> g_own g' = g_own g ->
    (forall x, (if decide (e = x) then 1 else 0) + cnt x (g_pins g') + cnt x (g_priv g') = cnt x (g_pins g) + cnt x (g_priv g)) ->
    (forall x, x ∈ g_priv g' -> x <> e /\ x ∈ g_priv g) -> (forall x, x ∈ g_priv g -> x <> e -> x ∈ g_priv g') ->
    NoDup (g_priv g') ->
    inv g' (with_cs s (a_enter (cs s) (k_hash k (el_key el)) e)).
  Proof.
    intros Hi Hel Ht Hne Hnin Ex Ea Eo Hcnt Hp1 Hp2 Hnd. set (c := a_enter _ _ _).
    assert (LT g' c ≡ₚ e :: LT g (cs s)) as HL.
    { unfold LT, a_tab, c; simpl. rewrite Ht, Ex; simpl. rewrite at_link_perm by done. by rewrite Permutation_middle. }
    assert (e ∉ a_dq (cs s)) as Hndq. { intros Hx. apply Hi in Hx as [? _]. done. }
    assert (e ∉ concat (a_bs (cs s))) as Hnc. { intros Hx. apply Hnin. unfold LT, a_tab. rewrite Ht. apply elem_of_app. by right. }
    apply (inv_cs g g'); try done; try apply Hi.
    - intros x. unfold c; simpl. destruct (decide (x = e)) as [->|]; [|by rewrite lookup_insert_ne].
      rewrite lookup_insert. assert (is_Some (a_hash (cs s) !! e)) by (apply Hi; eauto). naive_solver.
    - intros x. rewrite (cnt_perm x _ _ HL), cnt_cons. specialize (Hcnt x). lia.
    - rewrite HL. constructor; [done|apply Hi].
    - intros x. rewrite HL, elem_of_cons. intros [->|Hx]; [eauto|by apply (i_tab _ _ _ Hi)].
    - intros x ex. rewrite HL, elem_of_cons. unfold c; simpl. destruct (decide (x = e)) as [->|].
      + intros _ Hex. rewrite lookup_insert. congruence.
      + intros [?|Hx] Hex; [done|]. rewrite lookup_insert_ne by done. by apply Hi.
    - intros b B x ex _ HB Hx Hex. unfold c in *; simpl in *. rewrite at_link_length.
      destruct (at_link_lookup _ _ _ _ _ HB) as (B' & HB' & Hs). destruct (Hs x Hx) as [Hx'|[-> ->]].
      + by eapply i_place.
      + replace ex with el by congruence. done.
    - pose proof (i_q _ _ _ Hi) as Hq. unfold c at 1 3, a_enter; simpl. destruct (has_queue k); [|done].
      rewrite aq_create_perm, Hq. by rewrite HL.
    - unfold c, a_enter; simpl. destruct (has_queue k); [|apply Hi]. apply aq_create_balanced, Hi.
    - intros x Hx. rewrite HL. apply Hi in Hx as [??]. split; [by right|done].
    - intros x ex Hex. rewrite HL, not_elem_of_cons. intros [_ Hx]. by eapply i_out.
    - intros x ex Hex Hpe Hup. rewrite HL. destruct (decide (x = e)) as [->|Hxe]; [left; by left|].
      destruct (i_pin _ _ _ Hi x ex Hex Hpe Hup) as [Hx|Hx]; [left; by right|right; auto].
    - intros x Hx. rewrite HL. destruct (Hp1 x Hx) as [? Hx']. split; [|done].
      apply not_elem_of_cons. split; [done|]. by apply (i_priv _ _ _ Hi x Hx').
  Qed.

  (** ** Allocation *)
  Definition a_new (c : acs) (e : N) : acs := Acs (<[e := 0%N]> (a_hash c)) (a_bs c) (a_torn c) (a_q c) (a_dq c).
  Definition fresh_el (key : Z) (m : mapped) : elem := Elem key m 1 None None 0 None false.
  Definition f_alloc (s : sta) (key : Z) (m : mapped) : sta :=
    StA (a_new (cs s) (m_nxt (me s))) (set_nxt (wr_el (me s) (m_nxt (me s)) (fresh_el key m)) (N.succ (m_nxt (me s)))).
  Lemma alloc_eq g s key m : inv g s -> allocate s key m = Ok (f_alloc s key m, m_nxt (me s)).
  Proof.
    intros Hi. unfold allocate. simpl. unfold need. rewrite decide_True; [done|].
    apply eq_None_not_Some. intros Hs. apply Hi in Hs. apply (i_nxt _ _ _ Hi) in Hs. lia.
  Qed.
  Lemma nxt_fresh g s : inv g s -> m_els (me s) !! m_nxt (me s) = None.
  Proof. intros Hi. apply eq_None_not_Some. intros Hs. apply (i_nxt _ _ _ Hi) in Hs. lia. Qed.
  Lemma alloc_gen g g' s key m : inv g s -> cbq_of m = [] -> mode_ok k m ->
    g_xs g' = g_xs g -> g_act g' = g_act g -> g_own g' = g_own g ->
    (forall x, cnt x (g_pins g') + cnt x (g_priv g') = (if decide (m_nxt (me s) = x) then 1 else 0) + cnt x (g_pins g) + cnt x (g_priv g)) ->
    NoDup (g_priv g') ->
    (forall x, x ∈ g_priv g' -> x ∈ g_priv g \/ x = m_nxt (me s) /\ m = MPend pend_init) ->
    (forall x, x ∈ g_priv g -> x ∈ g_priv g') ->
    (m_pending m = true -> m_nxt (me s) ∈ g_priv g') ->
    inv g' (f_alloc s key m).
  Proof.
    intros Hi Hc Hm Ex Ea Eo Hcnt Hpn Hp1 Hp2 Hp3. pose proof (nxt_fresh _ _ Hi) as Hf. dinv Hi.
    assert (m_nxt (me s) ∉ LT g (cs s)) as HnL. { intros Hx. apply Htab in Hx. rewrite Hf in Hx. by destruct Hx. }
    assert (m_nxt (me s) ∉ a_dq (cs s)) as HnD. { intros Hx. by apply Hdq in Hx as [? _]. }
    pose proof (Hrc0 _ Hf) as Hz.
    assert (forall x, nold (<[m_nxt (me s):=fresh_el key m]> (m_els (me s))) x = nold (m_els (me s)) x) as Hno.
    { intros x. unfold nold. rewrite msum_insert by done. unfold el_olds at 1. simpl. by rewrite Hc. }
    assert (forall e el, <[m_nxt (me s):=fresh_el key m]> (m_els (me s)) !! e = Some el -> e <> m_nxt (me s) -> m_els (me s) !! e = Some el) as Hl.
    { intros e el H1 H2. by rewrite lookup_insert_ne in H1. }
    assert (forall e el, m_els (me s) !! e = Some el -> <[m_nxt (me s):=fresh_el key m]> (m_els (me s)) !! e = Some el) as Hl2.
    { intros e el H1. rewrite lookup_insert_ne by congruence. done. }
    assert (LT g' (a_new (cs s) (m_nxt (me s))) = LT g (cs s)) as EL by (unfold LT, a_tab; by rewrite Ex).
    assert (forall e el, <[m_nxt (me s):=fresh_el key m]> (m_els (me s)) !! e = Some el ->
      (e = m_nxt (me s) /\ el = fresh_el key m) \/ (e <> m_nxt (me s) /\ m_els (me s) !! e = Some el)) as Hcase.
    { intros e el. destruct (decide (e = m_nxt (me s))) as [->|]; [rewrite lookup_insert|rewrite lookup_insert_ne by done]; naive_solver. }
    split; simpl; rewrite ?EL; try done.
    - intros e. destruct (decide (e = m_nxt (me s))) as [->|]; [rewrite !lookup_insert; naive_solver|by rewrite !lookup_insert_ne].
    - intros e. intros He. destruct (Htab _ He) as [el Hel]. eauto.
    - intros e el. intros He Hel. destruct (Hcase _ _ Hel) as [[-> _]|[Hne Hel']]; [done|].
      rewrite lookup_insert_ne by done. eauto.
    - intros b B e el Ht HB He Hel. destruct (Hcase _ _ Hel) as [[-> _]|[Hne Hel']]; [|eauto].
      exfalso. apply HnL. unfold LT, a_tab. rewrite Ht. apply elem_of_app; right. by eapply elem_concat_lookup.
    - intros e el He Hel. destruct (Hcase _ _ Hel) as [[-> _]|[Hne Hel']]; [done|]. eauto.
    - intros e el. rewrite Hno. intros Hel. specialize (Hcnt e). destruct (Hcase _ _ Hel) as [[-> ->]|[Hne Hel']].
      + simpl. rewrite decide_True in Hcnt by done. apply cnt_zero in HnL. split; lia.
      + rewrite decide_False in Hcnt by done. destruct (Hrc _ _ Hel'). split; lia.
    - intros e. rewrite Hno. specialize (Hcnt e). intros He. assert (m_nxt (me s) <> e) as Hne by (intros <-; by rewrite lookup_insert in He).
      rewrite decide_False in Hcnt by done. rewrite lookup_insert_ne in He by done. specialize (Hrc0 _ He). lia.
    - intros l el n o Hel Hin. destruct (Hcase _ _ Hel) as [[-> ->]|[Hne Hel']].
      + simpl in Hin. rewrite Hc in Hin. by apply elem_of_nil in Hin.
      + destruct (Href _ _ _ _ Hel' Hin) as (? & ? & eo & ? & ?). split_and!; try done. exists eo. eauto.
    - intros e el Hel. destruct (Hcase _ _ Hel) as [[-> ->]|[Hne Hel']]; eauto.
    - intros e el Hel. intros Hpe Hu. destruct (Hcase _ _ Hel) as [[-> ->]|[Hne Hel']].
      + right. by apply Hp3.
      + destruct (Hpin _ _ Hel' Hpe Hu); auto.
    - intros e He. destruct (Hp1 e He) as [He'|[-> ->]].
      + destruct (Hpriv _ He') as (? & el & ? & ?). split; [done|]. exists el. eauto.
      + split; [done|]. eexists. rewrite lookup_insert. by repeat split.
    - intros i c Hi' Hcall. rewrite Ea. intros Hact. destruct (Hcb _ _ Hi' Hcall Hact) as (Hnp & el & Hel & Hpe). split; [|eauto].
      intros Hx. destruct (Hp1 _ Hx) as [?|[E _]]; [done|]. rewrite E in Hel. congruence.
    - intros i e. rewrite Eo. apply Hown.
    - intros i c'. rewrite Eo. apply Hheld.
    - intros e [el Hel]. destruct (Hcase _ _ Hel) as [[-> _]|[Hne Hel']]; [lia|]. assert (e < m_nxt (me s))%N by eauto. lia.
    - intros e el Hel. destruct (Hcase _ _ Hel) as [[-> ->]|[Hne Hel']]; [done|eauto].
  Qed.
  Lemma alloc_ext g g' s key m : inv g s -> cbq_of m = [] -> g_wait g' = g_wait g -> ext [] g s g' (f_alloc s key m).
  Proof.
    intros Hi Hc E. pose proof (nxt_fresh _ _ Hi) as Hf. split; simpl; try done; try lia.
    - intros e He Hn. by rewrite lookup_insert_ne by lia.
    - intros e e1 e2 H1. rewrite lookup_insert_ne by congruence. intros ?. replace e2 with e1 by congruence. done.
    - by exists [].
    - intros w. unfold wtot; simpl. rewrite E. unfold nwait. rewrite msum_insert by done.
      assert (cnt w (el_waits (fresh_el key m)) = 0) as ->; [|lia]. unfold el_waits; simpl. by rewrite Hc.
  Qed.
  (** a settled element *)
  Lemma alloc_pin g s key m : inv g s -> m_pending m = false -> mode_ok k m ->
    allocate s key m = Ok (f_alloc s key m, m_nxt (me s)) /\ inv (pin (m_nxt (me s)) g) (f_alloc s key m) /\
    ext [] g s (pin (m_nxt (me s)) g) (f_alloc s key m).
  Proof.
    intros Hi Hp Hm. split_and!.
    - by eapply alloc_eq.
    - apply (alloc_gen g); try done; try apply Hi.
      + by destruct m.
      + intros x. simpl. rewrite cnt_cons. lia.
      + intros x Hx. by left.
      + congruence.
    - apply alloc_ext; try done. by destruct m.
  Qed.
  (** a pending one *)
  Lemma alloc_priv g s key : inv g s ->
    allocate s key (MPend pend_init) = Ok (f_alloc s key (MPend pend_init), m_nxt (me s)) /\
    inv (with_priv g (m_nxt (me s) :: g_priv g)) (f_alloc s key (MPend pend_init)) /\
    ext [] g s (with_priv g (m_nxt (me s) :: g_priv g)) (f_alloc s key (MPend pend_init)).
  Proof.
    intros Hi. split_and!.
    - by eapply alloc_eq.
    - apply (alloc_gen g); try done; try apply Hi.
      + intros x. simpl. rewrite cnt_cons. lia.
      + simpl. constructor; [|apply Hi]. intros Hx. apply (i_priv _ _ _ Hi) in Hx as (_ & el & Hel & _).
        rewrite (nxt_fresh _ _ Hi) in Hel. done.
      + intros x Hx. apply elem_of_cons in Hx as [->|?]; [right|left]; done.
      + intros x Hx. by right.
      + intros _. by left.
    - by apply alloc_ext.
  Qed.

  (** A private element gets its value; its reference becomes a plain one. *)
  Lemma inv_unpriv g P s x el el' :
    inv g s -> g_priv g = x :: P -> m_els (me s) !! x = Some el -> el_key el' = el_key el -> el_rc el' = el_rc el ->
    el_pending el' = false -> mode_ok k (el_map el') ->
    (forall i c, m_cbs (me s) !! i = Some c -> cb_el c = x -> cb_called c = false -> i ∈ g_act g) ->
    inv (pin x (with_priv g P)) (with_me s (wr_el (me s) x el')).
  Proof.
    intros Hi EP Hx Hk Hr Hnp Hm Hact.
    destruct (i_priv _ _ _ Hi x) as (HxL & el0 & Hel0 & Emap & _); [rewrite EP; by left|].
    assert (el0 = el) as -> by congruence. clear Hel0.
    pose proof (i_pnd _ _ _ Hi) as HP. rewrite EP in HP. apply NoDup_cons in HP as [HxP HP].
    assert (inv (pin x (with_priv g P)) (with_me s (wr_el (me s) x el')) ) as ?; [|done].
    dinv Hi. destruct g as [gp gx ga gw gv go]. unfold LT in *. simpl in *. subst gv.
    assert (forall e ee, <[x:=el']> (m_els (me s)) !! e = Some ee -> (e = x /\ ee = el') \/ (e <> x /\ m_els (me s) !! e = Some ee)) as Hcase.
    { intros e ee. destruct (decide (e = x)) as [->|]; [rewrite lookup_insert|rewrite lookup_insert_ne by done]; naive_solver. }
    assert (cbq_of (el_map el') = []) as Hc'. { unfold el_pending in Hnp. by destruct (el_map el'). }
    assert (forall e, nold (<[x:=el']> (m_els (me s))) e = nold (m_els (me s)) e) as Hno.
    { intros e. apply (nold_same _ x el); [done|]. unfold el_olds. by rewrite Hc', Emap. }
    assert (x ∉ a_dq (cs s)) as HxD. { intros Hd. by apply Hdq in Hd as [? _]. }
    split; unfold LT; simpl; try done.
    - intros e. rewrite Hdom. destruct (decide (e = x)) as [->|]; [rewrite lookup_insert, Hx; naive_solver|by rewrite lookup_insert_ne].
    - intros e He. rewrite lookup_insert_ne by (intros ->; done). auto.
    - intros e ee He Hee. destruct (Hcase _ _ Hee) as [[-> _]|[? ?]]; [done|eauto].
    - intros b B e ee Ht HB He Hee. destruct (Hcase _ _ Hee) as [[-> ->]|[? ?]]; [rewrite Hk|]; eauto.
    - intros e ee He Hee. destruct (Hcase _ _ Hee) as [[-> ->]|[? ?]]; [done|eauto].
    - intros e ee Hee. rewrite Hno, cnt_cons. destruct (Hcase _ _ Hee) as [[-> ->]|[? Hee']].
      + destruct (Hrc _ _ Hx) as [E ?]. rewrite cnt_cons in E. rewrite Hr. split; [lia|done].
      + destruct (Hrc _ _ Hee') as [E ?]. rewrite cnt_cons in E. split; [lia|done].
    - intros e He. rewrite Hno, cnt_cons. assert (x <> e) by (intros ->; by rewrite lookup_insert in He).
      rewrite lookup_insert_ne in He by done. specialize (Hrc0 _ He). rewrite cnt_cons in Hrc0. lia.
    - intros l ll n o Hl Hin. destruct (Hcase _ _ Hl) as [[-> ->]|[? Hl']].
      { rewrite Hc' in Hin. by apply elem_of_nil in Hin. }
      destruct (Href _ _ _ _ Hl' Hin) as (-> & Hno' & eo & Heo & Hnpo). split_and!; try done.
      destruct (decide (o = x)) as [->|]; [rewrite lookup_insert|rewrite lookup_insert_ne by done; eauto].
      exists el'. split; [done|]. unfold is_pend. congruence.
    - intros e ee Hee He. destruct (Hcase _ _ Hee) as [[-> ->]|[? ?]]; [done|eauto].
    - intros e ee Hee Hpe Hu. destruct (Hcase _ _ Hee) as [[-> ->]|[Hne ?]]; [unfold is_pend in Hpe; congruence|].
      destruct (Hpin _ _ H Hpe Hu) as [|Hin]; [by left|]. apply elem_of_cons in Hin as [?|?]; [done|by right].
    - intros e He. destruct (Hpriv e) as (Hn & ee & Hee & Eq); [by right|]. split; [done|]. exists ee.
      rewrite lookup_insert_ne by congruence. done.
    - intros i c Hc Hcall Hi'. destruct (Hcb i c Hc Hcall Hi') as (Hn & ee & Hee & Hpe). apply not_elem_of_cons in Hn as [Hn1 Hn2].
      split; [done|]. exists ee. by rewrite lookup_insert_ne.
    - intros e [ee Hee]. destruct (Hcase _ _ Hee) as [[-> ->]|[? ?]]; eauto.
    - intros e ee Hee. destruct (Hcase _ _ Hee) as [[-> ->]|[? ?]]; [done|eauto].
  Qed.

  (** ** Resolver callbacks *)
  Lemma ncbs_insert_new cbs i c e : cbs !! i = None -> ncbs (<[i := c]> cbs) e = (if decide (cb_el c = e) then 1 else 0) + ncbs cbs e.
  Proof. intros H. unfold ncbs. by rewrite msum_insert. Qed.
  Lemma ncbs_update cbs i c c' e : cbs !! i = Some c -> cb_el c' = cb_el c -> ncbs (<[i := c']> cbs) e = ncbs cbs e.
  Proof.
    intros H1 H2. pose proof (msum_update (fun c => if decide (cb_el c = e) then 1 else 0) cbs i c c' H1) as E.
    fold (ncbs (<[i:=c']> cbs) e) (ncbs cbs e) in E. cbv beta in E. rewrite H2 in E. lia.
  Qed.
  Lemma ncbs_delete cbs i c e : cbs !! i = Some c -> ncbs cbs e = (if decide (cb_el c = e) then 1 else 0) + ncbs (delete i cbs) e.
  Proof. intros H. exact (msum_delete (fun c => if decide (cb_el c = e) then 1 else 0) cbs i c H). Qed.

  Definition f_cbs (s : sta) (m : gmap N cbk) : sta := with_me s (set_cbs (me s) m).
  Lemma ext_cbs g g' s m : g_wait g' = g_wait g -> ext [] g s g' (f_cbs s m).
  Proof.
    intros E. split; simpl; try done; try lia.
    - naive_solver.
    - by exists [].
    - intros w. unfold wtot; simpl. rewrite E. lia.
  Qed.
  (** new: owned by [resolve] and (until it decides) the user *)
  Lemma cb_new g s e : inv (pin e g) s -> ncbs (m_cbs (me s)) e = 0 ->
    let i := m_ncb (me s) in
    let s' := with_me s (set_ncb (set_cbs (me s) (<[i := Cbk e false true true]> (m_cbs (me s)))) (N.succ i)) in
    inv (with_own (with_act g (i :: g_act g)) ((i, e) :: g_own g)) s' /\
    ext [] (pin e g) s (with_own (with_act g (i :: g_act g)) ((i, e) :: g_own g)) s'.
  Proof.
    intros Hi Hz i s'.
    assert (m_cbs (me s) !! i = None) as Hf. { apply eq_None_not_Some. intros Hs. apply (i_ncb _ _ _ Hi) in Hs. unfold i in *. lia. }
    split.
    - assert (forall j d, <[i:=Cbk e false true true]> (m_cbs (me s)) !! j = Some d -> (j = i /\ d = Cbk e false true true) \/ (j <> i /\ m_cbs (me s) !! j = Some d)) as Hcase.
      { intros j d. destruct (decide (j = i)) as [->|]; [rewrite lookup_insert|rewrite lookup_insert_ne by done]; naive_solver. }
      dinv Hi. destruct g as [gp gx ga gw gv go]. unfold LT in *. simpl in *. split; unfold LT; simpl; try done.
      + intros x el Hx. rewrite ncbs_insert_new by done. simpl. destruct (Hrc _ _ Hx) as [E ?]. rewrite cnt_cons in E. split; [lia|done].
      + intros x Hx. rewrite ncbs_insert_new by done. simpl. specialize (Hrc0 _ Hx). rewrite cnt_cons in Hrc0. lia.
      + intros j d Hj Hcall Hact. apply not_elem_of_cons in Hact as [Hne Hact]. destruct (Hcase _ _ Hj) as [[? _]|[_ Hj']]; [done|]. eauto.
      + intros j x Hin. apply elem_of_cons in Hin as [[= -> ->]|Hin].
        * eexists. rewrite lookup_insert. done.
        * destruct (Hown _ _ Hin) as (d & Hd & ?). exists d. rewrite lookup_insert_ne; [done|]. congruence.
      + intros j d Hj Hd. destruct (Hcase _ _ Hj) as [[-> ->]|[_ Hj']]; [by left|]. right. eauto.
      + pose proof (proj1 (ncbs_zero _ _) Hz) as Hz'.
        intros j1 j2 d1 d2 H1 H2. destruct (Hcase _ _ H1) as [[-> ->]|[? H1']], (Hcase _ _ H2) as [[-> ->]|[? H2']]; simpl; try done.
        * intros E. destruct (Hz' _ _ H2'). done.
        * intros E. destruct (Hz' _ _ H1'). done.
        * eauto.
      + intros j [d Hj]. destruct (Hcase _ _ Hj) as [[-> _]|[? H1']]; [unfold i; lia|].
        assert (j < m_ncb (me s))%N by eauto. unfold i. lia.
    - split; simpl; try done; try lia.
      + naive_solver.
      + by exists [].
      + intros w. unfold wtot; simpl. lia.
  Qed.
  (** flags of a callback *)
  Lemma cb_flags g g' s i c c' : inv g s -> m_cbs (me s) !! i = Some c -> cb_el c' = cb_el c ->
    g_pins g' = g_pins g -> g_xs g' = g_xs g -> g_priv g' = g_priv g ->
    (forall j, j ∈ g_act g -> j <> i -> j ∈ g_act g') ->
    (cb_called c' = false -> cb_called c = false /\ (i ∈ g_act g -> i ∈ g_act g')) ->
    (forall j e, (j, e) ∈ g_own g' -> (j, e) ∈ g_own g /\ (j = i -> cb_own c' = cb_own c)) ->
    (forall j e, (j, e) ∈ g_own g -> j <> i \/ cb_own c' = true -> (j, e) ∈ g_own g') -> (cb_own c' = true -> cb_own c = true) ->
    inv g' (f_cbs s (<[i := c']> (m_cbs (me s)))).
  Proof.
    intros Hi Hc E Ep Ex Ev Ha1 Ha2 Ho Hh1 Hh2.
    assert (forall j d, <[i:=c']> (m_cbs (me s)) !! j = Some d -> (j = i /\ d = c') \/ (j <> i /\ m_cbs (me s) !! j = Some d)) as Hcase.
    { intros j d. destruct (decide (j = i)) as [->|]; [rewrite lookup_insert|rewrite lookup_insert_ne by done]; naive_solver. }
    dinv Hi. destruct g as [gp gx ga gw gv go], g' as [gp' gx' ga' gw' gv' go']. unfold LT in *. simpl in *. subst gp' gx' gv'.
    split; unfold LT; simpl; try done.
    - intros e el. rewrite (ncbs_update _ _ c) by done. apply Hrc.
    - intros e. rewrite (ncbs_update _ _ c) by done. apply Hrc0.
    - intros j d Hj Hcall Hact. destruct (Hcase _ _ Hj) as [[-> ->]|[Hne Hj']].
      + destruct (Ha2 Hcall) as [Hcl Hai]. rewrite E. apply (Hcb _ _ Hc Hcl). auto.
      + eapply Hcb; eauto.
    - intros j e Hin. destruct (Ho _ _ Hin) as [Hin' Hd]. destruct (Hown _ _ Hin') as (d & Hd' & Hod & Hed).
      destruct (decide (j = i)) as [->|].
      + exists c'. rewrite lookup_insert. replace d with c in * by congruence. split; [done|]. split; [by rewrite Hd|congruence].
      + exists d. by rewrite lookup_insert_ne.
    - intros j d Hj Hd. destruct (Hcase _ _ Hj) as [[-> ->]|[Hne Hj']]; [rewrite E; apply Hh1; [auto|by right]|apply Hh1; [eauto|by left]].
    - intros j1 j2 d1 d2 H1 H2. destruct (Hcase _ _ H1) as [[-> ->]|[? H1']], (Hcase _ _ H2) as [[-> ->]|[? H2']]; try done; rewrite ?E; eauto.
    - intros j [d Hj]. destruct (Hcase _ _ Hj) as [[-> _]|[? H1']]; eauto.
  Qed.
  (** destroyed: its reference to the element is in the hands of the destructor *)
  Lemma cb_del g g' s i c : inv g s -> m_cbs (me s) !! i = Some c -> (forall e, (i, e) ∉ g_own g') ->
    g_pins g' = g_pins g -> g_xs g' = g_xs g -> g_priv g' = g_priv g -> g_act g' = g_act g ->
    (forall j e, (j, e) ∈ g_own g' -> (j, e) ∈ g_own g) -> (forall j e, (j, e) ∈ g_own g -> j <> i -> (j, e) ∈ g_own g') ->
    inv (pin (cb_el c) g') (f_cbs s (delete i (m_cbs (me s)))).
  Proof.
    intros Hi Hc Ho Ep Ex Ev Ea Ho1 Ho2. dinv Hi. destruct g as [gp gx ga gw gv go], g' as [gp' gx' ga' gw' gv' go']. unfold LT in *. simpl in *. subst gp' gx' gv' ga'.
    split; unfold LT; simpl; try done.
    - intros e el He. destruct (Hrc _ _ He) as [E ?]. rewrite (ncbs_delete _ _ _ _ Hc) in E. rewrite cnt_cons. split; [lia|done].
    - intros e He. specialize (Hrc0 _ He). rewrite (ncbs_delete _ _ _ _ Hc) in Hrc0. rewrite cnt_cons. lia.
    - intros j d. rewrite lookup_delete_Some. intros [? ?]. eauto.
    - intros j e Hin. destruct (Hown _ _ (Ho1 _ _ Hin)) as (d & Hd & ?). exists d. rewrite lookup_delete_ne; [done|]. intros ->. by apply (Ho e).
    - intros j d. rewrite lookup_delete_Some. intros [? ?] ?. eauto.
    - intros j1 j2 d1 d2. rewrite !lookup_delete_Some. intros [??] [??]. eauto.
    - intros j [d Hj]. apply lookup_delete_Some in Hj as [??]. eauto.
  Qed.
  (** ghost bookkeeping *)
  Lemma inv_ghost g g' s : inv g s -> g_pins g' = g_pins g -> g_xs g' = g_xs g -> g_priv g' = g_priv g ->
    (forall i c, i ∈ g_act g -> m_cbs (me s) !! i = Some c -> cb_called c = false -> i ∉ g_act g' ->
       cb_el c ∉ g_priv g /\ exists el, m_els (me s) !! cb_el c = Some el /\ is_pend el) ->
    g_own g' = g_own g -> inv g' s.
  Proof.
    intros Hi Ep Ex Ev Ha Ho. dinv Hi. destruct g as [gp gx ga gw gv go], g' as [gp' gx' ga' gw' gv' go']. unfold LT in *. simpl in *. subst gp' gx' gv' go'.
    split; unfold LT; simpl; try done.
    - intros i c Hc Hcall Hact. destruct (decide (i ∈ ga)); eauto.
  Qed.
  Lemma inv_pins g s P : inv g s -> (forall e, cnt e P = cnt e (g_pins g)) -> inv (with_pins g P) s.
  Proof.
    intros Hi HP. dinv Hi. destruct g as [gp gx ga gw gv go]. unfold LT in *. simpl in *.
    split; unfold LT; simpl; try done.
    - intros e el. rewrite HP. apply Hrc.
    - intros e. rewrite HP. apply Hrc0.
  Qed.

  (** ** The rest of the memory *)
  Lemma inv_mem g s m : inv g s -> m_els m = m_els (me s) -> m_nxt m = m_nxt (me s) -> m_cbs m = m_cbs (me s) ->
    m_ncb m = m_ncb (me s) -> m_up m = m_up (me s) -> inv g (with_me s m).
  Proof. intros Hi E1 E2 E3 E4 E5. dinv Hi. split; simpl; rewrite ?E1, ?E2, ?E3, ?E4, ?E5; done. Qed.
  Lemma inv_log g s v : inv g s -> inv g (s_log s v).
  Proof. intros. by apply inv_mem. Qed.
  Lemma ext_log W g g' s v : (forall w, cnt w (g_wait g) <= ev_done w v + cnt w (g_wait g') <= cnt w (g_wait g) + cnt w W) ->
    ext W g s g' (s_log s v).
  Proof.
    intros E. split; simpl; try done; try lia.
    - naive_solver.
    - by exists [v].
    - intros w. unfold wtot; simpl. specialize (E w). lia.
  Qed.
  Lemma inv_give g s v : inv g s -> inv g (give k s v).
  Proof. intros Hi. unfold give. destruct (k_pointer k); [|done]. by apply inv_mem. Qed.
  Lemma ext_give g s v : ext [] g s g (give k s v).
  Proof.
    unfold give. destruct (k_pointer k); [|apply ext_refl].
    split; simpl; try done; try lia; [naive_solver|by exists []|intros w; unfold wtot; simpl; lia].
  Qed.
End prim.
