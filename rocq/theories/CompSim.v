(** The pointer-level containers simulate the list-level ones, operation by operation. *)
From Verif Require Import Base LinkedList Queue BasicHashtable LinkedListProofs AQueue QueueProofs ATable
  BasicHashtableProofs Mapped Cache CachePtr CacheAbs.

(** The second computation does whatever the first does, unless the first is [UB]/[Fuel]. *)
Definition rsim {A B} (R : A -> B -> Prop) (ma : res A) (mc : res B) : Prop :=
  match ma with
  | Ok a => exists b, mc = Ok b /\ R a b
  | Term => mc = Term
  | _ => True
  end.

Lemma rsim_ok {A B} (R : A -> B -> Prop) a b : R a b -> rsim R (Ok a) (Ok b).
Proof. intros H. exists b. done. Qed.
Lemma rsim_bind {A A' B B'} (R : A -> A' -> Prop) (R2 : B -> B' -> Prop) m m' f f' :
  rsim R m m' -> (forall a a', R a a' -> rsim R2 (f a) (f' a')) -> rsim R2 (rbind m f) (rbind m' f').
Proof.
  intros H1 H2. destruct m as [a| | |]; simpl in *; try done.
  - destruct H1 as (b & -> & HR). simpl. by apply H2.
  - by rewrite H1.
Qed.
Lemma rsim_refl {A} (m : res A) : rsim eq m m.
Proof. destruct m; simpl; eauto. Qed.
Lemma rsim_eq_bind {A B B'} (R2 : B -> B' -> Prop) (m : res A) f f' :
  (forall a, rsim R2 (f a) (f' a)) -> rsim R2 (rbind m f) (rbind m f').
Proof. intros H. eapply rsim_bind; [apply rsim_refl|]. intros a a' <-. apply H. Qed.

Record comp_sim (A C : comp) (R : ccs A -> ccs C -> Prop) : Prop := {
  sim_init : R (c_init A) (c_init C);
  sim_alloc a c e : R a c -> rsim R (c_alloc A a e) (c_alloc C c e);
  sim_free a c e : R a c -> rsim R (c_free A a e) (c_free C c e);
  sim_size a c : R a c -> c_size C c = c_size A a;
  sim_bcount a c : R a c -> c_bcount C c = c_bcount A a;
  sim_hashof a c e : R a c -> rsim eq (c_hashof A a e) (c_hashof C c e);
  sim_bucket_for a c x : R a c -> c_bucket_for C c x = c_bucket_for A a x;
  sim_before_begin a c i : R a c -> rsim eq (c_before_begin A a i) (c_before_begin C c i);
  sim_before_end a c i : R a c -> rsim eq (c_before_end A a i) (c_before_end C c i);
  sim_before_begin_all a c : R a c -> c_before_begin_all C c = c_before_begin_all A a;
  sim_before_end_all a c : R a c -> rsim eq (c_before_end_all A a) (c_before_end_all C c);
  sim_next a c s : R a c -> rsim eq (c_next A a s) (c_next C c s);
  sim_unlink a c s : R a c ->
    rsim (fun x y => R x.1 y.1 /\ x.2 = y.2) (c_unlink A a s) (c_unlink C c s);
  sim_link a c x e : R a c -> rsim R (c_link A a x e) (c_link C c x e);
  sim_rehash a c n : R a c -> rsim R (c_rehash A a n) (c_rehash C c n);
  sim_pop a c : R a c ->
    rsim (fun x y => match x, y with
                     | None, None => True
                     | Some p, Some q => R p.1 q.1 /\ p.2 = q.2
                     | _, _ => False end) (c_pop A a) (c_pop C c);
  sim_qcreate a c e : R a c ->
    rsim (fun x y => R x.1 y.1 /\ x.2 = y.2) (c_qcreate A a e) (c_qcreate C c e);
  sim_qhit a c e : R a c -> rsim R (c_qhit A a e) (c_qhit C c e);
  sim_qunlink a c e : R a c -> rsim R (c_qunlink A a e) (c_qunlink C c e);
  sim_victims a c n : R a c -> rsim eq (c_victims A a n) (c_victims C c n);
  sim_dlink a c e : R a c -> rsim R (c_dlink A a e) (c_dlink C c e);
  sim_dlinked a c e : R a c -> rsim eq (c_dlinked A a e) (c_dlinked C c e);
  sim_dunlink a c e : R a c -> rsim R (c_dunlink A a e) (c_dunlink C c e);
  sim_dfront a c : R a c -> rsim eq (c_dfront A a) (c_dfront C c)
}.

(** * The relation *)
Definition trel (t : table) (h : eheap) (a : acs) : Prop :=
  match a_torn a with
  | None => trep t h (a_bs a)
  | Some r => chain (e_succ h) (t_head t) r /\ NoDup r /\
      t_size t = length (concat (a_bs a)) /\ bucket_count t = length (a_bs a)
  end.
Record crel (a : acs) (c : pcs) : Prop := {
  cr_id : t_id (p_t c) = 0%N;
  cr_tab : trel (p_t c) (p_h c) a;
  cr_hash : e_hash (p_h c) = a_hash a;
  cr_dom e : e_has (p_h c) e <-> is_Some (a_hash a !! e);
  cr_q : qrep (p_q c) (a_q a);
  cr_qdom e : q_has (p_q c) e <-> is_Some (a_hash a !! e);
  cr_d : lwf (p_d c) (a_dq a);
  cr_ddom e : is_Some (p_d c !! ElemL e) <-> is_Some (a_hash a !! e)
}.

Lemma need_sim {A B} (P : Prop) `{Decision P} (R : A -> B -> Prop) (m : res A) (m' : res B) :
  (P -> rsim R m m') -> rsim R (need P m) m'.
Proof. intros HP. unfold need. case_decide; [by apply HP|done]. Qed.

Lemma l_slot_last L : l_slot L = last_slot 0 L.
Proof. done. Qed.
Lemma a_split_Some L s L1 L2 : a_split L s = Some (L1, L2) -> L = L1 ++ L2 /\ s = last_slot 0 L1.
Proof.
  unfold a_split. destruct s as [i|e].
  - case_bool_decide; [|done]. subst. by intros [= <- <-].
  - destruct (list_find _ L) as [[n x]|] eqn:E; [|done]. intros [= <- <-].
    apply list_find_Some in E as (Hn & -> & _). rewrite take_drop. split; [done|].
    rewrite (take_S_r _ _ _ Hn). by rewrite last_slot_snoc.
Qed.
Lemma a_split_at L1 L2 : NoDup (L1 ++ L2) -> a_split (L1 ++ L2) (last_slot 0 L1) = Some (L1, L2).
Proof.
  intros Hnd. destruct L1 as [|e L1 _] using rev_ind; [done|].
  rewrite last_slot_snoc. unfold a_split.
  assert (list_find (fun x => x = e) ((L1 ++ [e]) ++ L2) = Some (length L1, e)) as ->.
  { apply list_find_Some. split_and!; [|done|].
    - rewrite <-app_assoc. by apply list_lookup_middle.
    - intros j y Hy Hj ->. rewrite <-app_assoc in Hy, Hnd. rewrite lookup_app_l in Hy by done.
      apply elem_of_list_lookup_2 in Hy. apply NoDup_app in Hnd as (_ & Hd & _).
      apply (Hd e Hy). left. }
  assert (length (L1 ++ [e]) = S (length L1)) as El by (rewrite app_length; simpl; lia).
  rewrite <-El, take_app, drop_app. done.
Qed.

Lemma lwf_alloc d L e : lwf d L -> d !! ElemL e = None -> lwf (<[ElemL e := link_null]> d) L.
Proof.
  intros [Hr Hu] He.
  assert (e ∉ L) as Hn.
  { intros Hin. destruct (lrep_in_dom _ _ _ _ Hr Hin) as [? E]. congruence. }
  split.
  - eapply lrep_frame; [| |exact Hr].
    + rewrite lookup_insert_ne; done.
    + intros x Hx. rewrite lookup_insert_ne; [done|]. intros [= ->]. done.
  - intros x k. destruct (decide (x = e)) as [->|]; [rewrite lookup_insert; by intros [= <-]|].
    rewrite lookup_insert_ne by congruence. eauto.
Qed.
Lemma lwf_free d L e : lwf d L -> e ∉ L -> lwf (delete (ElemL e) d) L.
Proof.
  intros [Hr Hu] He. split.
  - eapply lrep_frame; [| |exact Hr].
    + rewrite lookup_delete_ne; done.
    + intros x Hx. rewrite lookup_delete_ne; [done|]. intros [= ->]. done.
  - intros x k. destruct (decide (x = e)) as [->|]; [by rewrite lookup_delete|].
    rewrite lookup_delete_ne by congruence. eauto.
Qed.

Section sim.
  Ltac cr H := destruct H as [Hid Htab Hha Hdo Hq Hqd Hd Hdd].

  Lemma crel_bcount a c : crel a c -> bucket_count (p_t c) = length (a_bs a).
  Proof.
    intros Hc. cr Hc. unfold trel in Htab. destruct (a_torn a); [by destruct Htab as (_&_&_&?)|].
    eapply tr_count, Htab.
  Qed.
  Lemma crel_tab a c : crel a c -> a_torn a = None -> trep (p_t c) (p_h c) (a_bs a).
  Proof. intros Hc E. cr Hc. unfold trel in Htab. by rewrite E in Htab. Qed.

  Lemma p_alloc a c e : crel a c -> rsim crel (c_alloc comp_abs a e) (c_alloc comp_ptr c e).
  Proof.
    intros Hc. apply need_sim. intros Hn. apply rsim_ok. cr Hc.
    assert (~ is_Some (a_hash a !! e)) as Hns by (rewrite Hn; by intros [? ?]).
    split; simpl; try done.
    - unfold trel in *; simpl. destruct (a_torn a) as [r|] eqn:Et.
      + destruct Htab as (Hch & Hnd & Hs & Hb). split_and!; try done.
        eapply chain_frame; [|exact Hch]. intros x Hx. rewrite lookup_insert_ne; [done|].
        intros <-. apply Hns, Hdo. eapply chain_dom; done.
      + apply e_alloc_rep; [done|]. by rewrite Hdo.
    - by rewrite Hha.
    - intros x. unfold e_has; simpl. destruct (decide (x = e)) as [->|]; [by rewrite !lookup_insert; split; eauto|].
      rewrite !lookup_insert_ne by done. apply Hdo.
    - apply q_alloc_rep; [done|]. by rewrite Hqd.
    - intros x. unfold q_has; simpl. destruct (decide (x = e)) as [->|]; [by rewrite !lookup_insert; split; eauto|].
      rewrite !lookup_insert_ne by congruence. apply Hqd.
    - apply lwf_alloc; [done|]. apply eq_None_not_Some. by rewrite Hdd.
    - intros x. destruct (decide (x = e)) as [->|]; [by rewrite !lookup_insert; split; eauto|].
      rewrite !lookup_insert_ne by congruence. apply Hdd.
  Qed.
  Lemma p_free a c e : crel a c -> rsim crel (c_free comp_abs a e) (c_free comp_ptr c e).
  Proof.
    intros Hc. apply need_sim. intros (Ht & Hqn & Hdn). apply rsim_ok. cr Hc. unfold a_tab in Ht.
    split; simpl; try done.
    - unfold trel in *; simpl. destruct (a_torn a) as [r|] eqn:Et; simpl in *.
      + destruct Htab as (Hch & Hnd & Hs & Hb). split_and!; try done.
        eapply chain_frame; [|exact Hch]. intros x Hx. rewrite lookup_delete_ne; [done|].
        by intros <-.
      + by apply e_free_rep.
    - by rewrite Hha.
    - intros x. unfold e_has; simpl. destruct (decide (x = e)) as [->|].
      + rewrite !lookup_delete. split; by intros [? ?].
      + rewrite !lookup_delete_ne by done. apply Hdo.
    - by apply q_free_rep.
    - intros x. unfold q_has; simpl. destruct (decide (x = e)) as [->|].
      + rewrite !lookup_delete. split; by intros [? ?].
      + rewrite !lookup_delete_ne by congruence. apply Hqd.
    - by apply lwf_free.
    - intros x. destruct (decide (x = e)) as [->|].
      + rewrite !lookup_delete. split; by intros [? ?].
      + rewrite !lookup_delete_ne by congruence. apply Hdd.
  Qed.
  Lemma p_before_begin a c i : crel a c -> rsim eq (c_before_begin comp_abs a i) (c_before_begin comp_ptr c i).
  Proof.
    intros Hc. apply need_sim. intros [Et Hi]. pose proof (crel_tab _ _ Hc Et) as [Hr _]. cr Hc.
    simpl. eexists. split; [|done].
    rewrite <-(take_drop i (a_bs a)) in Hr. apply before_begin_ok in Hr.
    rewrite take_length_le in Hr by done. by rewrite Hr, Hid.
  Qed.
  Lemma p_before_end a c i : crel a c -> rsim eq (c_before_end comp_abs a i) (c_before_end comp_ptr c i).
  Proof.
    intros Hc. apply need_sim. intros [Et Hi]. pose proof (crel_tab _ _ Hc Et) as [Hr _].
    pose proof (crel_bcount _ _ Hc) as Hbc. cr Hc. simpl. eexists. split; [|done].
    destruct Hi as [E|Hi].
    - rewrite E in *. unfold before_end. rewrite Hbc. simpl. rewrite Hid. done.
    - destruct (lookup_lt_is_Some_2 _ _ Hi) as [B HB].
      rewrite <-(take_drop_middle _ _ _ HB) in Hr. apply before_end_ok in Hr.
      rewrite take_length_le in Hr by lia. rewrite Hr, Hid.
      rewrite (take_S_r _ _ _ HB), concat_app. simpl. by rewrite app_nil_r.
  Qed.
  Lemma p_before_end_all a c : crel a c -> rsim eq (c_before_end_all comp_abs a) (c_before_end_all comp_ptr c).
  Proof.
    intros Hc. apply need_sim. intros Et. pose proof (crel_tab _ _ Hc Et) as [Hr _]. cr Hc.
    simpl. eexists. split; [|done]. rewrite (before_end_all_ok _ _ _ Hr). by rewrite Hid.
  Qed.
  Lemma p_next a c s : crel a c -> rsim eq (c_next comp_abs a s) (c_next comp_ptr c s).
  Proof.
    intros Hc. apply need_sim. intros Et. pose proof (crel_tab _ _ Hc Et) as [Hr _]. cr Hc.
    destruct (a_split (concat (a_bs a)) s) as [[L1 L2]|] eqn:E; [|done].
    apply a_split_Some in E as [E ->]. simpl. eexists. split; [|done].
    rewrite <-Hid. by apply (rd_last_slot _ _ (a_bs a)).
  Qed.
  Lemma p_unlink a c s : crel a c ->
    rsim (fun x y => crel x.1 y.1 /\ x.2 = y.2) (c_unlink comp_abs a s) (c_unlink comp_ptr c s).
  Proof.
    intros Hc. apply need_sim. intros Et. pose proof (crel_tab _ _ Hc Et) as Hr. cr Hc.
    destruct (a_split (concat (a_bs a)) s) as [[L1 [|e L2]]|] eqn:E; try done.
    apply a_split_Some in E as [E ->].
    destruct (at_unlink_ok _ _ _ _ _ _ Hr E) as (t' & h' & Hu & Hr' & _ & Hid' & Hh' & Hdo' & _ & _).
    rewrite Hid in Hu. simpl. rewrite Hu. simpl. eexists. split; [done|]. split; [|done].
    split; simpl; try done.
    - congruence.
    - unfold trel; simpl. by rewrite Et.
    - congruence.
    - intros x. rewrite Hdo'. apply Hdo.
  Qed.
  Lemma p_link a c x e : crel a c -> rsim crel (c_link comp_abs a x e) (c_link comp_ptr c x e).
  Proof.
    intros Hc. apply need_sim. intros (Et & Hne & Hin & Hni). pose proof (crel_tab _ _ Hc Et) as Hr. cr Hc.
    destruct (ht_link_ok _ _ _ x e Hr Hne Hni) as (t' & h' & s & Hl & Hr' & Hid' & Hh' & Hdo' & _).
    { by apply Hdo. }
    simpl. rewrite Hl. simpl. eexists. split; [done|]. 
    assert (forall y, is_Some (a_hash a !! y) <-> is_Some (<[e:=x]> (a_hash a) !! y)) as Hd2.
    { intros y. destruct (decide (y = e)) as [->|]; [|by rewrite lookup_insert_ne by done].
      rewrite lookup_insert. split; eauto. }
    split; simpl; try done.
    - congruence.
    - unfold trel; simpl. by rewrite Et.
    - congruence.
    - intros y. rewrite Hdo', Hdo. apply Hd2.
    - intros y. rewrite Hqd. apply Hd2.
    - intros y. rewrite Hdd. apply Hd2.
  Qed.
  Lemma p_rehash a c n : crel a c -> rsim crel (c_rehash comp_abs a n) (c_rehash comp_ptr c n).
  Proof.
    intros Hc. apply need_sim. intros (Et & Hn). pose proof (crel_tab _ _ Hc Et) as Hr. cr Hc.
    destruct (ht_rehash_ok (fun e => default 0%N (a_hash a !! e)) _ _ _ n Hr Hn) as (t' & h' & Hl & Hr' & Hid' & Hh' & Hdo' & _).
    { intros e He. rewrite Hha. assert (is_Some (a_hash a !! e)) as [z Hz]; [|by rewrite Hz].
      apply Hdo. eapply trep0_elem_dom; [apply Hr|done]. }
    simpl. rewrite Hl. simpl. eexists. split; [done|].
    split; simpl; try done.
    - congruence.
    - unfold trel; simpl. by rewrite Et.
    - congruence.
    - intros y. rewrite Hdo'. apply Hdo.
  Qed.
  Lemma p_pop a c : crel a c ->
    rsim (fun x y => match x, y with
                     | None, None => True
                     | Some p, Some q => crel p.1 q.1 /\ p.2 = q.2
                     | _, _ => False end) (c_pop comp_abs a) (c_pop comp_ptr c).
  Proof.
    intros Hc. pose proof (crel_bcount _ _ Hc) as Hbc. cr Hc.
    assert (chain (e_succ (p_h c)) (t_head (p_t c)) (a_tab a) /\ NoDup (a_tab a) /\ t_size (p_t c) = length (concat (a_bs a))) as (Hch & Hnd & Hsz).
    { unfold trel in Htab. unfold a_tab. destruct (a_torn a); simpl; [naive_solver|].
      destruct Htab as [[] ?]. done. }
    simpl. unfold ht_pop. destruct (a_tab a) as [|e r] eqn:El; simpl in Hch.
    - rewrite Hch. simpl. by exists None.
    - destruct Hch as (-> & s & Hs & Hch). unfold wr_succ. rewrite Hs. simpl. eexists. split; [done|]. simpl.
      apply NoDup_cons in Hnd as [Hnr Hnd].
      split; [|done]. split; simpl; try done.
      + unfold trel; simpl. split_and!; try done.
        eapply chain_frame; [|exact Hch]. intros x Hx. rewrite lookup_insert_ne; [done|]. by intros <-.
      + intros x. rewrite <-Hdo. unfold e_has; simpl. destruct (decide (x = e)) as [->|]; [|by rewrite lookup_insert_ne].
        rewrite lookup_insert, Hs. split; eauto.
  Qed.
  Lemma p_dlink a c e : crel a c -> rsim crel (c_dlink comp_abs a e) (c_dlink comp_ptr c e).
  Proof.
    intros Hc. apply need_sim. intros (Hn & Hin). cr Hc. destruct Hd as [Hr Hu].
    destruct (link_back_ok _ _ _ e Hr Hn) as (h' & Hl & Hr' & Hdm & Hf & _).
    { by apply Hdd. }
    simpl. rewrite Hl. simpl. eexists. split; [done|]. split; simpl; try done.
    - split; [done|]. intros x k Hk Hx.
      assert (x ∉ e :: a_dq a) as Hx'.
      { intros Hi. apply Hx. apply elem_of_app. apply elem_of_cons in Hi as [->|?]; [right; left|by left]. }
      rewrite Hf in Hk by done. eapply Hu; [done|]. intros ?. apply Hx'. by right.
    - intros x. rewrite <-Hdd. by apply dom_links_eq.
  Qed.
  Lemma p_dunlink a c e : crel a c -> rsim crel (c_dunlink comp_abs a e) (c_dunlink comp_ptr c e).
  Proof.
    intros Hc. apply need_sim. intros Hin. cr Hc. destruct Hd as [Hr Hu].
    pose proof Hin as Hin'. apply elem_of_list_split in Hin' as (L1 & L2 & E). rewrite E in Hr.
    destruct (unlink_ok _ _ _ _ _ Hr) as (h' & Hl & Hr' & Hdm & Hn & Hf & _).
    assert (rm e (a_dq a) = L1 ++ L2) as Erm.
    { rewrite E. destruct Hr as [Hnd _]. apply NoDup_app in Hnd as (_ & Hd1 & Hnd). apply NoDup_cons in Hnd as [Hd2 _].
      apply rm_split; [|done]. intros Hi. apply (Hd1 e Hi). left. }
    simpl. rewrite Hl. simpl. eexists. split; [done|]. split; simpl; try done.
    - rewrite Erm. split; [done|]. intros x k Hk Hx. destruct (decide (x = e)) as [->|Hne]; [congruence|].
      assert (x ∉ L1 ++ e :: L2) as Hx'.
      { rewrite elem_of_app, elem_of_cons in *. naive_solver. }
      rewrite Hf in Hk by done. eapply Hu; [done|]. by rewrite E.
    - intros x. rewrite <-Hdd. by apply dom_links_eq.
  Qed.

  Theorem comp_ptr_sim : comp_sim comp_abs comp_ptr crel.
  Proof.
    split.
    - split; simpl; try done.
      + apply table_init_rep.
      + intros e. unfold e_has; simpl. rewrite !lookup_empty; split; by intros [? ?].
      + apply queue_init_rep.
      + intros e. unfold q_has, queue_init, list_init; simpl. rewrite lookup_insert_ne by done. rewrite !lookup_empty; split; by intros [? ?].
      + split; [apply list_init_rep|]. intros e k. unfold list_init. rewrite lookup_insert_ne by done. by rewrite lookup_empty.
      + intros e. unfold list_init. rewrite lookup_insert_ne by done. rewrite !lookup_empty; split; by intros [? ?].
    - apply p_alloc.
    - apply p_free.
    - intros a c Hc. cr Hc. simpl. unfold trel in Htab. destruct (a_torn a); [naive_solver|]. apply Htab.
    - intros a c Hc. by apply crel_bcount.
    - intros a c e Hc. cr Hc. simpl. rewrite Hha. apply rsim_refl.
    - intros a c x Hc. simpl. rewrite bucket_for_bidx. by rewrite (crel_bcount _ _ Hc).
    - apply p_before_begin.
    - apply p_before_end.
    - intros a c Hc. cr Hc. simpl. unfold before_begin_all. by rewrite Hid.
    - apply p_before_end_all.
    - apply p_next.
    - apply p_unlink.
    - apply p_link.
    - apply p_rehash.
    - apply p_pop.
    - intros a c e Hc. apply need_sim. intros [Hn Hin]. cr Hc.
      destruct (on_create_ok _ _ e Hq Hn) as (q' & Hl & Hq' & Hd'). { by apply Hqd. }
      simpl. rewrite Hl. simpl. eexists. split; [done|]. split; [|done].
      split; simpl; try done. intros x. by rewrite Hd'.
    - intros a c e Hc. apply need_sim. intros Hin. cr Hc.
      destruct (on_hit_ok _ _ e Hq Hin) as (q' & Hl & Hq' & Hd').
      simpl. rewrite Hl. simpl. eexists. split; [done|].
      split; simpl; try done. intros x. by rewrite Hd'.
    - intros a c e Hc. apply need_sim. intros Hin. cr Hc.
      destruct (on_unlink_ok _ _ e Hq Hin) as (q' & Hl & Hq' & Hd').
      simpl. rewrite Hl. simpl. eexists. split; [done|].
      split; simpl; try done. intros x. by rewrite Hd'.
    - intros a c n Hc. cr Hc. simpl. rewrite (lru_expire_ok _ _ _ Hq). eauto.
    - apply p_dlink.
    - intros a c e Hc. apply need_sim. intros Hin. cr Hc. simpl. rewrite (is_linked_ok _ _ _ Hd); [eauto|].
      by apply Hdd.
    - apply p_dunlink.
    - intros a c Hc. cr Hc. simpl. rewrite (begin_ok _ _ _ (proj1 Hd)). simpl. eexists. split; [done|].
      unfold first_loc. by destruct (a_dq a).
  Qed.
End sim.
