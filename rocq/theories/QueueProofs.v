(** The pointer-level LRU queue refines the list specification. *)
From Verif Require Import Base LinkedList LinkedListProofs Queue AQueue.

Lemma rm_notin v l : v ∉ l -> rm v l = l.
Proof.
  unfold rm. induction l as [|x l IH]; intros Hv; [done|].
  rewrite filter_cons_True by set_solver. f_equal. apply IH. set_solver.
Qed.
Lemma rm_app v l1 l2 : rm v (l1 ++ l2) = rm v l1 ++ rm v l2.
Proof. apply filter_app. Qed.
Lemma rm_cons_eq v l : rm v (v :: l) = rm v l.
Proof. unfold rm. by rewrite filter_cons_False by tauto. Qed.
Lemma rm_split v l1 l2 : v ∉ l1 -> v ∉ l2 -> rm v (l1 ++ v :: l2) = l1 ++ l2.
Proof. intros. by rewrite rm_app, rm_cons_eq, !rm_notin. Qed.
Lemma elem_of_rm v x l : x ∈ rm v l <-> x <> v /\ x ∈ l.
Proof. unfold rm. by rewrite elem_of_list_filter. Qed.
Lemma rm_perm v l : NoDup l -> v ∈ l -> l ≡ₚ v :: rm v l.
Proof.
  intros Hnd (l1 & l2 & ->)%elem_of_list_split. apply NoDup_app in Hnd as (?&?&Hnd).
  apply NoDup_cons in Hnd as [??]. rewrite rm_split by set_solver. by rewrite Permutation_middle.
Qed.
Lemma rm_nodup v l : NoDup l -> NoDup (rm v l).
Proof. intros. by apply NoDup_filter. Qed.

Lemma removelast_snoc {A} (l : list A) x : removelast (l ++ [x]) = l.
Proof. apply removelast_last. Qed.
Lemma last_split {A} (l : list A) x : last l = Some x -> l = removelast l ++ [x].
Proof.
  destruct l as [|y l _] using rev_ind; [done|]. rewrite last_snoc, removelast_snoc. by intros [= ->].
Qed.

(** The refinement relation. *)
Record qrep (q : queue) (a : list N * list N) : Prop := {
  qr_l : lwf (q_links q) (aq_elems a);
  qr_mid : q_mid q = first_loc 0 a.2;
  qr_bal : aq_balanced a;
  qr_odd : q_odd q = aq_odd a;
  qr_hot : forall e, e ∈ a.1 -> q_hot q !! e = Some (Some true);
  qr_cold : forall e, e ∈ a.2 -> q_hot q !! e = Some (Some false);
  qr_dom : forall e, is_Some (q_links q !! ElemL e) <-> is_Some (q_hot q !! e)
}.

Lemma queue_init_rep : qrep queue_init ([], []).
Proof.
  split; try done.
  - split; [apply list_init_rep|]. intros e k Hk. unfold queue_init, list_init in Hk. simpl in Hk.
    rewrite lookup_insert_ne in Hk by done. by rewrite lookup_empty in Hk.
  - by left.
  - intros e; simpl. by inversion 1.
  - intros e; simpl. by inversion 1.
  - intros e. unfold queue_init, list_init; simpl. rewrite lookup_insert_ne by done. rewrite !lookup_empty. split; by intros [? ?].
Qed.

Definition q_has (q : queue) (e : N) : Prop := is_Some (q_links q !! ElemL e).

Lemma q_alloc_rep q a e : qrep q a -> ~ q_has q e -> qrep (q_alloc q e) a.
Proof.
  intros [[Hl Hu] Hm Hb Ho Hh Hc Hd] He. unfold q_has in He.
  assert (e ∉ aq_elems a) as Hna.
  { intros Hin. apply He. by eapply lrep_in_dom. }
  split; simpl; try done.
  - split.
    + eapply lrep_frame; [| |exact Hl].
      * by rewrite lookup_insert_ne.
      * intros x Hx. rewrite lookup_insert_ne; [done|]. set_solver.
    + intros x k. destruct (decide (x = e)) as [->|Hne].
      * rewrite lookup_insert. naive_solver.
      * rewrite lookup_insert_ne by naive_solver. by apply Hu.
  - intros x Hx. rewrite lookup_insert_ne; [auto|]. unfold aq_elems in Hna. set_solver.
  - intros x Hx. rewrite lookup_insert_ne; [auto|]. unfold aq_elems in Hna. set_solver.
  - intros x. destruct (decide (x = e)) as [->|Hne].
    + by rewrite !lookup_insert.
    + rewrite !lookup_insert_ne by naive_solver. apply Hd.
Qed.

Lemma q_free_rep q a e : qrep q a -> e ∉ aq_elems a -> qrep (q_free q e) a.
Proof.
  intros [[Hl Hu] Hm Hb Ho Hh Hc Hd] Hna.
  split; simpl; try done.
  - split.
    + eapply lrep_frame; [| |exact Hl].
      * by rewrite lookup_delete_ne.
      * intros x Hx. rewrite lookup_delete_ne; [done|]. set_solver.
    + intros x k. destruct (decide (x = e)) as [->|Hne].
      * by rewrite lookup_delete.
      * rewrite lookup_delete_ne by naive_solver. by apply Hu.
  - intros x Hx. rewrite lookup_delete_ne; [auto|]. unfold aq_elems in Hna. set_solver.
  - intros x Hx. rewrite lookup_delete_ne; [auto|]. unfold aq_elems in Hna. set_solver.
  - intros x. destruct (decide (x = e)) as [->|Hne].
    + rewrite !lookup_delete. split; by intros [? ?].
    + rewrite !lookup_delete_ne by naive_solver. apply Hd.
Qed.

Lemma set_hot_ok q e b : is_Some (q_hot q !! e) ->
  set_hot q (ElemL e) b = Ok (MkQueue (q_links q) (<[e := Some b]> (q_hot q)) (q_mid q) (q_odd q)).
Proof. intros [? H]. simpl. by rewrite H. Qed.
Lemma get_hot_ok q e b : q_hot q !! e = Some (Some b) -> get_hot q (ElemL e) = Ok b.
Proof. simpl. by intros ->. Qed.

Lemma dom_links_eq (h h' : gmap (N + N) link) : dom h' = dom h ->
  forall l, is_Some (h' !! l) <-> is_Some (h !! l).
Proof. intros E l. by rewrite <-!elem_of_dom, E. Qed.

Lemma hot_insert_some (m : gmap N (option bool)) e b x : is_Some (m !! e) ->
  is_Some (<[e := b]> m !! x) <-> is_Some (m !! x).
Proof. intros. destruct (decide (x = e)) as [->|]; [rewrite lookup_insert; naive_solver|by rewrite lookup_insert_ne]. Qed.

(** [set_solver] without the heap facts in the context *)
Ltac fset :=
  repeat match goal with
  | H : lrep _ _ _ |- _ => clear H
  | H : lwf _ _ |- _ => clear H
  | H : qrep _ _ |- _ => clear H
  | H : context [@lookup _ _ _ _ _ _] |- _ => clear H
  | H : _ = Ok _ |- _ => clear H
  | H : @eq (N + N) _ _ |- _ => clear H
  | H : @eq bool _ _ |- _ => clear H
  | H : aq_balanced _ |- _ => clear H
  | H : dom _ = dom _ |- _ => clear H
  | H : pd _ _ = _ |- _ => clear H
  | H : sc _ _ = _ |- _ => clear H
  end; set_solver.
Ltac hot_tac := repeat first [rewrite lookup_insert | rewrite lookup_insert_ne by fset]; auto.

Lemma on_create_ok q a v :
  qrep q a -> v ∉ aq_elems a -> q_has q v ->
  exists q', on_create q v = Ok (q', (aq_create a v).2) /\ qrep q' (aq_create a v).1 /\
    (forall e, q_has q' e <-> q_has q e).
Proof.
  intros [[Hl Hu] Hm Hb Ho Hh Hc Hd] Hna Hv. destruct a as [H C]. unfold aq_elems in *; simpl in *.
  assert (is_Some (q_hot q !! v)) as Hvh by by apply Hd.
  unfold on_create. rewrite set_hot_ok by done. cbn [rbind q_odd q_mid q_links].
  unfold aq_create; cbn [fst snd]. rewrite Ho.
  destruct (aq_odd (H, C)) eqn:Eo.
  - destruct C as [|c cs]; [apply bool_decide_eq_true in Eo; simpl in Eo; lia|].
    apply bool_decide_eq_true in Eo; simpl in Eo.
    assert (NoDup (H ++ c :: cs)) as Hnd by apply Hl.
    apply NoDup_app in Hnd as (Hn1 & Hdj & Hn2). apply NoDup_cons in Hn2 as [Hcc Hn2].
    assert (v <> c) by fset.
    rewrite Hm. change (first_loc 0 (c :: cs)) with (ElemL c).
    rewrite set_hot_ok by (cbn [q_hot]; rewrite lookup_insert_ne by done; rewrite Hc by fset; eauto).
    cbn [rbind elem_of_loc q_links q_mid].
    rewrite cons_middle, app_assoc in Hl, Hna.
    destruct (link_after_ok _ _ _ _ _ Hl Hna Hv) as (h' & Hla & Hl' & Hd' & Hfr & _).
    rewrite last_loc_snoc in Hla. rewrite Hla. cbn [rbind].
    eexists; split; [reflexivity|]. split; [|intros e; by apply dom_links_eq].
    split; simpl.
    + split; [done|]. intros e k Hk Hin. unfold aq_elems in Hin; simpl in Hin.
      rewrite Hfr in Hk by fset. apply (Hu _ _ Hk). fset.
    + done.
    + left. simpl. rewrite app_length. simpl.
      destruct Hb as [Hb|Hb]; simpl in Hb; lia.
    + unfold aq_odd. simpl. rewrite app_length; simpl. symmetry. apply bool_decide_eq_false.
      destruct Hb as [Hb|Hb]; simpl in Hb; lia.
    + intros e He. apply elem_of_app in He as [He|He].
      * hot_tac.
      * apply elem_of_list_singleton in He as ->. hot_tac.
    + intros e He. apply elem_of_cons in He as [->|He].
      * hot_tac.
      * hot_tac. apply Hc; fset.
    + intros e. rewrite (dom_links_eq _ _ Hd'), Hd.
      rewrite !hot_insert_some; [done|done|].
      rewrite hot_insert_some by done. rewrite Hc; [eauto|fset].
  - apply bool_decide_eq_false in Eo. simpl in Eo.
    rewrite Hm. destruct (link_before_ok _ _ _ _ _ Hl Hna Hv) as (h' & Hla & Hl' & Hd' & Hfr & _).
    rewrite Hla. cbn [rbind].
    eexists; split; [reflexivity|]. split; [|intros e; by apply dom_links_eq].
    split; simpl.
    + split; [done|]. intros e k Hk Hin. unfold aq_elems in Hin; simpl in Hin.
      rewrite Hfr in Hk by fset. apply (Hu _ _ Hk). fset.
    + done.
    + right. simpl. destruct Hb as [Hb|Hb]; simpl in Hb; lia.
    + unfold aq_odd. simpl. symmetry. apply bool_decide_eq_true.
      destruct Hb as [Hb|Hb]; simpl in Hb; lia.
    + intros e He. hot_tac.
    + intros e He. apply elem_of_cons in He as [->|He]; hot_tac.
    + intros e. rewrite (dom_links_eq _ _ Hd'), Hd. by rewrite !hot_insert_some.
Qed.

(** [q_unlink] on an element of the hot or the cold part. *)
Lemma q_unlink_hot_ok q H1 v H2 C :
  qrep q (H1 ++ v :: H2, C) ->
  exists q', q_unlink q v = Ok q' /\ lwf (q_links q') ((H1 ++ H2) ++ C) /\
    q_mid q' = first_loc 0 C /\ q_hot q' = q_hot q /\ q_odd q' = q_odd q /\ dom (q_links q') = dom (q_links q).
Proof.
  intros [[Hl Hu] Hm Hb Ho Hh Hc Hd]. unfold aq_elems in *; simpl in *.
  assert (NoDup ((H1 ++ v :: H2) ++ C)) as Hnd by apply Hl.
  rewrite <-app_assoc in Hl, Hnd. simpl in Hl, Hnd.
  destruct (unlink_ok _ _ _ _ _ Hl) as (h' & Hun & Hl' & Hd' & Hnull & Hfr & _).
  unfold q_unlink. rewrite Hun. cbn [rbind]. eexists; split; [reflexivity|]. split_and!; simpl; try done.
  - rewrite <-app_assoc. split; [done|].
    intros e k Hk Hin. destruct (decide (e = v)) as [->|Hne]; [congruence|].
    rewrite Hfr in Hk by fset. apply (Hu _ _ Hk). fset.
  - rewrite bool_decide_eq_false_2; [done|]. rewrite Hm. intros E.
    apply NoDup_app in Hnd as (_&_&Hnd). apply NoDup_cons in Hnd as [Hv _].
    destruct (first_loc_in 0 C) as [E'|(x & E' & Hx)]; rewrite E' in E; [done|].
    injection E as ->. fset.
Qed.
Lemma q_unlink_cold_ok q H C1 v C2 :
  qrep q (H, C1 ++ v :: C2) ->
  exists q', q_unlink q v = Ok q' /\ lwf (q_links q') (H ++ (C1 ++ C2)) /\
    q_mid q' = first_loc 0 (C1 ++ C2) /\ q_hot q' = q_hot q /\ q_odd q' = q_odd q /\ dom (q_links q') = dom (q_links q).
Proof.
  intros [[Hl Hu] Hm Hb Ho Hh Hc Hd]. unfold aq_elems in *; simpl in *.
  assert (NoDup (H ++ C1 ++ v :: C2)) as Hnd by apply Hl.
  rewrite app_assoc in Hl.
  destruct (unlink_ok _ _ _ _ _ Hl) as (h' & Hun & Hl' & Hd' & Hnull & Hfr & _).
  unfold q_unlink. rewrite Hun. cbn [rbind]. eexists; split; [reflexivity|]. split_and!; simpl; try done.
  - rewrite app_assoc. split; [done|].
    intros e k Hk Hin. destruct (decide (e = v)) as [->|Hne]; [congruence|].
    rewrite Hfr in Hk by fset. apply (Hu _ _ Hk). fset.
  - rewrite Hm. destruct C1 as [|c C1]; simpl.
    + by rewrite bool_decide_eq_true_2.
    + rewrite bool_decide_eq_false_2; [done|]. unfold first_loc; simpl. intros [= ->].
      apply NoDup_app in Hnd as (_&_&Hnd). apply NoDup_cons in Hnd as [Hnd _]. fset.
Qed.

Lemma rm_length v l : NoDup l -> v ∈ l -> length l = S (length (rm v l)).
Proof. intros Hn Hv. by rewrite (rm_perm v l Hn Hv) at 1. Qed.

Lemma qrep_nodup q a : qrep q a -> NoDup (aq_elems a).
Proof. intros Hq. apply (qr_l _ _ Hq). Qed.

Lemma lwf_dom h L e : lwf h L -> e ∈ L -> is_Some (h !! ElemL e).
Proof. intros [? _] ?. by eapply lrep_in_dom. Qed.

Lemma on_hit_ok q a v :
  qrep q a -> v ∈ aq_elems a ->
  exists q', on_hit q v = Ok q' /\ qrep q' (aq_hit a v) /\ (forall e, q_has q' e <-> q_has q e).
Proof.
  intros Hq Hin. pose proof (qrep_nodup _ _ Hq) as Hnd. destruct a as [H C].
  pose proof Hq as [[Hl Hu] Hm Hb Ho Hh Hc Hd]. unfold aq_elems in *; simpl in *.
  unfold aq_hit; cbn [fst snd].
  destruct (decide (v ∈ H)) as [HvH|HvH].
  - rewrite bool_decide_eq_true_2 by done.
    apply elem_of_list_split in HvH as (H1 & H2 & ->).
    destruct (q_unlink_hot_ok _ _ _ _ _ Hq) as (q1 & Hun & Hl1 & Hm1 & Hh1 & Ho1 & Hd1).
    unfold on_hit. rewrite Hun. cbn [rbind].
    apply NoDup_app in Hnd as (Hn1 & Hdj & Hn2). apply NoDup_app in Hn1 as (Hn1 & Hdj1 & Hn3).
    apply NoDup_cons in Hn3 as [Hv2 Hn3].
    destruct (link_front_ok (q_links q1) 0 ((H1 ++ H2) ++ C) v) as (h2 & Hlf & Hl2 & Hd2 & Hfr & _);
      [apply Hl1|fset| |].
    { apply (dom_links_eq _ _ Hd1). eapply lwf_dom; [split; [exact Hl|exact Hu]|fset]. }
    unfold qhead. rewrite Hlf. cbn [rbind].
    rewrite (get_hot_ok _ _ true) by (simpl; rewrite Hh1; apply Hh; fset). cbn [rbind].
    eexists; split; [reflexivity|]. rewrite rm_split by fset.
    split.
    + split; simpl.
      * unfold aq_elems; simpl. split; [done|].
        intros e k Hk Hne. rewrite Hfr in Hk by fset. apply (proj2 Hl1 _ _ Hk). fset.
      * done.
      * unfold aq_balanced in *; simpl in *. rewrite !app_length in *; simpl in *. lia.
      * rewrite Ho1, Ho. unfold aq_odd; simpl. apply bool_decide_ext. rewrite !app_length; simpl. lia.
      * intros e He. rewrite Hh1. apply Hh. fset.
      * intros e He. rewrite Hh1. apply Hc. fset.
      * intros e. rewrite Hh1, <-Hd. by rewrite (dom_links_eq _ _ Hd2), (dom_links_eq _ _ Hd1).
    + intros e. unfold q_has; simpl. by rewrite (dom_links_eq _ _ Hd2), (dom_links_eq _ _ Hd1).
  - rewrite bool_decide_eq_false_2 by done.
    assert (v ∈ C) as HvC by fset.
    apply elem_of_list_split in HvC as (C1 & C2 & ->).
    destruct (q_unlink_cold_ok _ _ _ _ _ Hq) as (q1 & Hun & Hl1 & Hm1 & Hh1 & Ho1 & Hd1).
    unfold on_hit. rewrite Hun. cbn [rbind].
    apply NoDup_app in Hnd as (Hn1 & Hdj & Hn2). apply NoDup_app in Hn2 as (Hn2 & Hdj2 & Hn3).
    apply NoDup_cons in Hn3 as [Hv2 Hn3].
    assert (v ∉ C1) as Hv1 by fset.
    destruct (link_front_ok (q_links q1) 0 (H ++ C1 ++ C2) v) as (h2 & Hlf & Hl2 & Hd2 & Hfr & _);
      [apply Hl1|fset| |].
    { apply (dom_links_eq _ _ Hd1). eapply lwf_dom; [split; [exact Hl|exact Hu]|fset]. }
    unfold qhead. rewrite Hlf. cbn [rbind].
    rewrite (get_hot_ok _ _ false) by (simpl; rewrite Hh1; apply Hc; fset). cbn [rbind].
    rewrite set_hot_ok by (simpl; rewrite Hh1, Hc by fset; eauto). cbn [rbind].
    cbn [q_links q_mid with_links]. rewrite Hm1.
    change (v :: H ++ C1 ++ C2) with ((v :: H) ++ (C1 ++ C2)) in Hl2.
    pose proof (lrep_mid _ _ _ _ Hl2) as [_ Hpd].
    rewrite (prev_ok _ _ _ Hpd). cbn [rbind].
    rewrite rm_split by done.
    destruct (last H) as [x|] eqn:Elast.
    + pose proof (last_split _ _ Elast) as HH. set (H0 := removelast H) in *. clearbody H0. subst H.
      change (v :: H0 ++ [x]) with ((v :: H0) ++ [x]) in *. rewrite last_loc_snoc.
      assert (x <> v) by fset.
      rewrite set_hot_ok by (simpl; rewrite Hh1, lookup_insert_ne by done; rewrite Hh by fset; eauto).
      eexists; split; [reflexivity|].
      apply NoDup_app in Hn1 as (Hn0 & Hdjx & _).
      split.
      * split; simpl.
        -- unfold aq_elems; simpl. split.
           { rewrite cons_middle. rewrite <-app_assoc in Hl2. done. }
           intros e k Hk Hne. rewrite Hfr in Hk by fset. apply (proj2 Hl1 _ _ Hk). fset.
        -- done.
        -- unfold aq_balanced in *; simpl in *. rewrite !app_length in *; simpl in *. lia.
        -- rewrite Ho1, Ho. unfold aq_odd; simpl. apply bool_decide_ext. rewrite !app_length; simpl. lia.
        -- intros e He. rewrite Hh1. apply elem_of_cons in He as [->|He]; [hot_tac|].
           destruct (decide (e = v)) as [->|]; [fset|].
           rewrite lookup_insert_ne by fset. rewrite lookup_insert_ne by done. apply Hh. fset.
        -- intros e He. rewrite Hh1. apply elem_of_cons in He as [->|He]; [hot_tac|].
           rewrite !lookup_insert_ne by fset. apply Hc. fset.
        -- intros e. rewrite Hh1. rewrite !hot_insert_some.
           ++ rewrite <-Hd. by rewrite (dom_links_eq _ _ Hd2), (dom_links_eq _ _ Hd1).
           ++ rewrite Hc by fset; eauto.
           ++ rewrite lookup_insert_ne by done. rewrite Hh by fset; eauto.
      * intros e. unfold q_has; simpl. by rewrite (dom_links_eq _ _ Hd2), (dom_links_eq _ _ Hd1).
    + apply last_None in Elast as ->. change (v :: []) with ([] ++ [v]). rewrite last_loc_snoc.
      rewrite set_hot_ok by (simpl; rewrite Hh1, lookup_insert; eauto).
      eexists; split; [reflexivity|].
      split.
      * split; simpl.
        -- unfold aq_elems; simpl. split; [done|].
           intros e k Hk Hne. rewrite Hfr in Hk by fset. apply (proj2 Hl1 _ _ Hk). fset.
        -- done.
        -- unfold aq_balanced in *; simpl in *. rewrite !app_length in *; simpl in *. lia.
        -- rewrite Ho1, Ho. unfold aq_odd; simpl. apply bool_decide_eq_true_2. rewrite !app_length; simpl. lia.
        -- intros e He. by inversion He.
        -- intros e He. rewrite Hh1. apply elem_of_cons in He as [->|He]; [hot_tac|].
           destruct (decide (e = v)) as [->|]; [fset|].
           rewrite !lookup_insert_ne by done. apply Hc. fset.
        -- intros e. rewrite Hh1. rewrite !hot_insert_some.
           ++ rewrite <-Hd. by rewrite (dom_links_eq _ _ Hd2), (dom_links_eq _ _ Hd1).
           ++ rewrite Hc by fset; eauto.
           ++ rewrite lookup_insert; eauto.
      * intros e. unfold q_has; simpl. by rewrite (dom_links_eq _ _ Hd2), (dom_links_eq _ _ Hd1).
Qed.

Ltac len_tac := unfold aq_balanced in *; simpl in *; rewrite ?app_length in *; simpl in *; lia.
Ltac odd_tac := unfold aq_odd; simpl; symmetry;
  first [ apply bool_decide_eq_false_2; len_tac | apply bool_decide_eq_true_2; len_tac ].

Lemma on_unlink_ok q a v :
  qrep q a -> v ∈ aq_elems a ->
  exists q', on_unlink q v = Ok q' /\ qrep q' (aq_unlink a v) /\ (forall e, q_has q' e <-> q_has q e).
Proof.
  intros Hq Hin. pose proof (qrep_nodup _ _ Hq) as Hnd. destruct a as [H C].
  pose proof Hq as [[Hl Hu] Hm Hb Ho Hh Hc Hd]. unfold aq_elems in *; simpl in *.
  unfold aq_unlink; cbn [fst snd].
  destruct (decide (v ∈ H)) as [HvH|HvH].
  - rewrite bool_decide_eq_true_2 by done.
    apply elem_of_list_split in HvH as (H1 & H2 & ->).
    destruct (q_unlink_hot_ok _ _ _ _ _ Hq) as (q1 & Hun & Hl1 & Hm1 & Hh1 & Ho1 & Hd1).
    unfold on_unlink. rewrite Hun. cbn [rbind].
    apply NoDup_app in Hnd as (Hn1 & Hdj & Hn2). apply NoDup_app in Hn1 as (Hn1 & Hdj1 & Hn3).
    apply NoDup_cons in Hn3 as [Hv2 Hn3]. assert (v ∉ H1) as Hv1 by fset.
    rewrite (get_hot_ok _ _ true) by (simpl; rewrite Hh1; apply Hh; fset). cbn [rbind].
    rewrite Ho1, Ho. rewrite rm_split by done.
    destruct (aq_odd _) eqn:Eo.
    + destruct C as [|c cs]; [apply bool_decide_eq_true in Eo; simpl in Eo; lia|].
      apply bool_decide_eq_true in Eo. simpl in Eo. rewrite Hm1.
      change (first_loc 0 (c :: cs)) with (ElemL c).
      pose proof (proj1 Hl1) as Hl1'. rewrite cons_middle, app_assoc in Hl1'.
      pose proof (lrep_mid _ _ _ _ Hl1') as [Hsc _]. rewrite last_loc_snoc in Hsc.
      rewrite (next_ok _ _ _ Hsc). cbn [rbind].
      rewrite set_hot_ok by (rewrite Hh1, Hc by fset; eauto). cbn [rbind].
      eexists; split; [reflexivity|].
      apply NoDup_cons in Hn2 as [Hcc Hn2]. split.
      * split; simpl.
        -- unfold aq_elems; simpl. rewrite <-(app_assoc (H1 ++ H2)). exact Hl1.
        -- done.
        -- unfold aq_balanced in *; simpl in *. rewrite !app_length in *; simpl in *. lia.
        -- rewrite Ho1, Ho. odd_tac.
        -- intros e He. rewrite Hh1. apply elem_of_app in He as [He|He]; [|apply elem_of_list_singleton in He as ->; hot_tac].
           assert (e ∈ H1 ++ v :: H2) as He' by (rewrite !elem_of_app, ?elem_of_cons in *; tauto).
           rewrite lookup_insert_ne by (intros ->; apply (Hdj _ He'); left). by apply Hh.
        -- intros e He. rewrite Hh1. rewrite lookup_insert_ne by (intros ->; done). apply Hc. by right.
        -- intros e. rewrite Hh1, hot_insert_some, <-Hd by (rewrite Hc by left; eauto).
           by rewrite (dom_links_eq _ _ Hd1).
      * intros e. unfold q_has; simpl. by rewrite (dom_links_eq _ _ Hd1).
    + apply bool_decide_eq_false in Eo. simpl in Eo.
      eexists; split; [reflexivity|]. split.
      * split; simpl.
        -- done.
        -- done.
        -- unfold aq_balanced in *; simpl in *. rewrite !app_length in *; simpl in *. lia.
        -- rewrite Ho1, Ho. odd_tac.
        -- intros e He. rewrite Hh1. apply Hh. fset.
        -- intros e He. rewrite Hh1. apply Hc. fset.
        -- intros e. rewrite Hh1, <-Hd. by rewrite (dom_links_eq _ _ Hd1).
      * intros e. unfold q_has; simpl. by rewrite (dom_links_eq _ _ Hd1).
  - rewrite bool_decide_eq_false_2 by done.
    assert (v ∈ C) as HvC by fset.
    apply elem_of_list_split in HvC as (C1 & C2 & ->).
    destruct (q_unlink_cold_ok _ _ _ _ _ Hq) as (q1 & Hun & Hl1 & Hm1 & Hh1 & Ho1 & Hd1).
    unfold on_unlink. rewrite Hun. cbn [rbind].
    apply NoDup_app in Hnd as (Hn1 & Hdj & Hn2). apply NoDup_app in Hn2 as (Hn2 & Hdj2 & Hn3).
    apply NoDup_cons in Hn3 as [Hv2 Hn3]. assert (v ∉ C1) as Hv1 by fset.
    rewrite (get_hot_ok _ _ false) by (simpl; rewrite Hh1; apply Hc; fset). cbn [rbind].
    rewrite Ho1, Ho. rewrite rm_split by done.
    destruct (aq_odd _) eqn:Eo.
    + apply bool_decide_eq_true in Eo. simpl in Eo.
      eexists; split; [reflexivity|]. split.
      * split; simpl.
        -- done.
        -- done.
        -- unfold aq_balanced in *; simpl in *. rewrite !app_length in *; simpl in *. lia.
        -- rewrite Ho1, Ho. odd_tac.
        -- intros e He. rewrite Hh1. apply Hh. fset.
        -- intros e He. rewrite Hh1. apply Hc. fset.
        -- intros e. rewrite Hh1, <-Hd. by rewrite (dom_links_eq _ _ Hd1).
      * intros e. unfold q_has; simpl. by rewrite (dom_links_eq _ _ Hd1).
    + apply bool_decide_eq_false in Eo. simpl in Eo.
      pose proof (lrep_mid _ _ _ _ (proj1 Hl1)) as [_ Hpd]. rewrite Hm1.
      rewrite (prev_ok _ _ _ Hpd). cbn [rbind].
      destruct (last H) as [x|] eqn:Elast; cycle 1.
      { exfalso. apply last_None in Elast as ->. unfold aq_balanced in Hb. simpl in *.
        rewrite app_length in *. simpl in *. lia. }
      pose proof (last_split _ _ Elast) as HH. set (H0 := removelast H) in *. clearbody H0. subst H.
      rewrite last_loc_snoc.
      rewrite set_hot_ok by (simpl; rewrite Hh1; rewrite Hh by fset; eauto). cbn [rbind].
      apply NoDup_app in Hn1 as (Hn0 & Hdjx & _).
      eexists; split; [reflexivity|]. split.
      * split; simpl.
        -- unfold aq_elems; simpl. rewrite <-app_assoc in Hl1. done.
        -- done.
        -- unfold aq_balanced in *; simpl in *. rewrite !app_length in *; simpl in *. lia.
        -- rewrite Ho1, Ho. odd_tac.
        -- intros e He. rewrite Hh1. rewrite lookup_insert_ne by fset. apply Hh. fset.
        -- intros e He. rewrite Hh1. apply elem_of_cons in He as [->|He]; [hot_tac|].
           rewrite lookup_insert_ne by fset. apply Hc. fset.
        -- intros e. rewrite Hh1, hot_insert_some, <-Hd by (rewrite Hh by fset; eauto).
           by rewrite (dom_links_eq _ _ Hd1).
      * intros e. unfold q_has; simpl. by rewrite (dom_links_eq _ _ Hd1).
Qed.

(** Eviction. *)
Lemma lru_loop_ok q H C n :
  qrep q (H, C) -> forall C1 C2, C = C1 ++ C2 ->
  lru_loop q n (first_loc 0 C2) = Ok (take n (reverse C1)).
Proof.
  intros Hq. pose proof Hq as [[Hl Hu] Hm Hb Ho Hh Hc Hd]. unfold aq_elems in *; simpl in *.
  induction n as [|n IH]; intros C1 C2 HC.
  - simpl. done.
  - cbn [lru_loop]. unfold qhead. rewrite (begin_ok _ _ _ Hl). cbn [rbind].
    pose proof (proj1 Hl) as Hnd.
    destruct C1 as [|c C1 _] using rev_ind.
    + simpl in HC. subst C2. change (take (S n) (reverse [])) with (@nil N). 
      destruct (decide (first_loc 0 C = first_loc 0 (H ++ C))) as [E|E].
      * by rewrite bool_decide_eq_true_2.
      * rewrite bool_decide_eq_false_2 by done.
        pose proof (lrep_mid _ _ _ _ Hl) as [_ Hpd]. rewrite (prev_ok _ _ _ Hpd). cbn [rbind].
        destruct H as [|x H _] using rev_ind; [done|]. rewrite last_loc_snoc.
        rewrite (get_hot_ok _ _ true) by (apply Hh; fset). done.
    + rewrite bool_decide_eq_false_2; cycle 1.
      { subst C. intros E. destruct (first_loc_in 0 C2) as [E2|(x&E2&Hx)]; rewrite E2 in E.
        - symmetry in E. apply first_loc_head in E. destruct H, C1; naive_solver.
        - destruct (H ++ (C1 ++ [c]) ++ C2) as [|y l] eqn:El; [done|].
          unfold first_loc in E; simpl in E. injection E as ->.
          destruct H as [|h H].
          + destruct C1 as [|d C1]; simpl in El.
            * injection El as -> <-. apply NoDup_cons in Hnd as [Hnd _]. done.
            * injection El as -> <-. apply NoDup_cons in Hnd as [Hnd _]. fset.
          + simpl in El. injection El as -> <-. apply NoDup_cons in Hnd as [Hnd _]. fset. }
      assert (lrep 0 (q_links q) ((H ++ C1 ++ [c]) ++ C2)) as Hl'.
      { subst C. rewrite <-!app_assoc in *. done. }
      pose proof (lrep_mid _ _ _ _ Hl') as [_ Hpd]. rewrite (prev_ok _ _ _ Hpd). cbn [rbind].
      rewrite app_assoc, last_loc_snoc.
      rewrite (get_hot_ok _ _ false) by (apply Hc; fset). cbn [rbind elem_of_loc].
      change (ElemL c) with (first_loc 0 (c :: C2)). rewrite (IH C1 (c :: C2)); [|subst C; by rewrite <-app_assoc].
      cbn [rbind]. by rewrite reverse_snoc.
Qed.
Lemma lru_expire_ok q a n : qrep q a -> lru_expire q n = Ok (aq_victims a n).
Proof.
  destruct a as [H C]. intros Hq. unfold lru_expire, aq_victims.
  apply (lru_loop_ok q H C n Hq C []). by rewrite app_nil_r.
Qed.
