(** The pointer-level list operations refine list operations. *)
From Verif Require Import Base LinkedList.

Definition sc (h : gmap (N + N) link) (l : N + N) : option (N + N) :=
  match h !! l with Some k => l_succ k | None => None end.
Definition pd (h : gmap (N + N) link) (l : N + N) : option (N + N) :=
  match h !! l with Some k => l_pred k | None => None end.

Lemma sc_insert h l k l' : sc (<[l := k]> h) l' = if decide (l' = l) then l_succ k else sc h l'.
Proof.
  unfold sc. case_decide as E; [subst; by rewrite lookup_insert|by rewrite lookup_insert_ne].
Qed.
Lemma pd_insert h l k l' : pd (<[l := k]> h) l' = if decide (l' = l) then l_pred k else pd h l'.
Proof.
  unfold pd. case_decide as E; [subst; by rewrite lookup_insert|by rewrite lookup_insert_ne].
Qed.

Lemma link_eta k : k = Link (l_succ k) (l_pred k).
Proof. by destruct k. Qed.

Lemma lookup_sc_pd h l k : h !! l = Some k -> sc h l = l_succ k /\ pd h l = l_pred k.
Proof. unfold sc, pd. by intros ->. Qed.

Lemma sc_dom h l x : sc h l = Some x -> is_Some (h !! l).
Proof. unfold sc. destruct (h !! l); [eauto|done]. Qed.
Lemma pd_dom h l x : pd h l = Some x -> is_Some (h !! l).
Proof. unfold pd. destruct (h !! l); [eauto|done]. Qed.

(** A doubly linked segment from [a] through [M] to [b]. *)
Fixpoint seg (h : gmap (N + N) link) (a : N + N) (M : list (N + N)) (b : N + N) : Prop :=
  match M with
  | [] => sc h a = Some b /\ pd h b = Some a
  | x :: M' => sc h a = Some x /\ pd h x = Some a /\ seg h x M' b
  end.

Lemma seg_app h a M1 x M2 b :
  seg h a (M1 ++ x :: M2) b <-> seg h a M1 x /\ seg h x M2 b.
Proof.
  revert a. induction M1 as [|y M1 IH]; intros a; simpl.
  - tauto.
  - rewrite IH. tauto.
Qed.

Lemma seg_frame h h' a M b :
  (forall l, l ∈ a :: M -> sc h' l = sc h l) ->
  (forall l, l ∈ M ++ [b] -> pd h' l = pd h l) ->
  seg h a M b -> seg h' a M b.
Proof.
  revert a. induction M as [|y M IH]; intros a Hs Hp; simpl.
  - rewrite Hs, Hp by set_solver. done.
  - rewrite (Hs a), (Hp y) by set_solver. intros (?&?&?). split_and!; [done..|].
    apply IH; [| |done]; intros; [apply Hs|apply Hp]; set_solver.
Qed.

Lemma link_spec h a x b :
  is_Some (h !! a) -> is_Some (h !! x) -> is_Some (h !! b) -> x <> a -> x <> b ->
  exists h', link_ h a x b = Ok h' /\
    (forall l, sc h' l = if decide (l = a) then Some x else if decide (l = x) then Some b else sc h l) /\
    (forall l, pd h' l = if decide (l = b) then Some x else if decide (l = x) then Some a else pd h l) /\
    dom h' = dom h /\
    (forall l, l <> a -> l <> x -> l <> b -> h' !! l = h !! l).
Proof.
  intros [ka Ha] [kx Hx] [kb Hb] Hxa Hxb.
  unfold link_, set_pred, set_succ, rd. rewrite Hx; cbn [deref rbind].
  rewrite lookup_insert; cbn [deref rbind l_succ l_pred].
  rewrite !lookup_insert_ne by done. rewrite Hb; cbn [deref rbind l_succ l_pred].
  destruct (decide (a = b)) as [->|Hab].
  - rewrite lookup_insert; cbn [deref rbind l_succ l_pred]. eexists; split; [reflexivity|].
    split_and!.
    + intros l. rewrite !sc_insert. repeat case_decide; simpl; congruence.
    + intros l. rewrite !pd_insert. repeat case_decide; simpl; congruence.
    + apply set_eq; intros l. rewrite !dom_insert, !elem_of_union, !elem_of_singleton, !elem_of_dom.
      naive_solver.
    + intros l ???. by rewrite !lookup_insert_ne by done.
  - rewrite lookup_insert_ne by done. rewrite !lookup_insert_ne by done. rewrite Ha; cbn [deref rbind l_succ l_pred].
    eexists; split; [reflexivity|]. split_and!.
    + intros l. rewrite !sc_insert. destruct (lookup_sc_pd _ _ _ Ha), (lookup_sc_pd _ _ _ Hb).
      repeat case_decide; simpl; congruence.
    + intros l. rewrite !pd_insert. destruct (lookup_sc_pd _ _ _ Ha), (lookup_sc_pd _ _ _ Hb).
      repeat case_decide; simpl; congruence.
    + apply set_eq; intros l. rewrite !dom_insert, !elem_of_union, !elem_of_singleton, !elem_of_dom.
      naive_solver.
    + intros l ???. by rewrite !lookup_insert_ne by done.
Qed.

Lemma unlink_spec h a x b :
  is_Some (h !! a) -> is_Some (h !! b) -> x <> a -> x <> b ->
  pd h x = Some a -> sc h x = Some b ->
  exists h', unlink h x = Ok (h', b) /\
    (forall l, sc h' l = if decide (l = x) then None else if decide (l = a) then Some b else sc h l) /\
    (forall l, pd h' l = if decide (l = x) then None else if decide (l = b) then Some a else pd h l) /\
    dom h' = dom h /\
    h' !! x = Some link_null /\
    (forall l, l <> a -> l <> x -> l <> b -> h' !! l = h !! l).
Proof.
  intros [ka Ha] [kb Hb] Hxa Hxb Hp Hs.
  destruct (sc_dom _ _ _ Hs) as [kx Hx].
  pose proof (lookup_sc_pd _ _ _ Hx) as [Es Ep]. rewrite Hs in Es. rewrite Hp in Ep.
  unfold unlink, set_pred, set_succ, rd. rewrite Hx; cbn [deref rbind].
  rewrite <-Ep, <-Es; cbn [deref rbind]. rewrite Ha; cbn [deref rbind].
  destruct (decide (a = b)) as [->|Hab].
  - rewrite lookup_insert; cbn [deref rbind l_succ l_pred].
    rewrite !lookup_insert_ne by done. rewrite Hx; cbn [deref rbind l_succ l_pred].
    rewrite lookup_insert; cbn [deref rbind l_succ l_pred]. eexists; split; [reflexivity|].
    split_and!.
    + intros l. rewrite !sc_insert. repeat case_decide; simpl; congruence.
    + intros l. rewrite !pd_insert. repeat case_decide; simpl; congruence.
    + apply set_eq; intros l. rewrite !dom_insert, !elem_of_union, !elem_of_singleton, !elem_of_dom.
      naive_solver.
    + by rewrite lookup_insert.
    + intros l ???. by rewrite !lookup_insert_ne by done.
  - rewrite lookup_insert_ne by done. rewrite Hb; cbn [deref rbind l_succ l_pred].
    rewrite !lookup_insert_ne by done. rewrite Hx; cbn [deref rbind l_succ l_pred].
    rewrite lookup_insert; cbn [deref rbind l_succ l_pred]. eexists; split; [reflexivity|].
    split_and!.
    + intros l. rewrite !sc_insert. destruct (lookup_sc_pd _ _ _ Ha), (lookup_sc_pd _ _ _ Hb).
      repeat case_decide; simpl; congruence.
    + intros l. rewrite !pd_insert. destruct (lookup_sc_pd _ _ _ Ha), (lookup_sc_pd _ _ _ Hb).
      repeat case_decide; simpl; congruence.
    + apply set_eq; intros l. rewrite !dom_insert, !elem_of_union, !elem_of_singleton, !elem_of_dom.
      naive_solver.
    + by rewrite lookup_insert.
    + intros l ???. by rewrite !lookup_insert_ne by done.
Qed.

(** List [i] in heap [h] holds the sequence [L]. *)
Definition lrep (i : N) (h : gmap (N + N) link) (L : list N) : Prop :=
  NoDup L /\ seg h (HeadL i) (inr <$> L) (HeadL i).

Lemma fmap_inr_nodup (L : list N) : NoDup L -> NoDup ((inr <$> L) : list (N + N)).
Proof. intros. apply NoDup_fmap_2; [intros ??; congruence|done]. Qed.
Lemma elem_of_inr (x : N) (L : list N) : (inr x : N + N) ∈ (inr <$> L : list (N + N)) <-> x ∈ L.
Proof. rewrite elem_of_list_fmap. naive_solver. Qed.
Lemma inl_not_inr (i : N) (L : list N) : (inl i : N + N) ∉ (inr <$> L : list (N + N)).
Proof. rewrite elem_of_list_fmap. naive_solver. Qed.

Lemma seg_dom_src h a M b : seg h a M b -> is_Some (h !! a).
Proof. destruct M; simpl; intros [? _]; eauto using sc_dom. Qed.
Lemma seg_dom_dst h a M b : seg h a M b -> is_Some (h !! b).
Proof.
  revert a. induction M as [|y M IH]; intros a; simpl.
  - intros [_ ?]; eauto using pd_dom.
  - intros (_&_&?); eauto.
Qed.

(** The neighbours of a split point. *)
Definition last_loc (i : N) (L : list N) : N + N :=
  match last L with Some e => ElemL e | None => HeadL i end.
Definition first_loc (i : N) (L : list N) : N + N :=
  match head L with Some e => ElemL e | None => HeadL i end.

Lemma last_loc_snoc i L e : last_loc i (L ++ [e]) = ElemL e.
Proof. unfold last_loc. by rewrite last_snoc. Qed.

Lemma seg_split_last h i L b :
  seg h (HeadL i) (inr <$> L) b ->
  sc h (last_loc i L) = Some b /\ pd h b = Some (last_loc i L).
Proof.
  destruct L as [|e L' _] using rev_ind.
  - done.
  - rewrite last_loc_snoc, fmap_app. simpl. rewrite seg_app. simpl. tauto.
Qed.
Lemma seg_split_first h a i L :
  seg h a (inr <$> L) (HeadL i) ->
  sc h a = Some (first_loc i L) /\ pd h (first_loc i L) = Some a.
Proof. destruct L as [|e L']; simpl; tauto. Qed.

Lemma last_loc_in i L : last_loc i L = HeadL i \/ exists e, last_loc i L = ElemL e /\ e ∈ L.
Proof.
  unfold last_loc. destruct (last L) eqn:E; [|by left].
  right. eexists; split; [done|]. by apply last_Some_elem_of.
Qed.
Lemma first_loc_in i L : first_loc i L = HeadL i \/ exists e, first_loc i L = ElemL e /\ e ∈ L.
Proof. unfold first_loc. destruct L; simpl; [by left|]. right. set_solver. Qed.

Lemma lrep_mid h i L1 L2 :
  lrep i h (L1 ++ L2) ->
  sc h (last_loc i L1) = Some (first_loc i L2) /\ pd h (first_loc i L2) = Some (last_loc i L1).
Proof.
  intros [_ Hs]. destruct L2 as [|e L2].
  - rewrite app_nil_r in Hs. by apply seg_split_last in Hs.
  - rewrite fmap_app in Hs. simpl in Hs. apply seg_app in Hs as [Hs _].
    by apply seg_split_last in Hs.
Qed.

Lemma lrep_in_dom h i L e : lrep i h L -> e ∈ L -> is_Some (h !! ElemL e).
Proof.
  intros [_ Hs] (L1 & L2 & ->)%elem_of_list_split.
  rewrite fmap_app in Hs. simpl in Hs. apply seg_app in Hs as [Hs _]. by eapply seg_dom_dst.
Qed.
Lemma lrep_head_dom h i L : lrep i h L -> is_Some (h !! HeadL i).
Proof. intros [_ Hs]. by eapply seg_dom_src. Qed.

Lemma last_loc_dom h i L1 L2 : lrep i h (L1 ++ L2) -> is_Some (h !! last_loc i L1).
Proof. intros H. destruct (lrep_mid _ _ _ _ H). eauto using sc_dom. Qed.
Lemma first_loc_dom h i L1 L2 : lrep i h (L1 ++ L2) -> is_Some (h !! first_loc i L2).
Proof. intros H. destruct (lrep_mid _ _ _ _ H). eauto using pd_dom. Qed.

(** Effect of an insertion between [L1] and [L2]. *)
Lemma lrep_link h i L1 L2 e :
  lrep i h (L1 ++ L2) -> e ∉ L1 ++ L2 -> is_Some (h !! ElemL e) ->
  exists h', link_ h (last_loc i L1) (ElemL e) (first_loc i L2) = Ok h' /\
    lrep i h' (L1 ++ e :: L2) /\ dom h' = dom h /\
    (forall l, l <> last_loc i L1 -> l <> ElemL e -> l <> first_loc i L2 -> h' !! l = h !! l).
Proof.
  intros Hr He Hdom.
  pose proof (last_loc_in i L1) as Hl. pose proof (first_loc_in i L2) as Hf.
  destruct (link_spec h (last_loc i L1) (ElemL e) (first_loc i L2)) as (h' & -> & Hsc & Hpd & Hd & Hfr).
  { by eapply last_loc_dom. } { done. } { by eapply first_loc_dom. }
  { destruct Hl as [->|(?&->&?)]; [done|]. set_solver. }
  { destruct Hf as [->|(?&->&?)]; [done|]. set_solver. }
  exists h'. split; [done|]. split; [|done].
  destruct Hr as [Hnd Hs]. split.
  { apply NoDup_app in Hnd as (?&?&?). apply NoDup_app. split_and!; [done|set_solver|].
    apply NoDup_cons; set_solver. }
  rewrite fmap_app. simpl. apply seg_app.
  assert (seg h (HeadL i) (inr <$> L1) (first_loc i L2)) as Hs1.
  { destruct L2 as [|x L2]; simpl.
    - by rewrite app_nil_r in Hs.
    - rewrite fmap_app in Hs. simpl in Hs. by apply seg_app in Hs as [? _]. }
  assert (seg h (last_loc i L1) (inr <$> L2) (HeadL i)) as Hs2.
  { destruct L1 as [|x L1' _] using rev_ind; simpl.
    - done.
    - rewrite last_loc_snoc. rewrite <-app_assoc in Hs. simpl in Hs. rewrite fmap_app in Hs. simpl in Hs.
      by apply seg_app in Hs as [_ ?]. }
  apply NoDup_app in Hnd as (Hn1 & Hdj & Hn2).
  split.
  - (* left part *)
    destruct L1 as [|x L1' _] using rev_ind; simpl.
    + rewrite Hsc, Hpd. unfold last_loc; simpl.
      rewrite decide_True by done. split; [done|].
      destruct (decide _) as [E|_]; [|by rewrite decide_True].
      exfalso. destruct Hf as [Hf|(?&Hf&?)]; rewrite Hf in E; set_solver.
    + rewrite fmap_app in *. simpl in *. rewrite last_loc_snoc in *.
      apply seg_app in Hs1 as [Hs1 Hs1']. apply seg_app. split.
      * eapply seg_frame; [| |exact Hs1].
        -- intros l Hin. rewrite Hsc. apply NoDup_app in Hn1 as (?&Hdj1&?).
           destruct (decide (l = _)) as [->|_].
           { exfalso. apply elem_of_cons in Hin as [?|Hin]; [done|]. apply elem_of_inr in Hin. set_solver. }
           destruct (decide (l = _)) as [->|_]; [|done].
           exfalso. apply elem_of_cons in Hin as [?|Hin]; [done|]. apply elem_of_inr in Hin. set_solver.
        -- intros l Hin. rewrite Hpd.
           destruct (decide (l = _)) as [->|_].
           { exfalso. destruct Hf as [Hf|(y&Hf&?)]; rewrite Hf in Hin.
             - apply elem_of_app in Hin as [Hin|Hin]; [by apply inl_not_inr in Hin|].
               by apply elem_of_list_singleton in Hin.
             - apply elem_of_app in Hin as [Hin|Hin]; [apply elem_of_inr in Hin; set_solver|].
               apply elem_of_list_singleton in Hin. set_solver. }
           destruct (decide (l = _)) as [->|_]; [|done].
           exfalso. apply elem_of_app in Hin as [Hin|Hin]; [apply elem_of_inr in Hin; set_solver|].
           apply elem_of_list_singleton in Hin. set_solver.
      * simpl. rewrite Hsc, Hpd. rewrite decide_True by done. split; [done|].
        destruct (decide _) as [E|_]; [|by rewrite decide_True].
        exfalso. destruct Hf as [Hf|(?&Hf&?)]; rewrite Hf in E; set_solver.
  - (* right part *)
    destruct L2 as [|y L2]; simpl.
    + rewrite Hsc, Hpd. unfold first_loc; simpl.
      rewrite (decide_True (P := inl i = inl i)) by done. split; [|done].
      destruct (decide _) as [E|_]; [|by rewrite decide_True].
      exfalso. destruct Hl as [Hl|(?&Hl&?)]; rewrite Hl in E; set_solver.
    + simpl in Hs2. destruct Hs2 as (_ & _ & Hs2).
      unfold first_loc in *. simpl in *. split; [|split].
      * rewrite Hsc. destruct (decide _) as [E|_]; [|by rewrite decide_True].
        exfalso. destruct Hl as [Hl|(?&Hl&?)]; rewrite Hl in E; set_solver.
      * rewrite Hpd. by rewrite decide_True.
      * apply NoDup_cons in Hn2 as [Hy Hn2].
        eapply seg_frame; [| |exact Hs2].
        -- intros l Hin. rewrite Hsc. 
           assert (exists z, l = inr z /\ z ∈ y :: L2) as (z & -> & Hz).
           { apply elem_of_cons in Hin as [->|Hin]; [set_solver|].
             apply elem_of_list_fmap in Hin as (z & -> & ?). set_solver. }
           destruct (decide _) as [E|_].
           { exfalso. destruct Hl as [Hl|(?&Hl&?)]; rewrite Hl in E; set_solver. }
           destruct (decide _) as [E|_]; [|done]. exfalso. set_solver.
        -- intros l Hin. rewrite Hpd.
           destruct (decide (l = inr y)) as [->|_].
           { exfalso. apply elem_of_app in Hin as [Hin|Hin]; [by apply elem_of_inr in Hin|].
             by apply elem_of_list_singleton in Hin. }
           destruct (decide _) as [->|_]; [|done].
           exfalso. apply elem_of_app in Hin as [Hin|Hin]; [apply elem_of_inr in Hin; set_solver|].
           by apply elem_of_list_singleton in Hin.
Qed.

(** Effect of removing an element. *)
Lemma lrep_unlink h i L1 e L2 :
  lrep i h (L1 ++ e :: L2) ->
  exists h', unlink h (ElemL e) = Ok (h', first_loc i L2) /\
    lrep i h' (L1 ++ L2) /\ dom h' = dom h /\ h' !! ElemL e = Some link_null /\
    (forall l, l <> last_loc i L1 -> l <> ElemL e -> l <> first_loc i L2 -> h' !! l = h !! l).
Proof.
  intros Hr.
  pose proof (last_loc_in i L1) as Hl. pose proof (first_loc_in i L2) as Hf.
  pose proof (lrep_mid _ _ _ _ Hr) as [Hm1 Hm2].
  pose proof Hr as Hr'. rewrite cons_middle, app_assoc in Hr'.
  pose proof (lrep_mid _ _ _ _ Hr') as [Hm3 Hm4]. rewrite last_loc_snoc in Hm3, Hm4.
  change (first_loc i (e :: L2)) with (ElemL e) in *.
  pose proof (proj1 Hr) as Hnd. apply NoDup_app in Hnd as (Hn1 & Hdj & Hn2).
  apply NoDup_cons in Hn2 as [He2 Hn2]. assert (e ∉ L1) as He1 by set_solver.
  destruct (unlink_spec h (last_loc i L1) (ElemL e) (first_loc i L2)) as (h' & -> & Hsc & Hpd & Hd & Hnull & Hfr).
  { eauto using sc_dom. } { eauto using pd_dom. }
  { destruct Hl as [->|(?&->&?)]; [done|]. set_solver. }
  { destruct Hf as [->|(?&->&?)]; [done|]. set_solver. }
  { done. } { done. }
  exists h'. split; [done|]. split; [|done].
  destruct Hr as [_ Hs]. rewrite fmap_app in Hs. simpl in Hs. apply seg_app in Hs as [Hs1 Hs2].
  split. { apply NoDup_app; split_and!; [done|set_solver|done]. }
  destruct L2 as [|y L2].
  - rewrite app_nil_r. unfold first_loc in *; simpl in *.
    destruct L1 as [|x L1' _] using rev_ind; simpl.
    + rewrite Hsc, Hpd. unfold last_loc; simpl.
      repeat case_decide; split; congruence.
    + rewrite last_loc_snoc in *. rewrite fmap_app in *. simpl in *.
      apply seg_app in Hs1 as [Hs1 _]. apply seg_app. split.
      * apply NoDup_app in Hn1 as (?&Hdj1&?).
        eapply seg_frame; [| |exact Hs1].
        -- intros l Hin. rewrite Hsc.
           destruct (decide (l = _)) as [->|_].
           { exfalso. apply elem_of_cons in Hin as [?|Hin]; [done|]. apply elem_of_inr in Hin. set_solver. }
           destruct (decide (l = _)) as [->|_]; [|done].
           exfalso. apply elem_of_cons in Hin as [?|Hin]; [done|]. apply elem_of_inr in Hin. set_solver.
        -- intros l Hin. rewrite Hpd.
           assert (exists z, l = inr z /\ z ∈ L1' ++ [x]) as (z & -> & Hz).
           { apply elem_of_app in Hin as [Hin|Hin].
             - apply elem_of_list_fmap in Hin as (z & -> & ?). set_solver.
             - apply elem_of_list_singleton in Hin. set_solver. }
           rewrite decide_False by set_solver. by rewrite decide_False.
      * simpl. rewrite Hsc, Hpd. rewrite decide_False by set_solver. rewrite decide_True by done.
        split; [done|]. rewrite decide_False by done. by rewrite decide_True.
  - change (first_loc i (y :: L2)) with (ElemL y) in *.
    rewrite fmap_app. simpl. apply seg_app.
    simpl in Hs2. destruct Hs2 as (_&_&Hs2).
    apply NoDup_cons in Hn2 as [Hy Hn2].
    split.
    + destruct L1 as [|x L1' _] using rev_ind; simpl.
      * assert (y <> e) by set_solver.
        rewrite Hsc, Hpd. unfold last_loc; simpl. repeat case_decide; split; congruence.
      * rewrite last_loc_snoc in *. rewrite fmap_app in *. simpl in *.
        apply seg_app in Hs1 as [Hs1 _]. apply seg_app. split.
        -- apply NoDup_app in Hn1 as (?&Hdj1&?).
           eapply seg_frame; [| |exact Hs1].
           ++ intros l Hin. rewrite Hsc.
              destruct (decide (l = _)) as [->|_].
              { exfalso. apply elem_of_cons in Hin as [?|Hin]; [done|]. apply elem_of_inr in Hin. set_solver. }
              destruct (decide (l = _)) as [->|_]; [|done].
              exfalso. apply elem_of_cons in Hin as [?|Hin]; [done|]. apply elem_of_inr in Hin. set_solver.
           ++ intros l Hin. rewrite Hpd.
              assert (exists z, l = inr z /\ z ∈ L1' ++ [x]) as (z & -> & Hz).
              { apply elem_of_app in Hin as [Hin|Hin].
                - apply elem_of_list_fmap in Hin as (z & -> & ?). set_solver.
                - apply elem_of_list_singleton in Hin. set_solver. }
              rewrite decide_False by set_solver. rewrite decide_False; [done|]. set_solver.
        -- assert (y <> e) by set_solver. assert (x <> e) by set_solver.
           simpl. rewrite Hsc, Hpd. repeat case_decide; split; congruence.
    + eapply seg_frame; [| |exact Hs2].
      * intros l Hin. rewrite Hsc.
        assert (exists z, l = inr z /\ z ∈ y :: L2) as (z & -> & Hz).
        { apply elem_of_cons in Hin as [->|Hin]; [set_solver|].
          apply elem_of_list_fmap in Hin as (z & -> & ?). set_solver. }
        rewrite decide_False by set_solver.
        destruct (decide _) as [E|_]; [|done].
        exfalso. destruct Hl as [Hl|(?&Hl&?)]; rewrite Hl in E; set_solver.
      * intros l Hin. rewrite Hpd.
        assert (l <> inr e).
        { intros ->. apply elem_of_app in Hin as [Hin|Hin]; [apply elem_of_inr in Hin; set_solver|].
          by apply elem_of_list_singleton in Hin. }
        rewrite decide_False by done.
        destruct (decide _) as [->|_]; [|done].
        exfalso. apply elem_of_app in Hin as [Hin|Hin]; [by apply elem_of_inr in Hin|].
        by apply elem_of_list_singleton in Hin.
Qed.

(** Derived rules for the public operations. *)
Lemma rd_ok h l k : h !! l = Some k -> rd h l = Ok k.
Proof. unfold rd. by intros ->. Qed.

Lemma next_ok h l x : sc h l = Some x -> next h l = Ok x.
Proof. unfold next, rd, sc. destruct (h !! l); simpl; [|done]. by intros ->. Qed.
Lemma prev_ok h l x : pd h l = Some x -> prev h l = Ok x.
Proof. unfold prev, rd, pd. destruct (h !! l); simpl; [|done]. by intros ->. Qed.

Lemma link_front_ok h i L e :
  lrep i h L -> e ∉ L -> is_Some (h !! ElemL e) ->
  exists h', link_front i h (ElemL e) = Ok h' /\ lrep i h' (e :: L) /\ dom h' = dom h /\
    (forall x, x ∉ e :: L -> h' !! ElemL x = h !! ElemL x) /\ (forall j, j <> i -> h' !! HeadL j = h !! HeadL j).
Proof.
  intros Hr He Hd. destruct (lrep_link h i [] L e Hr He Hd) as (h' & Hl & Hr' & Hd' & Hfr).
  pose proof (lrep_mid h i [] L Hr) as [Hs _]. simpl in Hs. unfold last_loc in *; simpl in *.
  exists h'. split; [|split; [done|split; [done|]]].
  - unfold link_front, rd. unfold sc in Hs. destruct (h !! inl i); simpl; [|done].
    rewrite Hs. simpl. done.
  - pose proof (first_loc_in i L) as Hf. split.
    + intros x Hx. apply Hfr; [done|set_solver|].
      destruct Hf as [->|(?&->&?)]; [done|set_solver].
    + intros j Hj. apply Hfr; [congruence|done|].
      destruct Hf as [->|(?&->&?)]; [congruence|done].
Qed.

Lemma link_back_ok h i L e :
  lrep i h L -> e ∉ L -> is_Some (h !! ElemL e) ->
  exists h', link_back i h (ElemL e) = Ok h' /\ lrep i h' (L ++ [e]) /\ dom h' = dom h /\
    (forall x, x ∉ e :: L -> h' !! ElemL x = h !! ElemL x) /\ (forall j, j <> i -> h' !! HeadL j = h !! HeadL j).
Proof.
  intros Hr He Hd. rewrite <-(app_nil_r L) in Hr, He.
  destruct (lrep_link h i L [] e Hr He Hd) as (h' & Hl & Hr' & Hd' & Hfr).
  pose proof (lrep_mid h i L [] Hr) as [_ Hs]. unfold first_loc in *; simpl in *.
  rewrite app_nil_r in He.
  exists h'. split; [|split; [done|split; [done|]]].
  - unfold link_back, rd. unfold pd in Hs. destruct (h !! inl i); simpl; [|done].
    rewrite Hs. simpl. done.
  - pose proof (last_loc_in i L) as Hf. split.
    + intros x Hx. apply Hfr; [|set_solver|done].
      destruct Hf as [->|(?&->&?)]; [done|set_solver].
    + intros j Hj. apply Hfr; [|done|congruence].
      destruct Hf as [->|(?&->&?)]; [congruence|done].
Qed.

(** Insertion after/before the position at a split point; a position is an element or the head. *)
Lemma link_after_ok h i L1 L2 e :
  lrep i h (L1 ++ L2) -> e ∉ L1 ++ L2 -> is_Some (h !! ElemL e) ->
  exists h', link_after h (last_loc i L1) (ElemL e) = Ok (h', ElemL e) /\ lrep i h' (L1 ++ e :: L2) /\ dom h' = dom h /\
    (forall x, x ∉ e :: L1 ++ L2 -> h' !! ElemL x = h !! ElemL x) /\ (forall j, j <> i -> h' !! HeadL j = h !! HeadL j).
Proof.
  intros Hr He Hd. destruct (lrep_link h i L1 L2 e Hr He Hd) as (h' & Hl & Hr' & Hd' & Hfr).
  pose proof (lrep_mid h i L1 L2 Hr) as [Hs _].
  exists h'. split; [|split; [done|split; [done|]]].
  - unfold link_after, rd. unfold sc in Hs. destruct (h !! last_loc i L1); simpl; [|done].
    rewrite Hs. simpl. by rewrite Hl.
  - pose proof (last_loc_in i L1) as Hf1. pose proof (first_loc_in i L2) as Hf2. split.
    + intros x Hx. apply Hfr; [|set_solver|].
      * destruct Hf1 as [->|(?&->&?)]; [done|set_solver].
      * destruct Hf2 as [->|(?&->&?)]; [done|set_solver].
    + intros j Hj. apply Hfr; [|done|].
      * destruct Hf1 as [->|(?&->&?)]; [congruence|done].
      * destruct Hf2 as [->|(?&->&?)]; [congruence|done].
Qed.

Lemma link_before_ok h i L1 L2 e :
  lrep i h (L1 ++ L2) -> e ∉ L1 ++ L2 -> is_Some (h !! ElemL e) ->
  exists h', link_before h (first_loc i L2) (ElemL e) = Ok (h', ElemL e) /\ lrep i h' (L1 ++ e :: L2) /\ dom h' = dom h /\
    (forall x, x ∉ e :: L1 ++ L2 -> h' !! ElemL x = h !! ElemL x) /\ (forall j, j <> i -> h' !! HeadL j = h !! HeadL j).
Proof.
  intros Hr He Hd. destruct (lrep_link h i L1 L2 e Hr He Hd) as (h' & Hl & Hr' & Hd' & Hfr).
  pose proof (lrep_mid h i L1 L2 Hr) as [_ Hs].
  exists h'. split; [|split; [done|split; [done|]]].
  - unfold link_before, rd. unfold pd in Hs. destruct (h !! first_loc i L2); simpl; [|done].
    rewrite Hs. simpl. by rewrite Hl.
  - pose proof (last_loc_in i L1) as Hf1. pose proof (first_loc_in i L2) as Hf2. split.
    + intros x Hx. apply Hfr; [|set_solver|].
      * destruct Hf1 as [->|(?&->&?)]; [done|set_solver].
      * destruct Hf2 as [->|(?&->&?)]; [done|set_solver].
    + intros j Hj. apply Hfr; [|done|].
      * destruct Hf1 as [->|(?&->&?)]; [congruence|done].
      * destruct Hf2 as [->|(?&->&?)]; [congruence|done].
Qed.

Lemma unlink_ok h i L1 e L2 :
  lrep i h (L1 ++ e :: L2) ->
  exists h', unlink h (ElemL e) = Ok (h', first_loc i L2) /\ lrep i h' (L1 ++ L2) /\ dom h' = dom h /\
    h' !! ElemL e = Some link_null /\
    (forall x, x ∉ L1 ++ e :: L2 -> h' !! ElemL x = h !! ElemL x) /\ (forall j, j <> i -> h' !! HeadL j = h !! HeadL j).
Proof.
  intros Hr. destruct (lrep_unlink h i L1 e L2 Hr) as (h' & Hl & Hr' & Hd' & Hn & Hfr).
  exists h'. split_and!; [done..| |].
  - pose proof (last_loc_in i L1) as Hf1. pose proof (first_loc_in i L2) as Hf2.
    intros x Hx. apply Hfr; [|set_solver|].
      * destruct Hf1 as [->|(?&->&?)]; [done|set_solver].
      * destruct Hf2 as [->|(?&->&?)]; [done|set_solver].
  - pose proof (last_loc_in i L1) as Hf1. pose proof (first_loc_in i L2) as Hf2.
    intros j Hj. apply Hfr; [|done|].
      * destruct Hf1 as [->|(?&->&?)]; [congruence|done].
      * destruct Hf2 as [->|(?&->&?)]; [congruence|done].
Qed.

Lemma begin_ok h i L : lrep i h L -> begin i h = Ok (first_loc i L).
Proof.
  intros Hr. destruct (lrep_mid h i [] L Hr) as [Hs _]. unfold last_loc in Hs; simpl in Hs.
  unfold begin, rd. unfold sc in Hs. destruct (h !! inl i); simpl; [|done]. by rewrite Hs.
Qed.

Lemma first_loc_head i L : first_loc i L = HeadL i <-> L = [].
Proof. destruct L; unfold first_loc; simpl; naive_solver. Qed.

Lemma empty_ok h i L : lrep i h L -> empty i h = Ok (bool_decide (L = [])).
Proof.
  intros Hr. destruct (lrep_mid h i [] L Hr) as [Hs _]. unfold last_loc in Hs; simpl in Hs.
  unfold empty, rd. unfold sc in Hs. destruct (h !! inl i); simpl; [|done]. rewrite Hs.
  f_equal. apply bool_decide_ext. destruct L; unfold first_loc; simpl; split; intros; congruence.
Qed.

Lemma list_init_rep i h : lrep i (list_init i h) [].
Proof.
  split; [constructor|]. simpl. unfold list_init. rewrite sc_insert, pd_insert. by rewrite !decide_True.
Qed.

(** Insertion / deletion of unrelated objects. *)
Lemma lrep_frame h h' i L :
  h' !! HeadL i = h !! HeadL i -> (forall e, e ∈ L -> h' !! ElemL e = h !! ElemL e) ->
  lrep i h L -> lrep i h' L.
Proof.
  intros Hh He [? Hs]. split; [done|]. eapply seg_frame; [| |exact Hs].
  - intros l Hin. unfold sc. apply elem_of_cons in Hin as [->|Hin]; [by rewrite Hh|].
    apply elem_of_list_fmap in Hin as (z & -> & ?). by rewrite He.
  - intros l Hin. unfold pd. apply elem_of_app in Hin as [Hin|Hin].
    + apply elem_of_list_fmap in Hin as (z & -> & ?). by rewrite He.
    + apply elem_of_list_singleton in Hin as ->. by rewrite Hh.
Qed.

(** Walking. *)
Lemma walk_ok h i L1 L2 fuel :
  lrep i h (L1 ++ L2) -> length L2 < fuel -> walk fuel i h (first_loc i L2) = Ok L2.
Proof.
  revert L1 fuel. induction L2 as [|e L2 IH]; intros L1 fuel Hr Hf.
  - destruct fuel; [lia|]. simpl. by rewrite bool_decide_eq_true_2.
  - destruct fuel as [|f]; [simpl in Hf; lia|]. change (first_loc i (e :: L2)) with (ElemL e). cbn [walk].
    pose proof Hr as Hr'. rewrite cons_middle, app_assoc in Hr'.
    pose proof (lrep_mid _ _ _ _ Hr') as [Hs _]. rewrite last_loc_snoc in Hs.
    rewrite (next_ok _ _ _ Hs). simpl.
    rewrite (IH (L1 ++ [e])); [done|done|simpl in Hf; lia].
Qed.
Lemma walk_back_ok h i L1 L2 fuel :
  lrep i h (L1 ++ L2) -> length L1 < fuel -> walk_back fuel i h (last_loc i L1) = Ok (reverse L1).
Proof.
  revert L2 fuel. induction L1 as [|e L1 IH] using rev_ind; intros L2 fuel Hr Hf.
  - destruct fuel; [lia|]. simpl. by rewrite bool_decide_eq_true_2.
  - rewrite app_length in Hf. simpl in Hf. destruct fuel as [|f]; [lia|].
    rewrite last_loc_snoc. cbn [walk_back].
    rewrite <-app_assoc in Hr. simpl in Hr.
    pose proof (lrep_mid _ _ _ _ Hr) as [_ Hs]. change (first_loc i (e :: L2)) with (ElemL e) in Hs.
    rewrite (prev_ok _ _ _ Hs). simpl. rewrite (IH (e :: L2)); [|done|lia].
    simpl. by rewrite reverse_snoc.
Qed.

Lemma lrep_length h i L : lrep i h L -> length L < size h.
Proof.
  intros Hr. 
  assert (size (list_to_set (HeadL i :: (inr <$> L)) : gset (N + N)) <= size (dom h)) as Hsz.
  { apply subseteq_size. intros l Hl%elem_of_list_to_set. apply elem_of_dom.
    apply elem_of_cons in Hl as [->|Hl]; [by eapply lrep_head_dom|].
    apply elem_of_list_fmap in Hl as (z & -> & ?). by eapply lrep_in_dom. }
  rewrite size_list_to_set in Hsz.
  - simpl in Hsz. rewrite fmap_length, size_dom in Hsz. lia.
  - apply NoDup_cons. split; [apply inl_not_inr|]. apply fmap_inr_nodup, Hr.
Qed.

Lemma elements_ok h i L : lrep i h L -> elements i h = Ok L.
Proof.
  intros Hr. unfold elements. rewrite (begin_ok _ _ _ Hr). cbn [rbind].
  apply (walk_ok h i []); [done|]. apply lrep_length in Hr. lia.
Qed.
Lemma elements_back_ok h i L : lrep i h L -> elements_back i h = Ok (reverse L).
Proof.
  intros Hr. unfold elements_back, end_.
  pose proof Hr as Hr'. rewrite <-(app_nil_r L) in Hr'.
  pose proof (lrep_mid _ _ _ _ Hr') as [_ Hs]. unfold first_loc in Hs; simpl in Hs.
  rewrite (prev_ok _ _ _ Hs). cbn [rbind].
  apply (walk_back_ok h i _ []); [done|]. apply lrep_length in Hr. lia.
Qed.

(** The whole state of one list family: list 0 holds [L], all other elements are unlinked. *)
Definition lwf (h : gmap (N + N) link) (L : list N) : Prop :=
  lrep 0 h L /\ forall e k, h !! ElemL e = Some k -> e ∉ L -> k = link_null.

Lemma is_linked_ok h L e : lwf h L -> is_Some (h !! ElemL e) -> is_linked h (ElemL e) = Ok (bool_decide (e ∈ L)).
Proof.
  intros [Hr Hu] [k Hk]. unfold is_linked, rd. rewrite Hk. simpl. f_equal.
  destruct (decide (e ∈ L)) as [Hin|Hin].
  - rewrite (bool_decide_eq_true_2 (e ∈ L)) by done. apply bool_decide_eq_true_2.
    apply elem_of_list_split in Hin as (L1 & L2 & ->).
    rewrite cons_middle, app_assoc in Hr. apply lrep_mid in Hr as [Hs _].
    rewrite last_loc_snoc in Hs. unfold sc in Hs. rewrite Hk in Hs. by rewrite Hs.
  - rewrite (bool_decide_eq_false_2 (e ∈ L)) by done. apply bool_decide_eq_false_2.
    rewrite (Hu _ _ Hk Hin). simpl. by intros [? ?].
Qed.

(** ** move constructor *)
Lemma list_move_ok h i j L :
  lrep j h L -> i <> j -> L <> [] ->
  exists h', list_move i j h = Ok h' /\ lrep i h' L /\ lrep j h' [] /\
    (forall x, x ∉ L -> h' !! ElemL x = h !! ElemL x) /\
    (forall m, m <> i -> m <> j -> h' !! HeadL m = h !! HeadL m).
Proof.
  intros Hr Hij Hne. pose proof Hr as [Hnd Hs].
  destruct L as [|x L]; [done|]. clear Hne.
  simpl in Hs. destruct Hs as (Hs1 & Hp1 & Hs).
  assert (exists hd, h !! HeadL j = Some hd) as [hd Hhd] by by apply sc_dom in Hs1.
  assert (exists kx, h !! ElemL x = Some kx) as [kx Hkx] by by apply pd_dom in Hp1.
  assert (l_succ hd = Some (ElemL x)) as Ehs by (unfold sc in Hs1; by rewrite Hhd in Hs1).
  unfold list_move, rd. rewrite Hhd. cbn [deref rbind]. rewrite Ehs. cbn [deref rbind].
  unfold set_pred, set_succ, rd.
  rewrite !lookup_insert_ne by congruence. rewrite Hkx. cbn [deref rbind].
  rewrite lookup_insert_ne by congruence. rewrite lookup_insert. cbn [deref rbind l_pred].
  destruct L as [|y L _] using rev_ind.
  - simpl in Hs. destruct Hs as [Hs2 Hp2].
    assert (l_pred hd = Some (ElemL x)) as -> by (unfold pd in Hp2; by rewrite Hhd in Hp2).
    cbn [deref rbind]. rewrite lookup_insert. cbn [deref rbind].
    eexists; split; [reflexivity|]. split_and!.
    + split; [done|]. simpl. rewrite !sc_insert, !pd_insert.
      repeat case_decide; simpl; try congruence. done.
    + split; [constructor|]. simpl. rewrite !sc_insert, !pd_insert.
      repeat case_decide; simpl; try congruence. done.
    + intros z Hz. assert (z <> x) by (intros ->; apply Hz; left).
      rewrite !lookup_insert_ne by congruence. done.
    + intros m Hm1 Hm2. rewrite !lookup_insert_ne by congruence. done.
  - rewrite fmap_app in Hs. simpl in Hs. apply seg_app in Hs as [Hs [Hs2 Hp2]].
    assert (l_pred hd = Some (ElemL y)) as -> by (unfold pd in Hp2; by rewrite Hhd in Hp2).
    assert (exists ky, h !! ElemL y = Some ky) as [ky Hky] by by apply sc_dom in Hs2.
    assert (x <> y) as Hxy.
    { intros ->. apply NoDup_cons in Hnd as [Hn _]. apply Hn. apply elem_of_app; right; left. }
    cbn [deref rbind]. rewrite !lookup_insert_ne by congruence. rewrite Hky. cbn [deref rbind].
    eexists; split; [reflexivity|]. split_and!.
    + split; [done|]. rewrite fmap_cons, fmap_app. simpl. rewrite seg_app. simpl.
      assert (x ∉ L /\ y ∉ L) as [HxL HyL].
      { apply NoDup_cons in Hnd as [Hn Hnd]. split.
        - intros ?. apply Hn. apply elem_of_app; by left.
        - intros ?. apply NoDup_app in Hnd as (_ & Hd & _). eapply Hd; [done|left]. }
      split_and!.
      * rewrite !sc_insert; repeat case_decide; simpl; congruence.
      * rewrite !pd_insert; repeat case_decide; simpl; congruence.
      * clear -Hs HxL HyL Hxy Hkx Hky. revert Hs.
        set (h' := <[_:=_]> _).
        assert (forall a b, (a = x \/ a ∈ L) -> sc h (ElemL a) = Some b -> sc h' (ElemL a) = Some b) as Hsc.
        { intros a b Ha Hab. unfold h'. rewrite !sc_insert.
          assert (a <> y) by naive_solver. repeat case_decide; try congruence. simpl.
          unfold sc in Hab. replace a with x in Hab by congruence. rewrite Hkx in Hab. done. }
        assert (forall a b, (a = y \/ a ∈ L) -> pd h (ElemL a) = Some b -> pd h' (ElemL a) = Some b) as Hpd.
        { intros a b Ha Hab. unfold h'. rewrite !pd_insert.
          assert (a <> x) by naive_solver. repeat case_decide; try congruence. simpl.
          unfold pd in Hab. replace a with y in Hab by congruence. rewrite Hky in Hab. done. }
        clearbody h'. clear -Hsc Hpd. revert x Hsc. induction L as [|z L IH]; intros x Hsc; simpl.
        -- intros [? ?]. split; [apply Hsc|apply Hpd]; auto.
        -- intros (? & ? & ?). split_and!; [apply Hsc; auto|apply Hpd; [right; left|done]|].
           apply IH; [| |done].
           ++ intros a b [->|Ha]; apply Hpd; [by left|right; by right].
           ++ intros a b [->|Ha]; apply Hsc; [right; left|right; by right].
      * rewrite !sc_insert; repeat case_decide; simpl; congruence.
      * rewrite !pd_insert; repeat case_decide; simpl; congruence.
    + split; [constructor|]. simpl. rewrite !sc_insert, !pd_insert.
      repeat case_decide; simpl; try congruence. done.
    + intros z Hz. rewrite elem_of_cons, elem_of_app, elem_of_list_singleton in Hz.
      assert (z <> x) by tauto. assert (z <> y) by tauto.
      rewrite !lookup_insert_ne by congruence. done.
    + intros m Hm1 Hm2. rewrite !lookup_insert_ne by congruence. done.
Qed.

(** Moving from an empty list: the new head points into the source, and the source into the new. *)
Lemma list_move_empty h i j : lrep j h [] -> i <> j ->
  exists h', list_move i j h = Ok h' /\
    h' !! HeadL i = Some (Link (Some (HeadL j)) (Some (HeadL j))) /\
    h' !! HeadL j = Some (Link (Some (HeadL i)) (Some (HeadL i))).
Proof.
  intros [_ [Hs Hp]] Hij. assert (exists hd, h !! HeadL j = Some hd) as [hd Hhd] by by apply sc_dom in Hs.
  unfold sc in Hs. unfold pd in Hp. rewrite Hhd in Hs, Hp. simpl in Hs, Hp.
  unfold list_move, set_pred, set_succ, rd. rewrite Hhd. cbn [deref rbind]. rewrite Hs, Hp. cbn [deref rbind].
  rewrite lookup_insert_ne by congruence. rewrite lookup_insert. cbn [deref rbind].
  rewrite lookup_insert_ne by congruence. rewrite lookup_insert. cbn [deref rbind l_pred].
  rewrite lookup_insert. cbn [deref rbind l_succ l_pred].
  eexists; split; [reflexivity|]. split.
  - rewrite !lookup_insert_ne by congruence. by rewrite lookup_insert.
  - by rewrite lookup_insert.
Qed.
