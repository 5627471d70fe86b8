From Verif Require Import Base LinkedList Queue BasicHashtable ATable AQueue Containers.
From Verif Require Import LinkedListProofs QueueProofs BasicHashtableProofs.

(** * Lists *)
Record linv (h : gmap (N + N) link) (s : lspec) : Prop := {
  li_rep : forall i L, ls_lists s !! i = Some L -> lrep i h L;
  li_dj : forall i j L M e, ls_lists s !! i = Some L -> ls_lists s !! j = Some M -> e ∈ L -> e ∈ M -> i = j;
  li_dom : forall e, e ∈ ls_elems s <-> is_Some (h !! ElemL e);
  li_null : forall e k, h !! ElemL e = Some k -> lfree s e -> k = link_null
}.

Lemma lfree_put s i L' e : lfree (LSpec (ls_elems s) (<[i := L']> (ls_lists s))) e <->
  e ∉ L' /\ (forall j L, j <> i -> ls_lists s !! j = Some L -> e ∉ L).
Proof.
  unfold lfree; simpl. split.
  - intros H. split; [apply (H i); by rewrite lookup_insert|].
    intros j L Hj HL. apply (H j). by rewrite lookup_insert_ne.
  - intros [H1 H2] j L HL. destruct (decide (j = i)) as [->|].
    + rewrite lookup_insert in HL. by injection HL as <-.
    + rewrite lookup_insert_ne in HL by done. eauto.
Qed.

(** inserting [e], which was in no list, somewhere in list [i] *)
Lemma linv_insert h h' s i L L' e :
  linv h s -> ls_lists s !! i = Some L -> lfree s e -> (forall x, x ∈ L' <-> x = e \/ x ∈ L) ->
  lrep i h' L' -> dom h' = dom h ->
  (forall x, x ∉ e :: L -> h' !! ElemL x = h !! ElemL x) -> (forall j, j <> i -> h' !! HeadL j = h !! HeadL j) ->
  linv h' (LSpec (ls_elems s) (<[i := L']> (ls_lists s))).
Proof.
  intros [Hrep Hdj Hdom Hnull] HL Hfree HL' Hr Hd Hfe Hfh. split; simpl.
  - intros j M HM. destruct (decide (j = i)) as [->|Hji].
    + rewrite lookup_insert in HM. by injection HM as <-.
    + rewrite lookup_insert_ne in HM by done.
      eapply lrep_frame; [by apply Hfh| |by apply Hrep].
      intros x Hx. apply Hfe. intros [->|Hin]%elem_of_cons.
      * by apply (Hfree j M).
      * apply Hji. eapply Hdj; eauto.
  - intros j k M M' x HM HM' Hx Hx'.
    destruct (decide (j = i)) as [->|Hji], (decide (k = i)) as [->|Hki]; try done.
    + rewrite lookup_insert in HM. injection HM as <-. rewrite lookup_insert_ne in HM' by done.
      apply HL' in Hx as [->|Hx]; [by apply (Hfree k M') in Hx'|]. eapply Hdj; eauto.
    + rewrite lookup_insert in HM'. injection HM' as <-. rewrite lookup_insert_ne in HM by done.
      apply HL' in Hx' as [->|Hx']; [by apply (Hfree j M) in Hx|]. eapply Hdj; eauto.
    + rewrite lookup_insert_ne in HM, HM' by done. eauto.
  - intros x. rewrite Hdom. by rewrite <-!elem_of_dom, Hd.
  - intros x k Hk Hf. apply lfree_put in Hf as [Hx Hf].
    assert (x ∉ e :: L) as Hxn.
    { rewrite HL' in Hx. rewrite elem_of_cons. tauto. }
    rewrite Hfe in Hk by done. apply (Hnull x k Hk). intros j M HM.
    destruct (decide (j = i)) as [->|Hji]; [|eauto].
    rewrite HL in HM. injection HM as <-. rewrite elem_of_cons in Hxn. tauto.
Qed.

Lemma ins_after_split x e L1 L2 : x ∉ L1 -> ins_after x e (L1 ++ x :: L2) = L1 ++ x :: e :: L2.
Proof.
  induction L1 as [|y L1 IH]; intros Hx; simpl.
  - by rewrite bool_decide_eq_true_2.
  - apply not_elem_of_cons in Hx as [? ?]. rewrite bool_decide_eq_false_2 by congruence. by rewrite IH.
Qed.
Lemma ins_before_split x e L1 L2 : x ∉ L1 -> ins_before x e (L1 ++ x :: L2) = L1 ++ e :: x :: L2.
Proof.
  induction L1 as [|y L1 IH]; intros Hx; simpl.
  - by rewrite bool_decide_eq_true_2.
  - apply not_elem_of_cons in Hx as [? ?]. rewrite bool_decide_eq_false_2 by congruence. by rewrite IH.
Qed.

Lemma lstep_ok h s o s' : linv h s -> lsem s o = Some s' -> exists h', lstep h o = Ok h' /\ linv h' s'.
Proof.
  intros Hi Hs. pose proof Hi as [Hrep Hdj Hdom Hnull]. destruct o as [i|e|e|i e|i e|i p e|i p e|i e|i j]; simpl in Hs.
  - (* new list *)
    destruct (ls_lists s !! i) eqn:El; [done|]. injection Hs as <-. eexists; split; [reflexivity|].
    unfold list_init. split; simpl.
    + intros j L HL. destruct (decide (j = i)) as [->|Hji].
      * rewrite lookup_insert in HL. injection HL as <-. apply list_init_rep.
      * rewrite lookup_insert_ne in HL by done. eapply lrep_frame; [| |by apply Hrep].
        -- rewrite lookup_insert_ne; [done|congruence].
        -- intros x _. by rewrite lookup_insert_ne.
    + intros j k L M x HL HM Hx Hy.
      destruct (decide (j = i)) as [->|Hji].
      { rewrite lookup_insert in HL. injection HL as <-. by inversion Hx. }
      destruct (decide (k = i)) as [->|Hki].
      { rewrite lookup_insert in HM. injection HM as <-. by inversion Hy. }
      rewrite lookup_insert_ne in HL, HM by done. eauto.
    + intros x. by rewrite lookup_insert_ne.
    + intros x k Hk Hf. rewrite lookup_insert_ne in Hk by done. apply (Hnull x k Hk).
      apply lfree_put in Hf as [_ Hf]. intros j L HL. apply (Hf j); [congruence|done].
  - (* new element *)
    case_bool_decide as He; [done|]. injection Hs as <-. eexists; split; [reflexivity|].
    assert (h !! ElemL e = None) as Hne.
    { apply eq_None_not_Some. by rewrite <-Hdom. }
    split; simpl.
    + intros i L HL. eapply lrep_frame; [| |by apply Hrep].
      * by rewrite lookup_insert_ne.
      * intros x Hx. rewrite lookup_insert_ne; [done|]. intros [= <-].
        apply Hrep in HL. apply (lrep_in_dom _ _ _ _ HL) in Hx as [? ?]. congruence.
    + exact Hdj.
    + intros x. rewrite elem_of_union, elem_of_singleton, Hdom.
      destruct (decide (x = e)) as [->|]; [rewrite lookup_insert; naive_solver|].
      rewrite lookup_insert_ne by congruence. tauto.
    + intros x k Hk Hf. destruct (decide (x = e)) as [->|].
      * rewrite lookup_insert in Hk. congruence.
      * rewrite lookup_insert_ne in Hk by congruence. by apply (Hnull x).
  - (* destroy element *)
    case_bool_decide as He; [|done]. injection Hs as <-. eexists; split; [reflexivity|].
    destruct He as [He Hfree]. split; simpl.
    + intros i L HL. eapply lrep_frame; [| |by apply Hrep].
      * by rewrite lookup_delete_ne.
      * intros x Hx. rewrite lookup_delete_ne; [done|]. intros [= <-]. by apply (Hfree i L).
    + exact Hdj.
    + intros x. rewrite elem_of_difference, elem_of_singleton, Hdom.
      destruct (decide (x = e)) as [->|]; [rewrite lookup_delete; split; [tauto|by intros [? ?]]|].
      rewrite lookup_delete_ne by congruence. tauto.
    + intros x k Hk Hf. destruct (decide (x = e)) as [->|].
      * by rewrite lookup_delete in Hk.
      * rewrite lookup_delete_ne in Hk by congruence. by apply (Hnull x).
  - (* link_front *)
    destruct (ls_lists s !! i) as [L|] eqn:El; simpl in Hs; [|done]. case_bool_decide as He; [|done].
    injection Hs as <-. destruct He as [He Hf].
    destruct (link_front_ok h i L e) as (h' & Hl & Hr & Hd & Hf1 & Hf2); [by apply Hrep|by apply (Hf i)|by apply Hdom|].
    exists h'. split; [done|]. eapply linv_insert; eauto. intros x. by rewrite elem_of_cons.
  - (* link_back *)
    destruct (ls_lists s !! i) as [L|] eqn:El; simpl in Hs; [|done]. case_bool_decide as He; [|done].
    injection Hs as <-. destruct He as [He Hf].
    destruct (link_back_ok h i L e) as (h' & Hl & Hr & Hd & Hf1 & Hf2); [by apply Hrep|by apply (Hf i)|by apply Hdom|].
    exists h'. split; [done|]. eapply linv_insert; eauto. intros x. rewrite elem_of_app, elem_of_list_singleton. tauto.
  - (* link_after *)
    destruct (ls_lists s !! i) as [L|] eqn:El; simpl in Hs; [|done]. case_bool_decide as He; [|done].
    injection Hs as <-. destruct He as (He & Hf & Hp).
    assert (exists L1 L2, L = L1 ++ L2 /\ lpos i p = last_loc i L1 /\
      match p with Some x => ins_after x e L | None => e :: L end = L1 ++ e :: L2) as (L1 & L2 & -> & Hpos & ->).
    { destruct p as [x|]; [|by exists [], L]. simpl in Hp. pose proof (proj1 (Hrep _ _ El)) as Hnd.
      apply elem_of_list_split in Hp as (A & B & ->). exists (A ++ [x]), B.
      split; [by rewrite <-app_assoc|]. split; [by rewrite last_loc_snoc|].
      rewrite ins_after_split; [by rewrite <-app_assoc|]. apply NoDup_app in Hnd as (_ & Hd & _).
      intros HA. apply (Hd x HA). left. }
    destruct (link_after_ok h i L1 L2 e) as (h' & Hl & Hr & Hd & Hf1 & Hf2); [by apply Hrep|by apply (Hf i)|by apply Hdom|].
    exists h'. simpl. rewrite Hpos, Hl. split; [done|]. eapply linv_insert; eauto.
    intros x. rewrite !elem_of_app, elem_of_cons. tauto.
  - (* link_before *)
    destruct (ls_lists s !! i) as [L|] eqn:El; simpl in Hs; [|done]. case_bool_decide as He; [|done].
    injection Hs as <-. destruct He as (He & Hf & Hp).
    assert (exists L1 L2, L = L1 ++ L2 /\ lpos i p = first_loc i L2 /\
      match p with Some x => ins_before x e L | None => L ++ [e] end = L1 ++ e :: L2) as (L1 & L2 & -> & Hpos & ->).
    { destruct p as [x|]; [|exists L, []; by rewrite app_nil_r]. simpl in Hp. pose proof (proj1 (Hrep _ _ El)) as Hnd.
      apply elem_of_list_split in Hp as (A & B & ->). exists A, (x :: B).
      split; [done|]. split; [done|].
      rewrite ins_before_split; [done|]. apply NoDup_app in Hnd as (_ & Hd & _).
      intros HA. apply (Hd x HA). left. }
    destruct (link_before_ok h i L1 L2 e) as (h' & Hl & Hr & Hd & Hf1 & Hf2); [by apply Hrep|by apply (Hf i)|by apply Hdom|].
    exists h'. simpl. rewrite Hpos, Hl. split; [done|]. eapply linv_insert; eauto.
    intros x. rewrite !elem_of_app, elem_of_cons. tauto.
  - (* unlink *)
    destruct (ls_lists s !! i) as [L|] eqn:El; simpl in Hs; [|done]. case_bool_decide as He; [|done].
    injection Hs as <-. pose proof (Hrep _ _ El) as Hr. pose proof (proj1 Hr) as Hnd.
    apply elem_of_list_split in He as (L1 & L2 & ->).
    destruct (unlink_ok h i L1 e L2 Hr) as (h' & Hl & Hr' & Hd & Hn & Hf1 & Hf2).
    exists h'. simpl. rewrite Hl. split; [done|].
    assert (e ∉ L1 /\ e ∉ L2) as [He1 He2].
    { apply NoDup_app in Hnd as (_ & Hdd & [Hn2 _]%NoDup_cons). split; [|done]. intros HA. apply (Hdd e HA). left. }
    fold (rm e (L1 ++ e :: L2)). rewrite rm_split by done. split; simpl.
    + intros j M HM. destruct (decide (j = i)) as [->|Hji].
      * rewrite lookup_insert in HM. by injection HM as <-.
      * rewrite lookup_insert_ne in HM by done. eapply lrep_frame; [by apply Hf2| |by apply Hrep].
        intros x Hx. apply Hf1. intros Hin. apply Hji. eapply Hdj; eauto.
    + intros j k M M' x HM HM' Hx Hx'.
      assert (forall y, y ∈ L1 ++ L2 -> y ∈ L1 ++ e :: L2) as Hsub.
      { intros y. rewrite !elem_of_app, elem_of_cons. tauto. }
      destruct (decide (j = i)) as [->|Hji], (decide (k = i)) as [->|Hki]; try done.
      * rewrite lookup_insert in HM. injection HM as <-. rewrite lookup_insert_ne in HM' by done.
        apply Hsub in Hx. eapply Hdj; eauto.
      * rewrite lookup_insert in HM'. injection HM' as <-. rewrite lookup_insert_ne in HM by done.
        apply Hsub in Hx'. eapply Hdj; eauto.
      * rewrite lookup_insert_ne in HM, HM' by done. eauto.
    + intros x. rewrite Hdom. by rewrite <-!elem_of_dom, Hd.
    + intros x k Hk Hf. destruct (decide (x = e)) as [->|Hne]; [congruence|].
      apply lfree_put in Hf as [Hx Hf].
      assert (x ∉ L1 ++ e :: L2) as Hxn.
      { rewrite elem_of_app, elem_of_cons. rewrite elem_of_app in Hx. tauto. }
      rewrite Hf1 in Hk by done. apply (Hnull x k Hk). intros j M HM.
      destruct (decide (j = i)) as [->|Hji]; [|eauto]. congruence.
  - (* move *)
    destruct (ls_lists s !! j) as [L|] eqn:El; simpl in Hs; [|done].
    destruct (ls_lists s !! i) eqn:Ei; [done|]. destruct L as [|y L]; [done|]. injection Hs as <-.
    assert (i <> j) as Hij by congruence.
    destruct (list_move_ok h i j (y :: L)) as (h' & Hl & Hri & Hrj & Hf1 & Hf2); [by apply Hrep|done|done|].
    exists h'. simpl. split; [done|].
    assert (forall e, is_Some (h' !! ElemL e) <-> is_Some (h !! ElemL e)) as Hde.
    { intros e. destruct (decide (e ∈ y :: L)) as [Hin|Hin]; [|by rewrite Hf1].
      split; intros _; [apply (lrep_in_dom _ _ _ _ (Hrep _ _ El) Hin)|apply (lrep_in_dom _ _ _ _ Hri Hin)]. }
    split; simpl.
    + intros k M HM. destruct (decide (k = i)) as [->|Hki].
      * rewrite lookup_insert in HM. by injection HM as <-.
      * rewrite lookup_insert_ne in HM by done. destruct (decide (k = j)) as [->|Hkj].
        -- rewrite lookup_insert in HM. by injection HM as <-.
        -- rewrite lookup_insert_ne in HM by done.
           eapply lrep_frame; [by apply Hf2| |by apply Hrep].
           intros x Hx. apply Hf1. intros Hin. apply Hkj. eapply Hdj; eauto.
    + assert (forall k M x, <[i:=y :: L]> (<[j:=[]]> (ls_lists s)) !! k = Some M -> x ∈ M ->
        k = i /\ x ∈ y :: L \/ k <> i /\ k <> j /\ ls_lists s !! k = Some M) as Hcase.
      { intros k M x HM Hx. destruct (decide (k = i)) as [->|Hki].
        - rewrite lookup_insert in HM. injection HM as <-. by left.
        - rewrite lookup_insert_ne in HM by done. destruct (decide (k = j)) as [->|Hkj].
          + rewrite lookup_insert in HM. injection HM as <-. by inversion Hx.
          + rewrite lookup_insert_ne in HM by done. by right. }
      intros k1 k2 M1 M2 x H1 H2 Hx1 Hx2.
      destruct (Hcase _ _ _ H1 Hx1) as [[-> Hy1]|(?&?&Hy1)], (Hcase _ _ _ H2 Hx2) as [[-> Hy2]|(?&?&Hy2)]; try done.
      * exfalso. assert (j = k2) by eauto. congruence.
      * exfalso. assert (j = k1) by eauto. congruence.
      * eauto.
    + intros x. by rewrite Hde.
    + intros x k Hk Hf. assert (x ∉ y :: L) as Hx by (apply (Hf i); simpl; by rewrite lookup_insert).
      rewrite Hf1 in Hk by done. apply (Hnull x k Hk). intros m M HM.
      destruct (decide (m = j)) as [->|]; [congruence|].
      apply (Hf m). simpl. rewrite !lookup_insert_ne by congruence. done.
Qed.

Lemma linv_init : linv ∅ lspec_init.
Proof.
  split; simpl.
  - intros i L. by rewrite lookup_empty.
  - intros i j L M e. by rewrite lookup_empty.
  - intros e. rewrite lookup_empty. split; [set_solver|by intros [? ?]].
  - intros e k. by rewrite lookup_empty.
Qed.
Lemma lrun_ok os h s s' : linv h s -> lsem_run s os = Some s' -> exists h', lrun h os = Ok h' /\ linv h' s'.
Proof.
  revert h s. induction os as [|o os IH]; intros h s Hi Hs; simpl in Hs.
  - injection Hs as <-. by exists h.
  - destruct (lsem s o) as [s1|] eqn:E; simpl in Hs; [|done].
    destruct (lstep_ok h s o s1 Hi E) as (h1 & H1 & Hi1). simpl. rewrite H1. simpl. eauto.
Qed.
Lemma linv_observe h s :
  linv h s ->
  (forall i L, ls_lists s !! i = Some L ->
     elements i h = Ok L /\ elements_back i h = Ok (reverse L) /\ empty i h = Ok (bool_decide (L = []))) /\
  (forall e, e ∈ ls_elems s -> is_linked h (ElemL e) = Ok (bool_decide (~ lfree s e))).
Proof.
  intros [Hrep Hdj Hdom Hnull]. split.
  - intros i L HL. split_and!; [apply elements_ok|apply elements_back_ok|apply empty_ok]; auto.
  - intros e He. apply Hdom in He as [k Hk]. unfold is_linked, rd. rewrite Hk. simpl. f_equal.
    destruct (decide (lfree s e)) as [Hf|Hf].
    + rewrite (Hnull e k Hk Hf). simpl. apply eq_sym, bool_decide_eq_false_2. tauto.
    + rewrite (bool_decide_eq_true_2 (~ lfree s e)) by done. apply bool_decide_eq_true_2.
      destruct (decide (map_Exists (fun (_ : N) (L : list N) => e ∈ L) (ls_lists s))) as [(i & L & HL & Hin)|Hne].
      * pose proof (Hrep _ _ HL) as Hr. apply elem_of_list_split in Hin as (L1 & L2 & ->).
        rewrite cons_middle, app_assoc in Hr. apply lrep_mid in Hr as [Hs _].
        rewrite last_loc_snoc in Hs. unfold sc in Hs. rewrite Hk in Hs. by rewrite Hs.
      * exfalso. apply Hf. intros i L HL Hin. apply Hne. by exists i, L.
Qed.

(** * Queue *)
Record qinv (q : queue) (s : gset N) (a : list N * list N) : Prop := {
  qi_rep : qrep q a;
  qi_in : forall e, e ∈ aq_elems a <-> e ∈ s;
  qi_has : forall e, q_has q e <-> e ∈ s
}.
Definition aq_step (a : list N * list N) (o : qop) : list N * list N :=
  match o with
  | QCreate e => (aq_create a e).1
  | QHit e => aq_hit a e
  | QRemove e => aq_unlink a e
  end.

Lemma aq_create_elems a e x : x ∈ aq_elems (aq_create a e).1 <-> x = e \/ x ∈ aq_elems a.
Proof.
  unfold aq_create, aq_elems. destruct a as [H C]; simpl. destruct (aq_odd (H, C)).
  - destruct C as [|c cs]; simpl; rewrite ?elem_of_app, ?elem_of_cons, ?elem_of_nil, ?elem_of_app, ?elem_of_cons, ?elem_of_nil; tauto.
  - simpl. rewrite !elem_of_app, !elem_of_cons. tauto.
Qed.
Lemma last_elems (H : list N) z x : last H = Some z -> x ∈ H <-> x ∈ removelast H \/ x = z.
Proof. intros E. rewrite (last_split H z E) at 1. rewrite elem_of_app, elem_of_list_singleton. tauto. Qed.
Lemma aq_hit_elems a e x : e ∈ aq_elems a -> x ∈ aq_elems (aq_hit a e) <-> x ∈ aq_elems a.
Proof.
  unfold aq_hit, aq_elems. destruct a as [H C]; simpl. intros He. rewrite elem_of_app in He.
  destruct (decide (x = e)) as [->|Hne].
  - case_bool_decide; [|destruct (last H) eqn:El]; simpl; rewrite ?elem_of_cons, ?elem_of_app; tauto.
  - case_bool_decide as Hc; [|destruct (last H) as [z|] eqn:El].
    + simpl. rewrite elem_of_cons, !elem_of_app, elem_of_rm. tauto.
    + simpl. rewrite elem_of_cons, !elem_of_app, (last_elems H z x El), elem_of_cons, elem_of_rm. tauto.
    + apply last_None in El as ->. simpl. rewrite elem_of_cons, elem_of_rm. tauto.
Qed.
Lemma aq_unlink_elems a e x : NoDup (aq_elems a) -> e ∈ aq_elems a -> x ∈ aq_elems (aq_unlink a e) <-> x ∈ aq_elems a /\ x <> e.
Proof.
  unfold aq_unlink, aq_elems. destruct a as [H C]; simpl. intros Hnd He. rewrite elem_of_app in He.
  apply NoDup_app in Hnd as (HnH & Hdj & HnC).
  case_bool_decide as Hc.
  - assert (e ∉ C) as HeC by (by apply Hdj). assert (x ∈ C -> x <> e) by (intros ? ->; done).
    destruct (aq_odd (H, C)); [destruct C as [|c cs]|]; simpl;
      rewrite ?elem_of_app, ?elem_of_rm, ?elem_of_list_singleton in *; rewrite ?elem_of_cons in *; rewrite ?elem_of_nil; tauto.
  - assert (x ∈ H -> x <> e) by (intros ? ->; done).
    destruct (aq_odd (H, C)); [|destruct (last H) as [z|] eqn:El]; simpl; rewrite ?elem_of_app.
    + rewrite elem_of_rm. tauto.
    + rewrite (last_elems H z x El) in *. rewrite elem_of_cons, elem_of_rm. tauto.
    + rewrite elem_of_rm. tauto.
Qed.

Lemma qstep_ok q s a o s' : qinv q s a -> qsem s o = Some s' ->
  exists q', qstep q o = Ok q' /\ qinv q' s' (aq_step a o).
Proof.
  intros [Hr Hin Hhas] Hs. destruct o as [e|e|e]; simpl in *; case_bool_decide as He; try done; injection Hs as <-.
  - assert (~ q_has q e) as Hne by (by rewrite Hhas).
    destruct (on_create_ok (q_alloc q e) a e) as (q' & Hc & Hr' & Hh').
    { by apply q_alloc_rep. } { by rewrite Hin. } { unfold q_has; simpl. rewrite lookup_insert. eauto. }
    rewrite Hc. simpl. eexists; split; [reflexivity|]. split; [done| |].
    + intros x. rewrite aq_create_elems, Hin, elem_of_union, elem_of_singleton. done.
    + intros x. rewrite Hh'. unfold q_has; simpl. rewrite elem_of_union, elem_of_singleton.
      destruct (decide (x = e)) as [->|]; [rewrite lookup_insert; naive_solver|].
      rewrite lookup_insert_ne by congruence. specialize (Hhas x). unfold q_has in Hhas. tauto.
  - destruct (on_hit_ok q a e Hr) as (q' & Hc & Hr' & Hh'); [by apply Hin|].
    exists q'. split; [done|]. split; [done| |].
    + intros x. rewrite aq_hit_elems by (by apply Hin). apply Hin.
    + intros x. rewrite Hh'. apply Hhas.
  - destruct (on_unlink_ok q a e Hr) as (q' & Hc & Hr' & Hh'); [by apply Hin|].
    rewrite Hc. simpl. eexists; split; [reflexivity|].
    pose proof (qrep_nodup _ _ Hr) as Hnd.
    split.
    + apply q_free_rep; [done|]. rewrite aq_unlink_elems by (try done; by apply Hin). tauto.
    + intros x. rewrite aq_unlink_elems by (try done; by apply Hin). rewrite Hin, elem_of_difference, elem_of_singleton. done.
    + intros x. unfold q_has; simpl. rewrite elem_of_difference, elem_of_singleton.
      destruct (decide (x = e)) as [->|]; [rewrite lookup_delete; split; [by intros [? ?]|tauto]|].
      rewrite lookup_delete_ne by congruence. specialize (Hhas x). specialize (Hh' x). unfold q_has in *. tauto.
Qed.
Lemma qinv_init : qinv queue_init ∅ ([], []).
Proof.
  split; [apply queue_init_rep| |].
  - intros e. unfold aq_elems; simpl. rewrite elem_of_nil. set_solver.
  - intros e. unfold q_has, queue_init, list_init; simpl. rewrite lookup_insert_ne by done. rewrite lookup_empty.
    split; [by intros [? ?]|set_solver].
Qed.
Lemma qrun_ok os q s a s' : qinv q s a -> qsem_run s os = Some s' ->
  exists q', qrun q os = Ok q' /\ qinv q' s' (foldl aq_step a os).
Proof.
  revert q s a. induction os as [|o os IH]; intros q s a Hi Hs; simpl in Hs.
  - injection Hs as <-. by exists q.
  - destruct (qsem s o) as [s1|] eqn:E; simpl in Hs; [|done].
    destruct (qstep_ok q s a o s1 Hi E) as (q1 & H1 & Hi1). simpl. rewrite H1. simpl. eauto.
Qed.

(** * Hash table *)
Record hinv (t : table) (h : eheap) (s : hspec) (Bs : list (list N)) : Prop := {
  hi_rep : trep t h Bs;
  hi_in : forall e, e ∈ concat Bs <-> is_Some (hs_linked s !! e);
  hi_hash : forall e x, hs_linked s !! e = Some x -> e_hash h !! e = Some x;
  hi_dom : forall e, e_has h e <-> e ∈ hs_elems s
}.
(** elements outside the table have a null successor, as long as [clear] is not used *)
Definition hnull (h : eheap) (Bs : list (list N)) : Prop :=
  forall e s, e_succ h !! e = Some s -> e ∉ concat Bs -> s = None.

Definition hh (s : hspec) (e : N) : N := default 0%N (hs_linked s !! e).
Lemma hi_hh t h s Bs : hinv t h s Bs -> forall e, e ∈ concat Bs -> e_hash h !! e = Some (hh s e).
Proof.
  intros Hi e He. apply (hi_in _ _ _ _ Hi) in He as [x Hx]. unfold hh. rewrite Hx. simpl.
  by apply (hi_hash _ _ _ _ Hi).
Qed.

Lemma ht_find_pred_ok t h Bs L1 L2 e fuel L0 :
  trep0 t h Bs -> concat Bs = L0 ++ L1 ++ e :: L2 -> length L1 < fuel ->
  ht_find_pred fuel t h (last_slot (t_id t) L0) e = Ok (last_slot (t_id t) (L0 ++ L1)).
Proof.
  intros Hr. revert L0 fuel. induction L1 as [|x L1 IH]; intros L0 fuel E Hf.
  - destruct fuel; [simpl in Hf; lia|]. cbn [ht_find_pred]. rewrite (rd_last_slot t h Bs L0 _ Hr E).
    simpl. rewrite bool_decide_eq_true_2 by done. by rewrite app_nil_r.
  - simpl in Hf. destruct fuel; [lia|]. cbn [ht_find_pred]. rewrite (rd_last_slot t h Bs L0 _ Hr E).
    cbn [rbind head app deref].
    assert (x <> e).
    { intros ->. pose proof (tr_nodup _ _ _ Hr) as Hnd. rewrite E in Hnd.
      apply NoDup_app in Hnd as (_ & _ & Hnd). simpl in Hnd. apply NoDup_cons in Hnd as [Hn _].
      apply Hn. apply elem_of_app; right; left. }
    rewrite bool_decide_eq_false_2 by done. rewrite <-(last_slot_snoc (t_id t) L0 x).
    rewrite (IH (L0 ++ [x])); [by rewrite <-app_assoc|by rewrite <-app_assoc|lia].
Qed.

Section hist.
  Context (over : nat -> nat -> bool) (mbc : nat) (req : nat -> nat) (Hmbc : 0 < mbc).

  (** the buckets after an operation *)
  Definition grown (s : hspec) (t : table) (Bs : list (list N)) : list (list N) :=
    if must_grow over mbc t then at_rehash (hh s) (grow_size mbc t) Bs else Bs.
  Definition at_step (s : hspec) (t : table) (Bs : list (list N)) (o : hop) : list (list N) :=
    match o with
    | HNew _ | HFree _ | HMove _ => Bs
    | HLink x e => at_link (grown s t Bs) x e
    | HUnlink e => at_unlink Bs e
    | HReserve n => if bool_decide (bucket_count t < reserve_count mbc req n) then at_rehash (hh s) (reserve_count mbc req n) Bs else Bs
    | HClear => replicate (length Bs) []
    end.

  Lemma hstep_ok t h s Bs o s' : hinv t h s Bs -> hsem s o = Some s' ->
    exists t' h', hstep over mbc req (t, h) o = Ok (t', h') /\ hinv t' h' s' (at_step s t Bs o) /\
      (o <> HClear -> hnull h Bs -> hnull h' (at_step s t Bs o)).
  Proof.
    intros Hi Hs. pose proof Hi as [Hr Hin Hha Hd]. destruct o as [e|e|x e|e|n|i|]; simpl in Hs.
    - case_bool_decide as He; [done|]. injection Hs as <-. eexists _, _; split; [reflexivity|].
      assert (~ e_has h e) as Hne by by rewrite Hd.
      assert (e ∉ concat Bs) as Hnb.
      { intros Hb. apply Hne. by apply (trep0_elem_dom _ _ _ _ (proj1 Hr)). }
      split; [split; simpl|].
      + by apply e_alloc_rep.
      + done.
      + intros y z Hy. rewrite lookup_insert_ne; [by apply Hha|]. intros <-.
        apply Hnb, Hin. eauto.
      + intros y. unfold e_has; simpl. rewrite elem_of_union, elem_of_singleton. specialize (Hd y). unfold e_has in Hd.
        destruct (decide (y = e)) as [->|]; [rewrite lookup_insert; naive_solver|].
        rewrite lookup_insert_ne by done. tauto.
      + intros _ Hnull y z. simpl. destruct (decide (y = e)) as [->|]; [rewrite lookup_insert; by intros [= <-]|].
        rewrite lookup_insert_ne by done. apply Hnull.
    - case_bool_decide as He; [|done]. injection Hs as <-. destruct He as [He Hn].
      eexists _, _; split; [reflexivity|].
      assert (e ∉ concat Bs) as Hnb. { rewrite Hin, Hn. by intros [? ?]. }
      split; [split; simpl|].
      + by apply e_free_rep.
      + done.
      + intros y z Hy. rewrite lookup_delete_ne; [by apply Hha|]. intros <-. congruence.
      + intros y. unfold e_has; simpl. rewrite elem_of_difference, elem_of_singleton. specialize (Hd y). unfold e_has in Hd.
        destruct (decide (y = e)) as [->|]; [rewrite lookup_delete; split; [by intros [? ?]|tauto]|].
        rewrite lookup_delete_ne by done. tauto.
      + intros _ Hnull y z. simpl. destruct (decide (y = e)) as [->|]; [by rewrite lookup_delete|].
        rewrite lookup_delete_ne by done. apply Hnull.
    - case_bool_decide as He; [|done]. injection Hs as <-. destruct He as [He Hn].
      assert (e ∉ concat Bs) as Hnb. { rewrite Hin, Hn. by intros [? ?]. }
      destruct (ht_maybe_grow_ok over mbc (hh s) t h Bs Hr Hmbc (hi_hh _ _ _ _ Hi))
        as (t1 & h1 & Hg & Hr1 & Hne1 & Hid1 & Hha1 & Hh1 & Hf1).
      fold (grown s t Bs) in Hr1, Hne1.
      assert (concat (grown s t Bs) ≡ₚ concat Bs) as Hp.
      { unfold grown. destruct (must_grow over mbc t); [|done]. apply at_rehash_perm.
        unfold grow_size, initial_size. repeat case_bool_decide; lia. }
      destruct (ht_link_ok t1 h1 (grown s t Bs) x e Hr1 Hne1) as (t2 & h2 & sl & Hl & Hr2 & Hid2 & Hha2 & Hh2 & Hf2).
      { by rewrite Hp. } { rewrite Hh1. by apply Hd. }
      assert (concat (at_link (grown s t Bs) x e) ≡ₚ e :: concat Bs) as Hp2 by (rewrite at_link_perm by done; by rewrite Hp).
      exists t2, h2. simpl. unfold ht_link. rewrite Hg. simpl. rewrite Hl. simpl. split; [done|].
      split; [split; simpl|].
      + done.
      + intros y. rewrite Hp2, elem_of_cons, Hin.
        destruct (decide (y = e)) as [->|]; [rewrite lookup_insert; naive_solver|].
        rewrite lookup_insert_ne by done. tauto.
      + intros y z. rewrite Hha2, Hha1. destruct (decide (y = e)) as [->|]; [by rewrite !lookup_insert|].
        rewrite !lookup_insert_ne by done. apply Hha.
      + intros y. by rewrite Hh2, Hh1.
      + intros _ Hnull y z Hy Hyn. rewrite Hp2 in Hyn.
        rewrite Hf2 in Hy by (by rewrite Hp). apply not_elem_of_cons in Hyn as [_ Hyn].
        rewrite Hf1 in Hy by done. by apply (Hnull y).
    - destruct (hs_linked s !! e) as [x|] eqn:El; [|done]. injection Hs as <-.
      assert (e ∈ concat Bs) as Hinb by (apply Hin; eauto).
      apply elem_of_list_split in Hinb as (L1 & L2 & E).
      pose proof (ht_find_pred_ok t h Bs L1 L2 e (S (size (e_succ h))) [] (proj1 Hr) E) as Hfp.
      change (last_slot (t_id t) []) with (before_begin_all t) in Hfp. simpl app in Hfp.
      destruct (at_unlink_ok t h Bs L1 e L2 Hr E) as (t' & h' & Hu & Hr' & Hc & Hid & Hha' & Hh' & Hn & Hf).
      exists t', h'. cbn [hstep]. rewrite Hfp.
      2:{ pose proof (chain_length _ _ _ (tr_chain _ _ _ (proj1 Hr)) (tr_nodup _ _ _ (proj1 Hr))) as Hl.
          rewrite E, app_length in Hl. simpl in Hl. lia. }
      cbn [rbind]. rewrite Hu. cbn [rbind]. split; [done|]. simpl at_step.
      assert (forall y, y ∈ concat (at_unlink Bs e) <-> y <> e /\ y ∈ concat Bs) as Hel.
      { intros y. rewrite at_unlink_elems, elem_of_list_filter. done. }
      split; [split; simpl|].
      + done.
      + intros y. rewrite Hel, Hin.
        destruct (decide (y = e)) as [->|]; [rewrite lookup_delete; split; [tauto|by intros [? ?]]|].
        rewrite lookup_delete_ne by done. tauto.
      + intros y z. rewrite lookup_delete_Some, Hha'. intros [_ ?]. by apply Hha.
      + intros y. by rewrite Hh'.
      + intros _ Hnull y z Hy Hyn. destruct (decide (y = e)) as [->|Hne]; [congruence|].
        rewrite Hel in Hyn. assert (y ∉ concat Bs) as Hyn' by tauto.
        rewrite Hf in Hy by done. by apply (Hnull y).
    - injection Hs as <-. simpl. unfold ht_reserve. case_bool_decide as Hlt; [|by exists t, h].
      destruct (ht_rehash_ok (hh s) t h Bs (reserve_count mbc req n) Hr) as (t' & h' & Hg & Hr' & Hid & Hha' & Hh' & Hf').
      { lia. } { by apply (hi_hh t). }
      exists t', h'. split; [done|].
      assert (concat (at_rehash (hh s) (reserve_count mbc req n) Bs) ≡ₚ concat Bs) as Hp by (apply at_rehash_perm; lia).
      split; [split; simpl|].
      + done.
      + intros y. by rewrite Hp.
      + intros y z. rewrite Hha'. apply Hha.
      + intros y. by rewrite Hh'.
      + intros _ Hnull y z Hy Hyn. rewrite Hp in Hyn. rewrite Hf' in Hy by done. by apply (Hnull y).
    - injection Hs as <-. eexists _, _; split; [reflexivity|].
      destruct (ht_move_ok i t h Bs Hr) as (Hr1 & _). split; [by split|done].
    - injection Hs as <-. eexists _, _; split; [reflexivity|].
      split; [|done]. split; simpl; try done.
      + by apply ht_clear_ok.
      + intros y. assert (concat (replicate (length Bs) (@nil N)) = []) as -> by (clear; induction (length Bs); done).
        rewrite lookup_empty, elem_of_nil. split; [done|by intros [? ?]].
  Qed.

  Lemma hrun_ok os t h s Bs s' : hinv t h s Bs -> hsem_run s os = Some s' ->
    exists t' h' Bs', hrun over mbc req (t, h) os = Ok (t', h') /\ hinv t' h' s' Bs' /\
      (HClear ∉ os -> hnull h Bs -> hnull h' Bs').
  Proof.
    revert t h s Bs. induction os as [|o os IH]; intros t h s Bs Hi Hs; simpl in Hs.
    - injection Hs as <-. by exists t, h, Bs.
    - destruct (hsem s o) as [s1|] eqn:E; simpl in Hs; [|done].
      destruct (hstep_ok t h s Bs o s1 Hi E) as (t1 & h1 & H1 & Hi1 & Hn1). cbn [hrun]. rewrite H1. cbn [rbind].
      destruct (IH t1 h1 s1 _ Hi1 Hs) as (t' & h' & Bs' & H' & Hi' & Hn'). exists t', h', Bs'.
      split_and!; [done..|]. intros Hc Hn. apply not_elem_of_cons in Hc as [Hc1 Hc2]. auto.
  Qed.

End hist.

  Lemma hinv_init i : hinv (table_init i) eheap_init hspec_init [].
  Proof.
    split; [apply table_init_rep|..]; simpl.
    - intros e. rewrite lookup_empty, elem_of_nil. split; [done|by intros [? ?]].
    - intros e x. by rewrite lookup_empty.
    - intros e. unfold e_has; simpl. rewrite lookup_empty. split; [by intros [? ?]|set_solver].
  Qed.
  Lemma hinv_observe t h s Bs : hinv t h s Bs ->
    ht_elements t h = Ok (concat Bs) /\ NoDup (concat Bs) /\ t_size t = size (hs_linked s) /\
    bucket_count t = length Bs /\
    (forall i, i < bucket_count t ->
      ht_bucket_elements t h i = Ok (filter (fun e => bidx (bucket_count t) (hh s e) = i) (concat Bs))).
  Proof.
    intros Hi. pose proof Hi as [Hr Hin Hha Hd]. pose proof (tr_nodup _ _ _ (proj1 Hr)) as Hnd.
    pose proof (tr_count _ _ _ (proj1 Hr)) as Hc.
    split_and!; [by apply ht_elements_ok|done| |done|].
    - destruct Hr as [_ ->]. rewrite <-size_dom, <-(size_list_to_set (C := gset N)) by done.
      f_equal. apply set_eq. intros e. rewrite elem_of_list_to_set, elem_of_dom. apply Hin.
    - intros i Hlt. rewrite Hc in *. rewrite (ht_bucket_elements_at t h Bs i (proj1 Hr) Hlt). f_equal.
      assert (forall b B e, Bs !! b = Some B -> e ∈ B -> bidx (length Bs) (hh s e) = b) as Hb.
      { intros b B e HB He. destruct (tr_hash _ _ _ (proj1 Hr) b B e HB He) as (x & Hx & <-).
        rewrite (hi_hh _ _ _ _ Hi e) in Hx; [congruence|].
        rewrite elem_of_list_In, in_concat. exists B. rewrite <-!elem_of_list_In. split; [|done]. by eapply elem_of_list_lookup_2. }
      unfold at_bucket. apply lookup_lt_is_Some_2 in Hlt as [B HB]. rewrite HB. simpl.
      revert HB Hb. generalize (bidx (length Bs)). intros f HB Hb.
      apply elem_of_list_split_length in HB as (Xs & Ys & -> & ->).
      rewrite concat_mid, !filter_app.
      assert (forall (Zs : list (list N)) k, (forall b B' e, Zs !! b = Some B' -> e ∈ B' -> f (hh s e) = k + b) ->
        (length Xs < k \/ k + length Zs <= length Xs) -> filter (fun e => f (hh s e) = length Xs) (concat Zs) = []) as Hnil.
      { clear. induction Zs as [|Z Zs IH]; intros k HZ Hk; [done|]. simpl. rewrite filter_app.
        rewrite (IH (S k)).
        - rewrite app_nil_r. assert (forall e, e ∈ Z -> f (hh s e) = k) as HZ0.
          { intros e He. rewrite (HZ 0 Z e) by done. lia. }
          clear -HZ0 Hk. induction Z as [|z Z IHZ]; [done|].
          rewrite filter_cons_False; [apply IHZ; [done|]; intros; apply HZ0; by right|].
          rewrite HZ0 by left. simpl in Hk. lia.
        - intros b B' e HB' He. rewrite (HZ (S b) B' e) by done. lia.
        - simpl in Hk. lia. }
      rewrite (Hnil Xs 0), (Hnil Ys (S (length Xs))).
      + simpl. rewrite app_nil_r.
        assert (forall e, e ∈ B -> f (hh s e) = length Xs) as HB0.
        { intros e He. apply (Hb (length Xs) B e); [|done]. by rewrite lookup_app_r, Nat.sub_diag by lia. }
        clear -HB0. induction B as [|z B IHB]; [done|].
        rewrite filter_cons_True by (apply HB0; left). f_equal. apply IHB. intros; apply HB0; by right.
      + intros b B' e HB' He. rewrite (Hb (S (length Xs + b)) B' e); [lia| |done].
        rewrite lookup_app_r by lia. by replace (S (length Xs + b) - length Xs) with (S b) by lia.
      + lia.
      + intros b B' e HB' He. simpl. apply (Hb b B' e); [|done]. rewrite lookup_app_l; [done|]. by eapply lookup_lt_Some.
      + lia.
  Qed.

  Lemma hinv_linked t h s Bs e : hinv t h s Bs -> hnull h Bs -> e ∈ hs_elems s ->
    is_hashtable_linked h e = Ok (bool_decide (e ∈ concat Bs /\ last (concat Bs) <> Some e)).
  Proof.
    intros [Hr Hin Hha Hd] Hn He. apply Hd in He as [z Hz]. unfold is_hashtable_linked. rewrite Hz. simpl. f_equal.
    pose proof (tr_chain _ _ _ (proj1 Hr)) as Hch. pose proof (tr_nodup _ _ _ (proj1 Hr)) as Hnd.
    destruct (decide (e ∈ concat Bs)) as [Hb|Hb].
    - apply elem_of_list_split in Hb as (L1 & L2 & E). rewrite E in *.
      rewrite cons_middle, app_assoc in Hch. apply chain_app in Hch. rewrite last_snoc in Hch.
      rewrite Hz in Hch. injection Hch as ->.
      destruct L2 as [|y L2 _] using rev_ind.
      + change (false = bool_decide (e ∈ L1 ++ [e] /\ last (L1 ++ [e]) <> Some e)). rewrite bool_decide_eq_false_2; [done|].
        rewrite last_snoc. naive_solver.
      + rewrite bool_decide_eq_true_2 by (destruct L2; simpl; eauto). rewrite bool_decide_eq_true_2; [done|].
        split; [apply elem_of_app; right; left|]. rewrite app_comm_cons, app_assoc, last_snoc. intros [= ->].
        apply NoDup_app in Hnd as (_ & _ & [Hnn _]%NoDup_cons). apply Hnn. apply elem_of_app; right; left.
    - rewrite (Hn e z Hz Hb). rewrite bool_decide_eq_false_2 by (by intros [? ?]).
      rewrite bool_decide_eq_false_2; [done|]. tauto.
  Qed.

(** * The facts behind PropertiesContainers.v *)
Lemma list_histories os s : lsem_run lspec_init os = Some s ->
  exists h, lrun ∅ os = Ok h /\
    (forall i L, ls_lists s !! i = Some L ->
       elements i h = Ok L /\ elements_back i h = Ok (reverse L) /\ empty i h = Ok (bool_decide (L = []))) /\
    (forall e, e ∈ ls_elems s ->
       is_linked h (ElemL e) = Ok (bool_decide (~ lfree s e))).
Proof.
  intros Hs. destruct (lrun_ok os _ _ _ linv_init Hs) as (h & Hr & Hi). exists h. split; [done|].
  by apply linv_observe.
Qed.

Lemma list_move_histories os s i j L :
  lsem_run lspec_init os = Some s -> ls_lists s !! j = Some L -> L <> [] -> ls_lists s !! i = None ->
  exists h h', lrun ∅ os = Ok h /\ list_move i j h = Ok h' /\
    elements i h' = Ok L /\ elements_back i h' = Ok (reverse L) /\
    elements j h' = Ok [] /\ empty j h' = Ok true /\
    (forall k M, k <> j -> ls_lists s !! k = Some M -> elements k h' = Ok M) /\
    (forall e, e ∈ ls_elems s -> is_linked h' (ElemL e) = is_linked h (ElemL e)).
Proof.
  intros Hs HL Hne Hi. destruct (lrun_ok os _ _ _ linv_init Hs) as (h & Hr & Hv). exists h.
  destruct (lstep_ok h s (LMove i j) (LSpec (ls_elems s) (<[i := L]> (<[j := []]> (ls_lists s)))) Hv) as (h' & Hm & Hv').
  { simpl. rewrite HL. simpl. rewrite Hi. destruct L; [done|reflexivity]. }
  exists h'. split; [done|]. split; [done|].
  destruct (linv_observe _ _ Hv') as [Ho Hlk]. destruct (linv_observe _ _ Hv) as [_ Hlk0]. simpl in Ho, Hlk.
  assert (i <> j) as Hij by congruence.
  destruct (Ho i L) as (?&?&_); [by rewrite lookup_insert|].
  destruct (Ho j []) as (?&_&?). { rewrite lookup_insert_ne by done. by rewrite lookup_insert. }
  split_and!; try done.
  - intros k M Hk HM. apply (Ho k M). rewrite !lookup_insert_ne by congruence. done.
  - intros e He. rewrite Hlk, Hlk0 by done. f_equal. apply bool_decide_ext.
    assert (lfree {| ls_elems := ls_elems s; ls_lists := <[i:=L]> (<[j:=[]]> (ls_lists s)) |} e <-> lfree s e); [|tauto].
    unfold lfree; simpl. split.
    + intros Hf k M HM. destruct (decide (k = j)) as [->|Hkj].
      * assert (M = L) as -> by congruence. apply (Hf i). by rewrite lookup_insert.
      * apply (Hf k). rewrite !lookup_insert_ne by congruence. done.
    + intros Hf k M HM. destruct (decide (k = i)) as [->|Hki].
      * rewrite lookup_insert in HM. injection HM as <-. by apply (Hf j).
      * rewrite lookup_insert_ne in HM by done. destruct (decide (k = j)) as [->|Hkj].
        -- rewrite lookup_insert in HM. injection HM as <-. apply not_elem_of_nil.
        -- rewrite lookup_insert_ne in HM by done. by apply (Hf k).
Qed.

Lemma list_move_empty_histories os s i j :
  lsem_run lspec_init os = Some s -> ls_lists s !! j = Some [] -> ls_lists s !! i = None ->
  exists h h', lrun ∅ os = Ok h /\ list_move i j h = Ok h' /\
    elements i h' = UB /\ elements j h' = UB /\ empty i h' = Ok false /\ empty j h' = Ok false.
Proof.
  intros Hs HL Hi. destruct (lrun_ok os _ _ _ linv_init Hs) as (h & Hr & Hv). exists h.
  assert (i <> j) as Hij by congruence.
  destruct (list_move_empty h i j) as (h' & Hm & H1 & H2); [by apply (li_rep _ _ Hv)|done|].
  exists h'. split; [done|]. split; [done|].
  unfold elements, empty, begin, rd. rewrite H1, H2. simpl.
  rewrite !bool_decide_eq_false_2 by congruence. done.
Qed.

Lemma table_histories over mbc req os s :
  0 < mbc -> hsem_run hspec_init os = Some s ->
  exists t h L, hrun over mbc req (table_init 0, eheap_init) os = Ok (t, h) /\
    ht_elements t h = Ok L /\ NoDup L /\ (forall e, e ∈ L <-> is_Some (hs_linked s !! e)) /\
    t_size t = size (hs_linked s) /\
    (forall i, i < bucket_count t ->
       ht_bucket_elements t h i =
         Ok (filter (fun e => bidx (bucket_count t) (default 0%N (hs_linked s !! e)) = i) L)).
Proof.
  intros Hm Hs.
  destruct (hrun_ok over mbc req Hm os _ _ _ _ _ (hinv_init 0) Hs) as (t & h & Bs & Hr & Hi & _).
  destruct (hinv_observe t h s Bs Hi) as (H1 & H2 & H3 & H4 & H5).
  exists t, h, (concat Bs). split_and!; try done. apply Hi.
Qed.

Lemma hinv_bucket t h s Bs i : hinv t h s Bs -> i < length Bs ->
  at_bucket Bs i = filter (fun e => bidx (length Bs) (hh s e) = i) (concat Bs).
Proof.
  intros Hi Hlt. destruct (hinv_observe t h s Bs Hi) as (_ & _ & _ & H4 & H5).
  rewrite H4 in H5. specialize (H5 i Hlt). rewrite (ht_bucket_elements_at t h Bs i) in H5 by (try done; apply Hi).
  by injection H5.
Qed.
Lemma at_rehash_bucket hf n Bs i : i < n ->
  at_bucket (at_rehash hf n Bs) i = filter (fun e => bidx n (hf e) = i) (concat Bs).
Proof.
  intros Hlt. unfold at_bucket, at_rehash. rewrite list_lookup_fmap, lookup_seq_lt by done. done.
Qed.
Lemma at_link_bucket Bs x e i : i < length Bs ->
  at_bucket (at_link Bs x e) i = at_bucket Bs i ++ (if bool_decide (bidx (length Bs) x = i) then [e] else []).
Proof.
  intros Hlt. unfold at_bucket, at_link. case_bool_decide as Hb.
  - rewrite Hb, list_lookup_alter. apply lookup_lt_is_Some_2 in Hlt as [B HB]. by rewrite HB.
  - rewrite list_lookup_alter_ne by done. by rewrite app_nil_r.
Qed.

Lemma table_order over mbc req os s :
  0 < mbc -> hsem_run hspec_init os = Some s ->
  exists t h L, hrun over mbc req (table_init 0, eheap_init) os = Ok (t, h) /\ ht_elements t h = Ok L /\
    (forall x e, e ∈ hs_elems s -> hs_linked s !! e = None ->
       exists t' h' s', ht_link over mbc t h x e = Ok (t', h', s') /\
       forall i, i < bucket_count t' ->
         ht_bucket_elements t' h' i =
           Ok (filter (fun y => bidx (bucket_count t') (default 0%N (<[e := x]> (hs_linked s) !! y)) = i) (L ++ [e]))) /\
    (forall n, exists t' h', ht_reserve mbc req t h n = Ok (t', h') /\
       bucket_count t <= bucket_count t' /\
       forall i, i < bucket_count t' ->
         ht_bucket_elements t' h' i =
           Ok (filter (fun y => bidx (bucket_count t') (default 0%N (hs_linked s !! y)) = i) L)).
Proof.
  intros Hm Hs.
  destruct (hrun_ok over mbc req Hm os _ _ _ _ _ (hinv_init 0) Hs) as (t & h & Bs & Hr & Hi & _).
  destruct (hinv_observe t h s Bs Hi) as (H1 & H2 & H3 & H4 & H5).
  exists t, h, (concat Bs). split_and!; try done.
  - intros x e He Hn.
    destruct (hstep_ok over mbc req Hm t h s Bs (HLink x e) (HSpec (hs_elems s) (<[e := x]> (hs_linked s))) Hi)
      as (t' & h' & Hst & Hi' & _).
    { simpl. by rewrite bool_decide_eq_true_2. }
    simpl in Hst. destruct (ht_link over mbc t h x e) as [[[t1 h1] s1]| | |]; simpl in Hst; try done.
    injection Hst as -> ->. exists t', h', s1. split; [done|].
    destruct (hinv_observe _ _ _ _ Hi') as (_ & _ & _ & H4' & _).
    intros i Hlt. rewrite H4' in *. rewrite (ht_bucket_elements_at t' h' _ i (proj1 (hi_rep _ _ _ _ Hi')) Hlt). f_equal.
    cbn [at_step] in *. rewrite at_link_length in *. set (G := grown over mbc s t Bs) in *.
    rewrite at_link_bucket by done.
    assert (e ∉ concat Bs) as Hnb. { rewrite (hi_in _ _ _ _ Hi), Hn. by intros [? ?]. }
    assert (at_bucket G i = filter (fun y => bidx (length G) (hh s y) = i) (concat Bs)) as ->.
    { unfold G, grown in *. destruct (must_grow over mbc t).
      - rewrite at_rehash_length in *. by apply at_rehash_bucket.
      - by eapply hinv_bucket. }
    rewrite filter_app. f_equal.
    + clear -Hnb. induction (concat Bs) as [|c C IH]; [done|].
      apply not_elem_of_cons in Hnb as [? ?].
      assert (default 0%N (<[e:=x]> (hs_linked s) !! c) = hh s c) as Hc by (by rewrite lookup_insert_ne by congruence).
      destruct (decide (bidx (length G) (hh s c) = i)).
      * rewrite !filter_cons_True; [by rewrite IH|by rewrite Hc|done].
      * rewrite !filter_cons_False; [by rewrite IH|by rewrite Hc|done].
    + case_bool_decide as Hb.
      * rewrite filter_cons_True; [by rewrite filter_nil|]. by rewrite lookup_insert.
      * rewrite filter_cons_False; [by rewrite filter_nil|]. by rewrite lookup_insert.
  - intros n.
    destruct (hstep_ok over mbc req Hm t h s Bs (HReserve n) s Hi eq_refl) as (t' & h' & Hst & Hi' & _).
    cbn [hstep at_step] in *. exists t', h'. split; [done|].
    destruct (hinv_observe _ _ _ _ Hi') as (_ & _ & _ & H4' & _).
    rewrite H4'. case_bool_decide as Hb.
    + rewrite at_rehash_length in *. split; [lia|]. intros i Hlt.
      rewrite (ht_bucket_elements_at t' h' _ i (proj1 (hi_rep _ _ _ _ Hi'))) by (by rewrite at_rehash_length).
      f_equal. by apply at_rehash_bucket.
    + split; [lia|]. intros i Hlt. rewrite (ht_bucket_elements_at t' h' _ i (proj1 (hi_rep _ _ _ _ Hi')) Hlt).
      f_equal. by eapply hinv_bucket.
Qed.

Lemma table_move over mbc req os s i :
  0 < mbc -> hsem_run hspec_init os = Some s ->
  exists t h t' y, hrun over mbc req (table_init 0, eheap_init) os = Ok (t, h) /\ ht_move i t = (t', y) /\
    ht_elements t' h = ht_elements t h /\ t_size t' = t_size t /\ bucket_count t' = bucket_count t /\
    (forall b, b < bucket_count t -> ht_bucket_elements t' h b = ht_bucket_elements t h b) /\
    y = table_init (t_id t).
Proof.
  intros Hm Hs.
  destruct (hrun_ok over mbc req Hm os _ _ _ _ _ (hinv_init 0) Hs) as (t & h & Bs & Hr & Hi & _).
  exists t, h, (ht_move i t).1, (ht_move i t).2. destruct (ht_move_ok i t h Bs (hi_rep _ _ _ _ Hi)) as (Hm1 & _).
  pose proof (tr_count _ _ _ (proj1 (hi_rep _ _ _ _ Hi))) as Hc.
  split_and!; try done.
  - rewrite (ht_elements_ok _ _ _ Hm1), (ht_elements_ok _ _ _ (hi_rep _ _ _ _ Hi)). done.
  - by rewrite (tr_count _ _ _ (proj1 Hm1)), Hc.
  - intros b Hb. rewrite Hc in Hb. rewrite !(ht_bucket_elements_at _ _ Bs); try done; [apply Hi|apply Hm1].
Qed.

Lemma table_linked over mbc req os s :
  0 < mbc -> hsem_run hspec_init os = Some s -> HClear ∉ os ->
  exists t h L, hrun over mbc req (table_init 0, eheap_init) os = Ok (t, h) /\ ht_elements t h = Ok L /\
    forall e, e ∈ hs_elems s ->
      is_hashtable_linked h e = Ok (bool_decide (is_Some (hs_linked s !! e) /\ last L <> Some e)).
Proof.
  intros Hm Hs Hnc.
  destruct (hrun_ok over mbc req Hm os _ _ _ _ _ (hinv_init 0) Hs) as (t & h & Bs & Hr & Hi & Hn).
  exists t, h, (concat Bs). split; [done|]. split; [apply ht_elements_ok, Hi|].
  intros e He. rewrite (hinv_linked t h s Bs e Hi); [|apply Hn; [done|]|done].
  - f_equal. apply bool_decide_ext. by rewrite (hi_in _ _ _ _ Hi).
  - intros x y Hx. simpl in Hx. by rewrite lookup_empty in Hx.
Qed.

Lemma queue_histories os s : qsem_run ∅ os = Some s ->
  exists q hot cold, qrun queue_init os = Ok q /\
    elements 0 (q_links q) = Ok (hot ++ cold) /\ NoDup (hot ++ cold) /\
    (forall e, e ∈ hot ++ cold <-> e ∈ s) /\
    (length cold = length hot \/ length cold = S (length hot)) /\
    (forall e, e ∈ hot -> q_hot q !! e = Some (Some true)) /\
    (forall e, e ∈ cold -> q_hot q !! e = Some (Some false)) /\
    (hot, cold) = foldl aq_step ([], []) os /\
    (forall n, lru_expire q n = Ok (take n (reverse cold))).
Proof.
  intros Hs. destruct (qrun_ok os _ _ _ _ qinv_init Hs) as (q & Hr & Hi).
  destruct (foldl aq_step ([], []) os) as [hot cold] eqn:E. pose proof Hi as [Hq Hin Hhas].
  exists q, hot, cold. split_and!; try done.
  - apply elements_ok. apply (qr_l _ _ Hq).
  - apply (qrep_nodup _ _ Hq).
  - apply (qr_bal _ _ Hq).
  - apply (qr_hot _ _ Hq).
  - apply (qr_cold _ _ Hq).
  - intros n. apply (lru_expire_ok q (hot, cold) n Hq).
Qed.

Lemma queue_hit_recent os s v : qsem_run ∅ os = Some s -> v ∈ s ->
  exists q q' r, qrun queue_init os = Ok q /\ on_hit q v = Ok q' /\
    elements 0 (q_links q') = Ok (v :: r) /\
    (2 <= size s -> q_hot q' !! v = Some (Some true) /\
       forall n L, lru_expire q' n = Ok L -> v ∉ L).
Proof.
  intros Hs Hv. destruct (qrun_ok os _ _ _ _ qinv_init Hs) as (q & Hr & Hi).
  set (a := foldl aq_step ([], []) os) in *. pose proof Hi as [Hq Hin Hhas].
  destruct (qstep_ok q s a (QHit v) s Hi) as (q' & Hh & Hi').
  { simpl. by rewrite bool_decide_eq_true_2. }
  simpl in Hh, Hi'. exists q, q'. pose proof Hi' as [Hq' Hin' _].
  assert (NoDup (aq_elems (aq_hit a v))) as Hnd by apply (qrep_nodup _ _ Hq').
  pose proof (elements_ok _ _ _ (proj1 (qr_l _ _ Hq'))) as Hel.
  assert (exists r, aq_elems (aq_hit a v) = v :: r) as [r Hr'].
  { unfold aq_hit, aq_elems. destruct a as [H C]; simpl. case_bool_decide; [by eexists|].
    destruct (last H); by eexists. }
  exists r. split; [done|]. split; [done|]. split; [by rewrite Hel, Hr'|]. intros Hsz.
  assert (length (aq_elems a) = size s) as Hlen.
  { rewrite <-(size_list_to_set (C := gset N)) by apply (qrep_nodup _ _ Hq). f_equal. apply set_eq.
    intros e. rewrite elem_of_list_to_set. apply Hin. }
  assert (v ∈ (aq_hit a v).1) as Hhot.
  { unfold aq_hit. destruct a as [H C] eqn:Ea; simpl. case_bool_decide; [by left|].
    destruct (last H) eqn:El; [by left|]. apply last_None in El as ->.
    pose proof (qr_bal _ _ Hq) as Hb. unfold aq_balanced in Hb; simpl in Hb. unfold aq_elems in Hlen; simpl in Hlen. lia. }
  split; [by apply (qr_hot _ _ Hq')|].
  intros n L HL. rewrite (lru_expire_ok q' _ n Hq') in HL. injection HL as <-.
  unfold aq_victims. intros Hin2. apply elem_of_take in Hin2 as (k & Hk & _).
  apply elem_of_list_lookup_2 in Hk. rewrite elem_of_reverse in Hk.
  unfold aq_elems in Hnd. apply NoDup_app in Hnd as (_ & Hdj & _). by apply (Hdj v).
Qed.
