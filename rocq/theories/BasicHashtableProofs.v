(** The pointer-level hash table refines the list-of-buckets specification. *)
From Verif Require Import Base BasicHashtable ATable.

(** ** Chains *)
Fixpoint chain (h : gmap N (option N)) (o : option N) (L : list N) : Prop :=
  match L with
  | [] => o = None
  | e :: L' => o = Some e /\ exists s, h !! e = Some s /\ chain h s L'
  end.

Definition last_slot (i : N) (L : list N) : slot :=
  match last L with Some e => SSucc e | None => SHead i end.

Lemma last_slot_snoc i L e : last_slot i (L ++ [e]) = SSucc e.
Proof. unfold last_slot. by rewrite last_snoc. Qed.
Lemma last_slot_app i P B : B <> [] -> last_slot i (P ++ B) = last_slot i B.
Proof.
  destruct B as [|b B _] using rev_ind; [done|]. intros _.
  by rewrite app_assoc, !last_slot_snoc.
Qed.
Lemma last_slot_in i L e : last_slot i L = SSucc e -> e ∈ L.
Proof.
  unfold last_slot. destruct (last L) eqn:E; [|done]. intros [= <-]. by apply last_Some_elem_of.
Qed.
Lemma last_slot_head i j L : last_slot i L = SHead j -> L = [] /\ i = j.
Proof. unfold last_slot. destruct (last L) eqn:E; [done|]. apply last_None in E. naive_solver. Qed.

Lemma chain_head h o L : chain h o L -> o = head L.
Proof. destruct L; simpl; naive_solver. Qed.
Lemma chain_dom h o L e : chain h o L -> e ∈ L -> is_Some (h !! e).
Proof.
  revert o. induction L as [|x L IH]; intros o; simpl; [by inversion 2|].
  intros (-> & s & Hs & Hc) [->|Hin]%elem_of_cons; eauto.
Qed.
Lemma chain_frame h h' o L :
  (forall e, e ∈ L -> h' !! e = h !! e) -> chain h o L -> chain h' o L.
Proof.
  revert o. induction L as [|x L IH]; intros o Hf; simpl; [done|].
  intros (-> & s & Hs & Hc). split; [done|]. exists s. rewrite Hf by set_solver. split; [done|].
  apply IH; [|done]. intros; apply Hf; set_solver.
Qed.
Lemma chain_app h o L1 L2 :
  chain h o (L1 ++ L2) ->
  match last L1 with
  | Some e => h !! e = Some (head L2)
  | None => o = head L2
  end.
Proof.
  revert o. induction L1 as [|x L1 IH]; intros o; simpl.
  - apply chain_head.
  - intros (-> & s & Hs & Hc). apply IH in Hc. destruct L1 as [|y L1]; [simpl in *; by subst|].
    change (last (x :: y :: L1)) with (last (y :: L1)).
    destruct (last (y :: L1)) eqn:E; [done|]. by apply last_None in E.
Qed.

(** insertion after [L1] *)
Lemma chain_insert h o L1 e L2 :
  chain h o (L1 ++ L2) -> NoDup (L1 ++ e :: L2) ->
  match last L1 with
  | Some x => chain (<[x := Some e]> (<[e := head L2]> h)) o (L1 ++ e :: L2)
  | None => chain (<[e := head L2]> h) (Some e) (L1 ++ e :: L2)
  end.
Proof.
  intros Hc Hnd.
  assert (chain (<[e := head L2]> h) (Some e) (e :: L2)) as Htail.
  { split; [done|]. exists (head L2). rewrite lookup_insert. split; [done|].
    apply NoDup_app in Hnd as (_ & _ & [He Hnd]%NoDup_cons).
    assert (exists o', chain h o' L2) as [o' Hc2].
    { clear -Hc. revert o Hc. induction L1 as [|x L1 IH]; intros o; simpl; [eauto|].
      intros (_ & s & _ & Hc). eauto. }
    pose proof (chain_head _ _ _ Hc2) as ->.
    eapply chain_frame; [|exact Hc2]. intros y Hy. rewrite lookup_insert_ne; [done|]. intros ->. done. }
  destruct (last L1) as [x|] eqn:El; [|apply last_None in El as ->; done].
  revert o Hc. induction L1 as [|y L1 IH]; intros o; [done|].
  intros (-> & s & Hs & Hc). split; [done|].
  assert (NoDup (L1 ++ e :: L2)) as Hnd' by (simpl in Hnd; apply NoDup_cons in Hnd; tauto).
  assert (y ∉ L1 ++ e :: L2) as Hy by (simpl in Hnd; apply NoDup_cons in Hnd; tauto).
  destruct L1 as [|z L1].
  - simpl in El. injection El as ->. exists (Some e). rewrite lookup_insert. split; [done|].
    eapply chain_frame; [|exact Htail]. intros w Hw. rewrite lookup_insert_ne; [done|].
    intros ->. done.
  - assert (last (z :: L1) = Some x) as El' by done.
    specialize (IH Hnd' El' s Hc).
    exists s. split; [|exact IH].
    assert (x ∈ z :: L1) as Hx by by apply last_Some_elem_of.
    rewrite !lookup_insert_ne; [done| |]; intros ->; apply Hy; [|apply elem_of_app; left; done].
    apply elem_of_app; right; left.
Qed.

(** removal of [e] after [L1] *)
Lemma chain_remove h o L1 e L2 :
  chain h o (L1 ++ e :: L2) -> NoDup (L1 ++ e :: L2) ->
  h !! e = Some (head L2) /\
  match last L1 with
  | Some x => chain (<[x := head L2]> (<[e := None]> h)) o (L1 ++ L2)
  | None => chain (<[e := None]> h) (head L2) (L1 ++ L2)
  end.
Proof.
  intros Hc Hnd.
  assert (h !! e = Some (head L2)) as He.
  { rewrite cons_middle, app_assoc in Hc. apply chain_app in Hc. by rewrite last_snoc in Hc. }
  split; [done|].
  assert (chain (<[e := None]> h) (head L2) L2) as Htail.
  { apply NoDup_app in Hnd as (_ & _ & [Hee Hnd]%NoDup_cons).
    assert (exists o', chain h o' L2) as [o' Hc2].
    { clear -Hc. revert o Hc. induction L1 as [|x L1 IH]; intros o; simpl.
      - intros (_ & s & _ & Hc). eauto.
      - intros (_ & s & _ & Hc). eauto. }
    pose proof (chain_head _ _ _ Hc2) as ->.
    eapply chain_frame; [|exact Hc2]. intros y Hy. rewrite lookup_insert_ne; [done|]. intros ->. done. }
  destruct (last L1) as [x|] eqn:El; [|apply last_None in El as ->; done].
  revert o Hc. induction L1 as [|y L1 IH]; intros o; [done|].
  intros (-> & s & Hs & Hc). split; [done|].
  assert (NoDup (L1 ++ e :: L2)) as Hnd' by (simpl in Hnd; apply NoDup_cons in Hnd; tauto).
  assert (y ∉ L1 ++ e :: L2) as Hy by (simpl in Hnd; apply NoDup_cons in Hnd; tauto).
  destruct L1 as [|z L1].
  - simpl in El. injection El as ->. exists (head L2). rewrite lookup_insert. split; [done|].
    eapply chain_frame; [|exact Htail]. intros w Hw. rewrite lookup_insert_ne; [done|].
    intros ->. apply Hy. simpl. by right.
  - assert (last (z :: L1) = Some x) as El' by done.
    specialize (IH Hnd' El' s Hc).
    exists s. split; [|exact IH].
    assert (x ∈ z :: L1) as Hx by by apply last_Some_elem_of.
    rewrite !lookup_insert_ne; [done| |]; intros ->; apply Hy; [|apply elem_of_app; left; done].
    apply elem_of_app; right; left.
Qed.

(** ** Bucket pointers *)
Fixpoint bslots (i : N) (P : list N) (Bs : list (list N)) : list slot :=
  match Bs with
  | [] => []
  | B :: Bs' => last_slot i (P ++ B) :: bslots i (P ++ B) Bs'
  end.

Lemma bslots_length i P Bs : length (bslots i P Bs) = length Bs.
Proof. revert P. induction Bs; intros; simpl; auto. Qed.
Lemma bslots_app i P Xs Ys : bslots i P (Xs ++ Ys) = bslots i P Xs ++ bslots i (P ++ concat Xs) Ys.
Proof.
  revert P. induction Xs as [|X Xs IH]; intros P; simpl.
  - by rewrite app_nil_r.
  - by rewrite IH, app_assoc.
Qed.
Lemma bslots_prefix i P P' B Bs : B <> [] -> bslots i (P ++ B) Bs = bslots i (P' ++ B) Bs.
Proof.
  revert P P' B. induction Bs as [|C Bs IH]; intros P P' B HB; simpl; [done|].
  rewrite <-!app_assoc. rewrite !(last_slot_app i _ (B ++ C)) by (destruct B; done).
  f_equal. apply IH. destruct B; done.
Qed.
Lemma bslots_lookup i P Bs b : b < length Bs ->
  bslots i P Bs !! b = Some (last_slot i (P ++ concat (take (S b) Bs))).
Proof.
  revert P b. induction Bs as [|B Bs IH]; intros P b Hb; simpl in *; [lia|].
  destruct b as [|b]; simpl; [by rewrite app_nil_r|].
  rewrite IH by lia. by rewrite <-app_assoc.
Qed.
Lemma bslots_nil i n : bslots i [] (replicate n []) = replicate n (SHead i).
Proof. induction n; simpl; [done|]. by f_equal. Qed.

Lemma retarget_link i P e Ys :
  NoDup (P ++ concat Ys) ->
  retarget (last_slot i P) (SSucc e) (bslots i P Ys) = bslots i (P ++ [e]) Ys.
Proof.
  induction Ys as [|B Ys IH]; intros Hnd; simpl; [done|].
  destruct B as [|b B].
  - rewrite !app_nil_r. rewrite bool_decide_eq_true_2 by done. rewrite last_slot_snoc.
    f_equal. apply IH. done.
  - rewrite bool_decide_eq_false_2.
    + rewrite !(last_slot_app i _ (b :: B)) by done. f_equal. by apply bslots_prefix.
    + rewrite (last_slot_app i _ (b :: B)) by done. intros E.
      destruct (last (b :: B)) as [x|] eqn:El; [|by apply last_None in El].
      unfold last_slot at 1 in E. rewrite El in E. symmetry in E.
      apply last_slot_in in E. apply last_Some_elem_of in El.
      apply NoDup_app in Hnd as (_ & Hdj & _). eapply Hdj; [exact E|].
      simpl. apply (elem_of_app (b :: B)). by left.
Qed.
Lemma retarget_unlink i P e Ys :
  NoDup (P ++ e :: concat Ys) ->
  retarget (SSucc e) (last_slot i P) (bslots i (P ++ [e]) Ys) = bslots i P Ys.
Proof.
  induction Ys as [|B Ys IH]; intros Hnd; simpl; [done|].
  destruct B as [|b B].
  - rewrite !app_nil_r. rewrite last_slot_snoc, bool_decide_eq_true_2 by done.
    f_equal. apply IH. done.
  - rewrite bool_decide_eq_false_2.
    + rewrite !(last_slot_app i _ (b :: B)) by done. f_equal. by apply bslots_prefix.
    + rewrite (last_slot_app i _ (b :: B)) by done. intros E.
      apply last_slot_in in E.
      apply NoDup_app in Hnd as (_ & _ & [Hnd _]%NoDup_cons). apply Hnd.
      simpl. apply (elem_of_app (b :: B)). by left.
Qed.

(** ** The refinement relation *)
Record trep0 (t : table) (h : eheap) (Bs : list (list N)) : Prop := {
  tr_nodup : NoDup (concat Bs);
  tr_chain : chain (e_succ h) (t_head t) (concat Bs);
  tr_buckets : t_buckets t = bslots (t_id t) [] Bs;
  tr_hash : forall b B e, Bs !! b = Some B -> e ∈ B ->
    exists x, e_hash h !! e = Some x /\ bidx (length Bs) x = b;
  tr_dom : forall e, is_Some (e_succ h !! e) <-> is_Some (e_hash h !! e)
}.
Definition trep (t : table) (h : eheap) (Bs : list (list N)) : Prop :=
  trep0 t h Bs /\ t_size t = length (concat Bs).

Definition e_has (h : eheap) (e : N) : Prop := is_Some (e_succ h !! e).

Lemma tr_count t h Bs : trep0 t h Bs -> bucket_count t = length Bs.
Proof. intros Hr. unfold bucket_count. by rewrite (tr_buckets _ _ _ Hr), bslots_length. Qed.
Lemma bucket_for_bidx t x : bucket_for_hash t x = bidx (bucket_count t) x.
Proof. unfold bucket_for_hash, bidx. by destruct (bucket_count t). Qed.
Lemma bidx_lt n x : n <> 0 -> bidx n x < n.
Proof.
  intros Hn. unfold bidx. destruct n; [done|].
  pose proof (N.mod_lt x (N.of_nat (S n))). lia.
Qed.

Lemma trep0_elem_dom t h Bs e : trep0 t h Bs -> e ∈ concat Bs -> e_has h e.
Proof. intros Hr He. eapply chain_dom; [apply Hr|done]. Qed.

Lemma rd_last_slot t h Bs L1 L2 :
  trep0 t h Bs -> concat Bs = L1 ++ L2 -> rd_slot t h (last_slot (t_id t) L1) = Ok (head L2).
Proof.
  intros Hr E. pose proof (tr_chain _ _ _ Hr) as Hc. rewrite E in Hc.
  apply chain_app in Hc. unfold last_slot. destruct (last L1); simpl.
  - by rewrite Hc.
  - rewrite bool_decide_eq_true_2 by done. by rewrite Hc.
Qed.

Lemma concat_mid (Xs : list (list N)) B Ys : concat (Xs ++ B :: Ys) = concat Xs ++ B ++ concat Ys.
Proof. by rewrite concat_app. Qed.

(** ** append to a bucket *)
Lemma append_bucket_ok t h Xs B Ys e :
  trep0 t h (Xs ++ B :: Ys) -> e ∉ concat (Xs ++ B :: Ys) ->
  (exists x, e_hash h !! e = Some x /\ bidx (length (Xs ++ B :: Ys)) x = length Xs) ->
  exists t' h', append_bucket t h (length Xs) e = Ok (t', h', last_slot (t_id t) (concat Xs ++ B)) /\
    trep0 t' h' (Xs ++ (B ++ [e]) :: Ys) /\ t_size t' = t_size t /\ t_id t' = t_id t /\
    e_hash h' = e_hash h /\ (forall x, e_has h' x <-> e_has h x) /\
    (forall x, x ∉ e :: concat (Xs ++ B :: Ys) -> e_succ h' !! x = e_succ h !! x).
Proof.
  intros Hr He (hx & Hhx & Hbx).
  pose proof Hr as [Hnd Hch Hbu Hha Hdo].
  assert (e_has h e) as Hhas by (apply Hdo; eauto).
  set (i := t_id t) in *. set (P := concat Xs ++ B).
  assert (concat (Xs ++ B :: Ys) = P ++ concat Ys) as HL by (unfold P; by rewrite concat_mid, app_assoc).
  assert (t_buckets t = bslots i [] Xs ++ bslots i P ([] :: Ys)) as Hbs.
  { rewrite Hbu, bslots_app. simpl. by rewrite app_nil_r. }
  assert (t_buckets t !! length Xs = Some (last_slot i P)) as Hlk.
  { rewrite Hbs, lookup_app_r by (rewrite bslots_length; lia).
    rewrite bslots_length, Nat.sub_diag. simpl. by rewrite app_nil_r. }
  assert (concat (Xs ++ (B ++ [e]) :: Ys) = P ++ e :: concat Ys) as HL'.
  { unfold P. rewrite concat_mid. by rewrite <-!app_assoc. }
  assert (NoDup (P ++ e :: concat Ys)) as Hnd'.
  { rewrite HL in Hnd, He. apply NoDup_app in Hnd as (?&?&?). apply NoDup_app.
    split_and!; [done| |].
    - intros x Hx [->|Hin]%elem_of_cons; [apply He; apply elem_of_app; by left|naive_solver].
    - apply NoDup_cons. split; [|done]. intros ?. apply He. apply elem_of_app; by right. }
  unfold append_bucket. rewrite Hlk. cbn [deref rbind].
  pose proof (rd_last_slot t h _ P (concat Ys) Hr HL) as Hrd. fold i in Hrd. rewrite Hrd. cbn [rbind].
  unfold wr_succ. destruct Hhas as [se Hse]. rewrite Hse. cbn [deref rbind].
  set (h1 := MkEHeap (<[e:=head (concat Ys)]> (e_succ h)) (e_hash h)).
  pose proof Hch as Hch'. rewrite HL in Hch'.
  pose proof (chain_insert _ _ _ _ _ Hch' Hnd') as Hins.
  assert (forall bs, bs = bslots i [] Xs ++ bslots i P ([] :: Ys) ->
    retarget_from (length Xs) (last_slot i P) (SSucc e) bs = bslots i [] (Xs ++ (B ++ [e]) :: Ys)) as Hret.
  { intros bs ->. unfold retarget_from.
    assert (length Xs = length (bslots i [] Xs)) as Elen by (by rewrite bslots_length).
    rewrite Elen at 1 2. rewrite take_app, drop_app.
    rewrite retarget_link by (simpl; by rewrite HL in Hnd).
    rewrite bslots_app. simpl. unfold P. by rewrite app_nil_r, !app_assoc. }
  unfold last_slot at 1. destruct (last P) as [x|] eqn:El.
  - (* predecessor is an element *)
    assert (x ∈ P) as Hx by by apply last_Some_elem_of.
    assert (x <> e) as Hxe.
    { intros ->. apply NoDup_app in Hnd' as (_&Hdj&_). apply (Hdj e Hx). left. }
    assert (e_has h x) as [sx Hsx].
    { eapply trep0_elem_dom; [exact Hr|]. rewrite HL. apply elem_of_app; by left. }
    cbn [wr_slot]. unfold wr_succ. cbn [h1 e_succ].
    rewrite lookup_insert_ne by done. rewrite Hsx. cbn [deref rbind].
    eexists _, _. split; [reflexivity|].
    split.
    + split; simpl.
      * by rewrite HL'.
      * rewrite HL'. exact Hins.
      * by apply Hret.
      * intros b C y Hb Hy. rewrite app_length in *. simpl in *.
        destruct (decide (b = length Xs)) as [->|Hne].
        -- rewrite lookup_app_r, Nat.sub_diag in Hb by lia. injection Hb as <-.
           apply elem_of_app in Hy as [Hy|Hy].
           ++ apply (Hha (length Xs) B y); [|done]. by rewrite lookup_app_r, Nat.sub_diag by lia.
           ++ apply elem_of_list_singleton in Hy as ->. eauto.
        -- apply (Hha b C y); [|done]. destruct (decide (b < length Xs)).
           ++ by rewrite lookup_app_l in * by done.
           ++ rewrite lookup_app_r in * by lia. destruct (b - length Xs) eqn:E; [lia|done].
      * intros y. rewrite <-Hdo. destruct (decide (y = x)) as [->|]; [rewrite lookup_insert; naive_solver|].
        rewrite lookup_insert_ne by done.
        destruct (decide (y = e)) as [->|]; [rewrite lookup_insert; naive_solver|].
        by rewrite lookup_insert_ne.
    + split_and!; try done.
      * intros y. unfold e_has; simpl. destruct (decide (y = x)) as [->|]; [rewrite lookup_insert; naive_solver|].
        rewrite lookup_insert_ne by done.
        destruct (decide (y = e)) as [->|]; [rewrite lookup_insert; naive_solver|].
        by rewrite lookup_insert_ne.
      * intros y Hy. simpl. rewrite !lookup_insert_ne; [done| |].
        -- intros ->. apply Hy. left.
        -- intros ->. apply Hy. right. rewrite HL. apply elem_of_app; by left.
  - (* predecessor is the head *)
    apply last_None in El. simpl. rewrite bool_decide_eq_true_2 by done. cbn [rbind].
    eexists _, _. split; [reflexivity|].
    split.
    + split; simpl.
      * by rewrite HL'.
      * rewrite HL'. rewrite El in *. simpl in *. exact Hins.
      * by apply Hret.
      * intros b C y Hb Hy. rewrite app_length in *. simpl in *.
        destruct (decide (b = length Xs)) as [->|Hne].
        -- rewrite lookup_app_r, Nat.sub_diag in Hb by lia. injection Hb as <-.
           apply elem_of_app in Hy as [Hy|Hy].
           ++ apply (Hha (length Xs) B y); [|done]. by rewrite lookup_app_r, Nat.sub_diag by lia.
           ++ apply elem_of_list_singleton in Hy as ->. eauto.
        -- apply (Hha b C y); [|done]. destruct (decide (b < length Xs)).
           ++ by rewrite lookup_app_l in * by done.
           ++ rewrite lookup_app_r in * by lia. destruct (b - length Xs) eqn:E; [lia|done].
      * intros y. rewrite <-Hdo. 
        destruct (decide (y = e)) as [->|]; [rewrite lookup_insert; naive_solver|].
        by rewrite lookup_insert_ne.
    + split_and!; try done.
      * intros y. unfold e_has; simpl. 
        destruct (decide (y = e)) as [->|]; [rewrite lookup_insert; naive_solver|].
        by rewrite lookup_insert_ne.
      * intros y Hy. simpl. rewrite !lookup_insert_ne; [done|].
        intros ->. apply Hy. left.
Qed.

Lemma bidx_split (Bs : list (list N)) x : Bs <> [] -> exists Xs B Ys, Bs = Xs ++ B :: Ys /\ length Xs = bidx (length Bs) x.
Proof.
  intros Hne. assert (bidx (length Bs) x < length Bs) as Hlt.
  { apply bidx_lt. destruct Bs; simpl; [done|lia]. }
  apply lookup_lt_is_Some_2 in Hlt as [B HB].
  exists (take (bidx (length Bs) x) Bs), B, (drop (S (bidx (length Bs) x)) Bs).
  split; [by rewrite take_drop_middle|]. rewrite take_length. apply lookup_lt_Some in HB. lia.
Qed.

Lemma at_link_split Xs B Ys hash e :
  length Xs = bidx (length (Xs ++ B :: Ys)) hash ->
  at_link (Xs ++ B :: Ys) hash e = Xs ++ (B ++ [e]) :: Ys.
Proof.
  intros E. unfold at_link. rewrite <-E. 
  clear E. induction Xs as [|X Xs IH]; [done|]. simpl. f_equal. exact IH.
Qed.

(** [link_] *)
Lemma ht_link_ok t h Bs hash e :
  trep t h Bs -> Bs <> [] -> e ∉ concat Bs -> e_has h e ->
  exists t' h' s, ht_link_ t h hash e = Ok (t', h', s) /\
    trep t' h' (at_link Bs hash e) /\ t_id t' = t_id t /\
    e_hash h' = <[e := hash]> (e_hash h) /\ (forall x, e_has h' x <-> e_has h x) /\
    (forall x, x ∉ e :: concat Bs -> e_succ h' !! x = e_succ h !! x).
Proof.
  intros [Hr Hsz] Hne He Hhas.
  destruct (bidx_split Bs hash Hne) as (Xs & B & Ys & -> & Hlen).
  pose proof (tr_count _ _ _ Hr) as Hcnt.
  assert (is_Some (e_hash h !! e)) as [x0 Hx0] by by apply (tr_dom _ _ _ Hr).
  unfold ht_link_. rewrite bucket_for_bidx, Hcnt, <-Hlen. rewrite Hx0. cbn [deref rbind].
  set (h1 := MkEHeap (e_succ h) (<[e:=hash]> (e_hash h))).
  assert (trep0 t h1 (Xs ++ B :: Ys)) as Hr1.
  { destruct Hr as [Hnd Hch Hbu Hha Hdo]. split; try done.
    - intros b C y Hb Hy. destruct (Hha b C y Hb Hy) as (z & Hz & Ez). exists z. split; [|done].
      simpl. rewrite lookup_insert_ne; [done|]. intros ->. apply He.
      rewrite elem_of_list_In, in_concat. exists C. rewrite <-!elem_of_list_In. split; [|done].
      by eapply elem_of_list_lookup_2.
    - intros y. simpl. rewrite Hdo. destruct (decide (y = e)) as [->|]; [rewrite lookup_insert; naive_solver|].
      by rewrite lookup_insert_ne. }
  destruct (append_bucket_ok t h1 Xs B Ys e Hr1 He) as (t' & h' & Hap & Hr' & Hs' & Hid & Hha' & Hd' & Hfr).
  { exists hash. simpl. by rewrite lookup_insert. }
  rewrite Hap. cbn [rbind]. eexists _, _, _. split; [reflexivity|].
  rewrite at_link_split by done. split_and!; try done.
  - split.
    + destruct Hr' as [Hnd Hch Hbu Hha Hdo]. by split.
    + simpl. rewrite Hs', Hsz. rewrite !concat_mid, !app_length. simpl. lia.
Qed.

(** ** rehash *)
Lemma at_fold_link hf n L (Bs : list (list N)) :
  length Bs = n -> n <> 0 ->
  foldl (fun Bs e => at_link Bs (hf e) e) Bs L =
    imap (fun b B => B ++ filter (fun e => bidx n (hf e) = b) L) Bs.
Proof.
  revert Bs. induction L as [|e L IH]; intros Bs Hn Hn0; simpl.
  - apply list_eq. intros b. rewrite list_lookup_imap. destruct (Bs !! b); simpl; [|done].
    by rewrite filter_nil, app_nil_r.
  - rewrite IH; [|unfold at_link; by rewrite alter_length|done].
    apply list_eq. intros b. rewrite !list_lookup_imap. unfold at_link. rewrite Hn.
    destruct (decide (bidx n (hf e) = b)) as [Hb|Hb].
    + subst b. rewrite list_lookup_alter. destruct (Bs !! _); simpl; [|done].
      rewrite filter_cons_True by done. by rewrite <-app_assoc.
    + rewrite list_lookup_alter_ne by done. destruct (Bs !! b); simpl; [|done].
      by rewrite filter_cons_False.
Qed.

Lemma at_rehash_fold hf n Bs : n <> 0 ->
  at_rehash hf n Bs = foldl (fun Bs e => at_link Bs (hf e) e) (replicate n []) (concat Bs).
Proof.
  intros Hn. rewrite (at_fold_link hf n); [|by rewrite replicate_length|done].
  apply list_eq. intros b. unfold at_rehash. rewrite list_lookup_fmap, list_lookup_imap.
  destruct (decide (b < n)).
  - rewrite lookup_seq_lt by done. rewrite lookup_replicate_2 by done. done.
  - rewrite lookup_seq_ge by lia. assert (replicate n (@nil N) !! b = None) as ->; [|done].
    apply lookup_ge_None. rewrite replicate_length. lia.
Qed.

Lemma rehash_loop_ok hf t h Bs M fuel pending :
  trep0 t h Bs -> Bs <> [] -> NoDup M -> (forall e, e ∈ M -> e ∉ concat Bs) ->
  chain (e_succ h) pending M -> length M <= fuel ->
  (forall e, e ∈ M -> e_hash h !! e = Some (hf e)) ->
  exists t' h', rehash_loop fuel t h pending = Ok (t', h') /\
    trep0 t' h' (foldl (fun Bs e => at_link Bs (hf e) e) Bs M) /\ t_size t' = t_size t /\ t_id t' = t_id t /\
    e_hash h' = e_hash h /\ (forall x, e_has h' x <-> e_has h x) /\
    (forall x, x ∉ M ++ concat Bs -> e_succ h' !! x = e_succ h !! x).
Proof.
  revert t h Bs fuel pending. induction M as [|e M IH]; intros t h Bs fuel pending Hr Hne Hnd Hdj Hch Hf Hhf.
  - simpl in Hch. subst. exists t, h. destruct fuel; done.
  - destruct Hch as (-> & s & Hs & Hch). destruct fuel as [|fuel]; [simpl in Hf; lia|].
    simpl. rewrite Hs. cbn [deref rbind].
    unfold bucket_for_elem. rewrite Hhf by left. cbn [deref rbind].
    rewrite bucket_for_bidx, (tr_count _ _ _ Hr).
    destruct (bidx_split Bs (hf e) Hne) as (Xs & B & Ys & -> & Hlen). rewrite <-Hlen.
    apply NoDup_cons in Hnd as [HeM Hnd].
    destruct (append_bucket_ok t h Xs B Ys e Hr) as (t1 & h1 & Hap & Hr1 & Hs1 & Hid1 & Hha1 & Hd1 & Hfr1).
    { apply Hdj. left. } { exists (hf e). split; [apply Hhf; left|done]. }
    rewrite Hap. cbn [rbind]. rewrite (at_link_split Xs B Ys (hf e)) by done.
    destruct (IH t1 h1 (Xs ++ (B ++ [e]) :: Ys) fuel s) as (t' & h' & Hl & Hr' & Hs' & Hid' & Hha' & Hd' & Hfr'); try done.
    + by destruct Xs.
    + intros x Hx. rewrite !concat_mid. rewrite !elem_of_app, elem_of_list_singleton.
      specialize (Hdj x (elem_of_list_further _ _ _ Hx)). rewrite concat_mid, !elem_of_app in Hdj.
      assert (x <> e) by (intros ->; done). tauto.
    + eapply chain_frame; [|exact Hch]. intros x Hx. apply Hfr1.
      intros [->|Hin]%elem_of_cons; [done|]. eapply Hdj; [by right|done].
    + simpl in Hf; lia.
    + intros x Hx. rewrite Hha1. apply Hhf. by right.
    + exists t', h'. rewrite Hl. split_and!; try done; try congruence.
      * intros x. by rewrite Hd', Hd1.
      * intros x Hx. rewrite Hfr'.
        -- apply Hfr1. rewrite concat_mid in *. rewrite elem_of_cons, !elem_of_app in *. tauto.
        -- rewrite concat_mid in *. rewrite !elem_of_app, elem_of_list_singleton.
           simpl in Hx. rewrite elem_of_cons, !elem_of_app in Hx. tauto.
Qed.

Lemma chain_length h o L : chain h o L -> NoDup L -> length L <= size h.
Proof.
  intros Hc Hnd.
  assert (size (list_to_set L : gset N) <= size (dom h)) as Hsz.
  { apply subseteq_size. intros e He%elem_of_list_to_set. apply elem_of_dom. by eapply chain_dom. }
  by rewrite size_list_to_set, size_dom in Hsz.
Qed.

Lemma ht_rehash_ok hf t h Bs n :
  trep t h Bs -> n <> 0 ->
  (forall e, e ∈ concat Bs -> e_hash h !! e = Some (hf e)) ->
  exists t' h', ht_rehash t h n = Ok (t', h') /\
    trep t' h' (at_rehash hf n Bs) /\ t_id t' = t_id t /\
    e_hash h' = e_hash h /\ (forall x, e_has h' x <-> e_has h x) /\
    (forall x, x ∉ concat Bs -> e_succ h' !! x = e_succ h !! x).
Proof.
  intros [Hr Hsz] Hn Hhf. pose proof Hr as [Hnd Hch Hbu Hha Hdo].
  unfold ht_rehash. set (t0 := MkTable (t_id t) None (replicate n (SHead (t_id t))) (t_size t)).
  assert (concat (replicate n (@nil N)) = []) as Hnil by (clear; induction n; done).
  assert (trep0 t0 h (replicate n [])) as Hr0.
  { split; simpl.
    - rewrite Hnil. constructor.
    - by rewrite Hnil.
    - by rewrite bslots_nil.
    - intros b B e Hb He. apply lookup_replicate in Hb as [-> _]. by inversion He.
    - done. }
  destruct (rehash_loop_ok hf t0 h (replicate n []) (concat Bs) (size (e_succ h)) (t_head t))
    as (t' & h' & Hl & Hr' & Hs' & Hid' & Hha' & Hd' & Hfr').
  { done. } { destruct n; done. } { done. }
  { intros e _. rewrite Hnil. apply not_elem_of_nil. }
  { done. } { by eapply chain_length. } { done. }
  rewrite Hl. exists t', h'. split; [done|]. rewrite at_rehash_fold by done.
  split; [split; [done|]|].
  - rewrite Hs'. simpl. rewrite Hsz.
    assert (forall M (Cs : list (list N)), Cs <> [] ->
      length (concat (foldl (fun Bs e => at_link Bs (hf e) e) Cs M)) = length (concat Cs) + length M) as Hlen.
    { clear. induction M as [|e M IH]; intros Cs HC; simpl; [lia|].
      destruct (bidx_split Cs (hf e) HC) as (Xs & B & Ys & -> & Hlen).
      rewrite at_link_split by done. rewrite IH by (by destruct Xs).
      rewrite !concat_mid, !app_length. simpl. lia. }
    rewrite Hlen by (destruct n; done). by rewrite Hnil.
  - split_and!; try done. intros x Hx. apply Hfr'. rewrite Hnil. by rewrite app_nil_r.
Qed.

(** ** unlink *)
Lemma at_unlink_split Xs B1 e B2 Ys :
  NoDup (concat (Xs ++ (B1 ++ e :: B2) :: Ys)) ->
  at_unlink (Xs ++ (B1 ++ e :: B2) :: Ys) e = Xs ++ (B1 ++ B2) :: Ys.
Proof.
  intros Hnd. rewrite concat_mid in Hnd. unfold at_unlink.
  rewrite map_app. simpl.
  assert (forall l : list N, e ∉ l -> filter (fun x => x <> e) l = l) as Hflt.
  { clear. induction l as [|x l IH]; intros He; [done|].
    apply not_elem_of_cons in He as [??]. rewrite filter_cons_True by congruence. f_equal. auto. }
  assert (forall Zs : list (list N), e ∉ concat Zs -> map (filter (fun x => x <> e)) Zs = Zs) as Hmap.
  { induction Zs as [|Z Zs IH]; intros He; [done|]. simpl in *. rewrite not_elem_of_app in He.
    f_equal; [apply Hflt|apply IH]; tauto. }
  apply NoDup_app in Hnd as (Hn1 & Hdj & Hn2). apply NoDup_app in Hn2 as (Hn2 & Hdj2 & Hn3).
  apply NoDup_app in Hn2 as (Hn2 & Hdj3 & Hn4). apply NoDup_cons in Hn4 as [He2 Hn4].
  f_equal; [|f_equal].
  - apply Hmap. intros He. apply (Hdj e He). apply elem_of_app. left. apply elem_of_app; right; left.
  - rewrite filter_app, filter_cons_False by tauto. rewrite !Hflt; [done..| |]; [done|].
    intros He. apply (Hdj3 e He). left.
  - apply Hmap. apply Hdj2. apply elem_of_app; right; left.
Qed.

Lemma ht_unlink_ok t h Xs B1 e B2 Ys :
  trep t h (Xs ++ (B1 ++ e :: B2) :: Ys) ->
  exists t' h', ht_unlink t h (last_slot (t_id t) (concat Xs ++ B1)) = Ok (t', h', e) /\
    trep t' h' (Xs ++ (B1 ++ B2) :: Ys) /\ t_id t' = t_id t /\
    e_hash h' = e_hash h /\ (forall x, e_has h' x <-> e_has h x) /\
    e_succ h' !! e = Some None /\
    (forall x, x ∉ concat (Xs ++ (B1 ++ e :: B2) :: Ys) -> e_succ h' !! x = e_succ h !! x).
Proof.
  intros [Hr Hsz]. pose proof Hr as [Hnd Hch Hbu Hha Hdo].
  set (i := t_id t) in *. set (P := concat Xs ++ B1).
  assert (concat (Xs ++ (B1 ++ e :: B2) :: Ys) = P ++ e :: B2 ++ concat Ys) as HL.
  { unfold P. rewrite concat_mid. by rewrite <-!app_assoc. }
  assert (concat (Xs ++ (B1 ++ B2) :: Ys) = P ++ B2 ++ concat Ys) as HL'.
  { unfold P. rewrite concat_mid. by rewrite <-!app_assoc. }
  assert (e_has h e) as [se Hse].
  { eapply trep0_elem_dom; [exact Hr|]. rewrite HL. apply elem_of_app; right; left. }
  destruct (Hha (length Xs) (B1 ++ e :: B2) e) as (hx & Hhx & Hbx).
  { by rewrite lookup_app_r, Nat.sub_diag by lia. } { apply elem_of_app; right; left. }
  assert (t_buckets t = bslots i [] Xs ++ bslots i (P ++ [e]) (B2 :: Ys)) as Hbs.
  { rewrite Hbu, bslots_app. simpl. unfold P. by rewrite <-!app_assoc. }
  pose proof Hnd as Hnd'. rewrite HL in Hnd'. pose proof Hch as Hch'. rewrite HL in Hch'.
  pose proof (chain_remove _ _ _ _ _ Hch' Hnd') as [Hse' Hrem]. rewrite Hse in Hse'. injection Hse' as ->.
  unfold ht_unlink. pose proof (rd_last_slot t h _ P (e :: B2 ++ concat Ys) Hr HL) as Hrd. fold i in Hrd. rewrite Hrd. cbn [rbind head deref].
  unfold bucket_for_elem. rewrite Hhx. cbn [deref rbind].
  rewrite bucket_for_bidx, (tr_count _ _ _ Hr), Hbx. rewrite Hse. cbn [deref rbind].
  unfold wr_succ. rewrite Hse. cbn [deref rbind].
  assert (forall bs, bs = bslots i [] Xs ++ bslots i (P ++ [e]) (B2 :: Ys) ->
    retarget_from (length Xs) (SSucc e) (last_slot i P) bs = bslots i [] (Xs ++ (B1 ++ B2) :: Ys)) as Hret.
  { intros bs ->. unfold retarget_from.
    assert (length Xs = length (bslots i [] Xs)) as Elen by (by rewrite bslots_length).
    rewrite Elen at 1 2. rewrite take_app, drop_app.
    rewrite retarget_unlink by done.
    rewrite bslots_app. simpl. unfold P. by rewrite !app_assoc. }
  assert (Hnd'' := Hnd'). apply NoDup_app in Hnd'' as (HnP & HdP & [HnE HnR]%NoDup_cons).
  assert (forall b C y, (Xs ++ (B1 ++ B2) :: Ys) !! b = Some C -> y ∈ C ->
     exists x, e_hash h !! y = Some x /\ bidx (length (Xs ++ (B1 ++ B2) :: Ys)) x = b) as Hha'.
  { intros b C y Hb Hy. rewrite app_length in *. simpl in *.
    destruct (decide (b = length Xs)) as [->|Hne].
    - rewrite lookup_app_r, Nat.sub_diag in Hb by lia. injection Hb as <-.
      apply (Hha (length Xs) (B1 ++ e :: B2) y); [by rewrite lookup_app_r, Nat.sub_diag by lia|].
      rewrite elem_of_app, elem_of_cons. apply elem_of_app in Hy. tauto.
    - apply (Hha b C y); [|done]. destruct (decide (b < length Xs)).
      + by rewrite lookup_app_l in * by done.
      + rewrite lookup_app_r in * by lia. destruct (b - length Xs) eqn:E; [lia|done]. }
  unfold last_slot at 1. destruct (last P) as [x|] eqn:El.
  - assert (x ∈ P) as Hx by by apply last_Some_elem_of.
    assert (x <> e) as Hxe.
    { intros ->. apply (HdP e Hx). left. }
    assert (e_has h x) as [sx Hsx].
    { eapply trep0_elem_dom; [exact Hr|]. rewrite HL. apply elem_of_app; by left. }
    simpl. unfold wr_succ; simpl. rewrite lookup_insert_ne by done. rewrite Hsx. cbn [deref rbind].
    eexists _, _. split; [reflexivity|]. split_and!; try done.
    + split.
      * split; simpl.
        -- rewrite HL'. apply NoDup_app. split_and!; try done. intros y Hy Hy2. apply (HdP y Hy). by right.
        -- rewrite HL'. exact Hrem.
        -- by apply Hret.
        -- exact Hha'.
        -- intros y. rewrite <-Hdo. destruct (decide (y = x)) as [->|]; [rewrite lookup_insert; naive_solver|].
           rewrite lookup_insert_ne by done.
           destruct (decide (y = e)) as [->|]; [rewrite lookup_insert; naive_solver|].
           by rewrite lookup_insert_ne.
      * simpl. rewrite Hsz, HL, HL'. rewrite !app_length. simpl. rewrite !app_length. lia.
    + intros y. unfold e_has; simpl. destruct (decide (y = x)) as [->|]; [rewrite lookup_insert; naive_solver|].
      rewrite lookup_insert_ne by done.
      destruct (decide (y = e)) as [->|]; [rewrite lookup_insert; naive_solver|].
      by rewrite lookup_insert_ne.
    + simpl. rewrite lookup_insert_ne by done. by rewrite lookup_insert.
    + intros y Hy. simpl. rewrite HL in Hy. rewrite !lookup_insert_ne; [done| |].
      * intros ->. apply Hy. apply elem_of_app; right; left.
      * intros ->. apply Hy. apply elem_of_app; by left.
  - apply last_None in El. simpl. rewrite bool_decide_eq_true_2 by done. cbn [rbind].
    eexists _, _. split; [reflexivity|]. split_and!; try done.
    + split.
      * split; simpl.
        -- rewrite HL'. apply NoDup_app. split_and!; try done. intros y Hy Hy2. apply (HdP y Hy). by right.
        -- rewrite HL'. rewrite El in *. simpl in *. exact Hrem.
        -- by apply Hret.
        -- exact Hha'.
        -- intros y. rewrite <-Hdo.
           destruct (decide (y = e)) as [->|]; [rewrite lookup_insert; naive_solver|].
           by rewrite lookup_insert_ne.
      * simpl. rewrite Hsz, HL, HL'. rewrite !app_length. simpl. rewrite !app_length. lia.
    + intros y. unfold e_has; simpl.
      destruct (decide (y = e)) as [->|]; [rewrite lookup_insert; naive_solver|].
      by rewrite lookup_insert_ne.
    + simpl. by rewrite lookup_insert.
    + intros y Hy. simpl. rewrite HL in Hy. rewrite !lookup_insert_ne; [done|].
      intros ->. apply Hy. apply elem_of_app; right; left.
Qed.

(** ** allocation, initial table, iteration bounds *)
Lemma table_init_rep i : trep (table_init i) eheap_init [].
Proof.
  split; [|done]. split; simpl; try done.
  - constructor.
  - intros e. rewrite !lookup_empty. split; by intros [? ?].
Qed.
Lemma e_alloc_rep t h Bs e : trep t h Bs -> ~ e_has h e -> trep t (e_alloc h e) Bs.
Proof.
  intros [[Hnd Hch Hbu Hha Hdo] Hsz] He.
  assert (e ∉ concat Bs) as Hn.
  { intros Hin. apply He. by eapply chain_dom. }
  split; [|done]. split; simpl; try done.
  - eapply chain_frame; [|exact Hch]. intros x Hx. rewrite lookup_insert_ne; [done|]. intros ->. done.
  - intros b B x Hb Hx. destruct (Hha b B x Hb Hx) as (z & Hz & Ez). exists z. split; [|done].
    rewrite lookup_insert_ne; [done|]. intros ->. apply He. apply Hdo. eauto.
  - intros x. destruct (decide (x = e)) as [->|]; [by rewrite !lookup_insert|]. by rewrite !lookup_insert_ne.
Qed.
Lemma e_free_rep t h Bs e : trep t h Bs -> e ∉ concat Bs -> trep t (e_free h e) Bs.
Proof.
  intros [[Hnd Hch Hbu Hha Hdo] Hsz] Hn.
  split; [|done]. split; simpl; try done.
  - eapply chain_frame; [|exact Hch]. intros x Hx. rewrite lookup_delete_ne; [done|]. intros ->. done.
  - intros b B x Hb Hx. destruct (Hha b B x Hb Hx) as (z & Hz & Ez). exists z. split; [|done].
    rewrite lookup_delete_ne; [done|]. intros ->. apply Hn.
    rewrite elem_of_list_In, in_concat. exists B. rewrite <-!elem_of_list_In. split; [|done].
    by eapply elem_of_list_lookup_2.
  - intros x. destruct (decide (x = e)) as [->|].
    + rewrite !lookup_delete. split; by intros [? ?].
    + by rewrite !lookup_delete_ne.
Qed.

Lemma before_begin_ok t h Xs Ys : trep0 t h (Xs ++ Ys) ->
  before_begin t (length Xs) = Ok (last_slot (t_id t) (concat Xs)).
Proof.
  intros Hr. unfold before_begin. destruct Xs as [|X Xs]; [done|].
  simpl length. cbv iota. rewrite (tr_buckets _ _ _ Hr), bslots_lookup.
  - simpl. rewrite take_app_alt by done. done.
  - rewrite app_length. simpl. lia.
Qed.
Lemma before_end_ok t h Xs B Ys : trep0 t h (Xs ++ B :: Ys) ->
  before_end t (length Xs) = Ok (last_slot (t_id t) (concat Xs ++ B)).
Proof.
  intros Hr. unfold before_end. rewrite (tr_count _ _ _ Hr).
  destruct (length (Xs ++ B :: Ys)) eqn:El; [rewrite app_length in El; simpl in El; lia|].
  rewrite (tr_buckets _ _ _ Hr), bslots_lookup by (rewrite app_length; simpl; lia).
  simpl. f_equal. f_equal. rewrite cons_middle, app_assoc, take_app_alt.
  - by rewrite concat_app; simpl; rewrite app_nil_r.
  - rewrite app_length; simpl. lia.
Qed.
Lemma before_end_all_ok t h Bs : trep0 t h Bs -> before_end_all t = Ok (last_slot (t_id t) (concat Bs)).
Proof.
  intros Hr. unfold before_end_all. rewrite (tr_count _ _ _ Hr).
  destruct Bs as [|B Bs _] using rev_ind; [done|].
  rewrite app_length, Nat.add_comm. simpl. rewrite (tr_buckets _ _ _ Hr), bslots_lookup by (rewrite app_length; simpl; lia).
  rewrite take_ge by (rewrite app_length; simpl; lia). done.
Qed.

(** ** unlink, stated with the position in the iteration order *)
Lemma concat_split_elem (Bs : list (list N)) (L1 : list N) e L2 :
  NoDup (concat Bs) -> concat Bs = L1 ++ e :: L2 ->
  exists Xs B1 B2 Ys, Bs = Xs ++ (B1 ++ e :: B2) :: Ys /\ L1 = concat Xs ++ B1 /\ L2 = B2 ++ concat Ys.
Proof.
  intros Hnd E.
  assert (e ∈ concat Bs) as He by (rewrite E; apply elem_of_app; right; left).
  apply elem_of_list_In, in_concat in He as (B & HB & He).
  apply elem_of_list_In in HB, He.
  apply elem_of_list_split in HB as (Xs & Ys & ->). apply elem_of_list_split in He as (B1 & B2 & ->).
  exists Xs, B1, B2, Ys. split; [done|].
  rewrite concat_mid in E, Hnd.
  replace (concat Xs ++ (B1 ++ e :: B2) ++ concat Ys) with ((concat Xs ++ B1) ++ e :: (B2 ++ concat Ys)) in E, Hnd
    by (by rewrite <-!app_assoc).
  assert (e ∉ concat Xs ++ B1 /\ e ∉ L1) as [H1 H2].
  { split; intros Hin.
    - apply NoDup_app in Hnd as (_ & Hd & _). apply (Hd e Hin). left.
    - rewrite E in Hnd. apply NoDup_app in Hnd as (_ & Hd & _). apply (Hd e Hin). left. }
  revert H1 H2 E. generalize (concat Xs ++ B1) (B2 ++ concat Ys). clear.
  intros A C. revert L1. induction A as [|a A IH]; intros L1 H1 H2 E; destruct L1 as [|b L1]; simpl in *.
  - injection E as <-. done.
  - injection E as -> _. exfalso. apply H2. left.
  - injection E as -> _. exfalso. apply H1. left.
  - injection E as -> E. apply not_elem_of_cons in H1 as [_ H1], H2 as [_ H2].
    destruct (IH L1 H1 H2 E) as [-> ->]. done.
Qed.

Lemma at_unlink_ok t h Bs L1 e L2 :
  trep t h Bs -> concat Bs = L1 ++ e :: L2 ->
  exists t' h', ht_unlink t h (last_slot (t_id t) L1) = Ok (t', h', e) /\
    trep t' h' (at_unlink Bs e) /\ concat (at_unlink Bs e) = L1 ++ L2 /\ t_id t' = t_id t /\
    e_hash h' = e_hash h /\ (forall x, e_has h' x <-> e_has h x) /\
    e_succ h' !! e = Some None /\
    (forall x, x ∉ concat Bs -> e_succ h' !! x = e_succ h !! x).
Proof.
  intros Hr E. pose proof (tr_nodup _ _ _ (proj1 Hr)) as Hnd.
  destruct (concat_split_elem Bs L1 e L2 Hnd E) as (Xs & B1 & B2 & Ys & -> & -> & ->).
  destruct (ht_unlink_ok t h Xs B1 e B2 Ys Hr) as (t' & h' & Hu & Hr' & Hid & Hha & Hh & Hn & Hf).
  exists t', h'. rewrite at_unlink_split by done. split_and!; try done.
  rewrite concat_mid. by rewrite <-!app_assoc.
Qed.

Lemma at_unlink_length Bs e : length (at_unlink Bs e) = length Bs.
Proof. unfold at_unlink. by rewrite map_length. Qed.
Lemma at_link_length Bs x e : length (at_link Bs x e) = length Bs.
Proof. unfold at_link. by rewrite alter_length. Qed.
Lemma at_rehash_length hf n Bs : length (at_rehash hf n Bs) = n.
Proof. unfold at_rehash. by rewrite map_length, seq_length. Qed.
Lemma at_link_perm Bs x e : Bs <> [] -> concat (at_link Bs x e) ≡ₚ e :: concat Bs.
Proof.
  intros Hne. destruct (bidx_split Bs x Hne) as (Xs & B & Ys & -> & Hlen).
  rewrite at_link_split by done. rewrite !concat_mid, <-!app_assoc. simpl.
  rewrite !Permutation_middle. done.
Qed.
Lemma at_unlink_elems Bs e : concat (at_unlink Bs e) = filter (fun x => x <> e) (concat Bs).
Proof.
  unfold at_unlink. induction Bs as [|B Bs IH]; [done|]. simpl. by rewrite filter_app, IH.
Qed.
Lemma fold_link_perm hf L Bs : Bs <> [] ->
  concat (foldl (fun Bs e => at_link Bs (hf e) e) Bs L) ≡ₚ L ++ concat Bs.
Proof.
  revert Bs. induction L as [|e L IH]; intros Bs Hne; simpl; [done|].
  rewrite IH.
  - rewrite at_link_perm by done. by rewrite Permutation_middle.
  - intros E. apply (f_equal length) in E. rewrite at_link_length in E. by destruct Bs.
Qed.
Lemma at_rehash_perm hf n Bs : n <> 0 -> concat (at_rehash hf n Bs) ≡ₚ concat Bs.
Proof.
  intros Hn. rewrite at_rehash_fold by done. rewrite fold_link_perm by (destruct n; done).
  assert (concat (replicate n (@nil N)) = []) as -> by (clear; induction n; done). by rewrite app_nil_r.
Qed.

(** ** iteration *)
Lemma ht_walk_ok t h L o fuel : chain (e_succ h) o L -> length L <= fuel -> ht_walk fuel t h o = Ok L.
Proof.
  revert o fuel. induction L as [|e L IH]; intros o fuel.
  - simpl. intros -> _. by destruct fuel.
  - intros (-> & s & Hs & Hc) Hf. destruct fuel; simpl in Hf; [lia|]. simpl. rewrite Hs. simpl.
    rewrite (IH s fuel Hc) by lia. done.
Qed.
Lemma ht_elements_ok t h Bs : trep t h Bs -> ht_elements t h = Ok (concat Bs).
Proof.
  intros [Hr _]. apply ht_walk_ok; [apply Hr|]. eapply chain_length; [apply Hr|apply Hr].
Qed.

Definition oslot (o : option N) : option slot := SSucc <$> o.

Lemma iter_next_ok t h Bs L1 L2 : trep0 t h Bs -> concat Bs = L1 ++ L2 ->
  iter_next t h (last_slot (t_id t) L1) = Ok (oslot (head L2)).
Proof.
  intros Hr E. unfold iter_next. rewrite (rd_last_slot t h Bs L1 L2 Hr E). simpl. by destruct (head L2).
Qed.

Lemma ht_walk_range_ok t h Bs L1 M L2 fuel :
  trep0 t h Bs -> concat Bs = L1 ++ M ++ L2 -> length M <= fuel ->
  ht_walk_range fuel t h (oslot (head (M ++ L2))) (oslot (head L2)) = Ok M.
Proof.
  intros Hr. revert L1 fuel. induction M as [|e M IH]; intros L1 fuel E Hf.
  - simpl. destruct fuel; simpl; by rewrite bool_decide_eq_true_2.
  - simpl in Hf. destruct fuel as [|fuel]; [lia|].
    assert (head L2 <> Some e) as Hne.
    { intros Hh. destruct L2 as [|y L2]; [done|]. injection Hh as ->.
      pose proof (tr_nodup _ _ _ Hr) as Hnd. rewrite E in Hnd.
      apply NoDup_app in Hnd as (_ & _ & [Hn _]%NoDup_cons). apply Hn. apply elem_of_app; right; left. }
    cbn [app head oslot fmap option_fmap option_map ht_walk_range].
    rewrite bool_decide_eq_false_2 by (destruct (head L2); simpl; congruence).
    simpl. rewrite <-(last_slot_snoc (t_id t) L1 e).
    rewrite (iter_next_ok t h Bs (L1 ++ [e]) (M ++ L2)) by (try done; by rewrite <-app_assoc).
    simpl. rewrite (IH (L1 ++ [e]) fuel); [done| |lia]. by rewrite <-app_assoc.
Qed.

Lemma ht_bucket_elements_ok t h Xs B Ys :
  trep0 t h (Xs ++ B :: Ys) -> ht_bucket_elements t h (length Xs) = Ok B.
Proof.
  intros Hr. unfold ht_bucket_elements, begin_bucket, end_bucket.
  rewrite (before_begin_ok t h Xs (B :: Ys) Hr), (before_end_ok t h Xs B Ys Hr). cbn [rbind].
  assert (concat (Xs ++ B :: Ys) = concat Xs ++ B ++ concat Ys) as E by apply concat_mid.
  rewrite (iter_next_ok t h _ _ _ Hr E). cbn [rbind].
  assert (concat (Xs ++ B :: Ys) = (concat Xs ++ B) ++ concat Ys) as E' by by rewrite E, app_assoc.
  rewrite (iter_next_ok t h _ _ _ Hr E'). cbn [rbind].
  apply (ht_walk_range_ok t h _ (concat Xs) B (concat Ys) _ Hr E).
  pose proof (chain_length _ _ _ (tr_chain _ _ _ Hr) (tr_nodup _ _ _ Hr)) as Hl.
  rewrite E, !app_length in Hl. lia.
Qed.
Lemma ht_bucket_elements_at t h Bs idx :
  trep0 t h Bs -> idx < length Bs -> ht_bucket_elements t h idx = Ok (at_bucket Bs idx).
Proof.
  intros Hr Hlt. unfold at_bucket. destruct (Bs !! idx) as [B|] eqn:HB.
  - simpl. apply elem_of_list_split_length in HB as (Xs & Ys & -> & ->).
    by apply ht_bucket_elements_ok with Ys.
  - apply lookup_ge_None in HB. lia.
Qed.

(** ** clear, disposal loop, move *)
Lemma ht_clear_ok t h Bs : trep t h Bs -> trep (ht_clear t) h (replicate (length Bs) []).
Proof.
  intros [Hr Hsz]. pose proof (tr_count _ _ _ Hr) as Hc.
  assert (concat (replicate (length Bs) (@nil N)) = []) as Hnil by (clear; induction (length Bs); done).
  split; [|simpl; by rewrite Hnil]. destruct Hr as [Hnd Hch Hbu Hha Hdo]. split; simpl.
  - rewrite Hnil. constructor.
  - by rewrite Hnil.
  - by rewrite bslots_nil, Hc.
  - intros b B e Hb He. apply lookup_replicate in Hb as [-> _]. by inversion He.
  - done.
Qed.

Lemma bslots_move i j P Bs : 
  map (fun s => if bool_decide (s = SHead j) then SHead i else s) (bslots j P Bs) = bslots i P Bs.
Proof.
  revert P. induction Bs as [|B Bs IH]; intros P; simpl; [done|].
  rewrite IH. f_equal. unfold last_slot. destruct (last (P ++ B)).
  - by rewrite bool_decide_eq_false_2.
  - by rewrite bool_decide_eq_true_2.
Qed.
Lemma ht_move_ok i y h Bs : trep y h Bs ->
  trep (ht_move i y).1 h Bs /\ trep (ht_move i y).2 h [] /\
  t_id (ht_move i y).1 = i /\ t_id (ht_move i y).2 = t_id y.
Proof.
  intros [Hr Hsz]. pose proof Hr as [Hnd Hch Hbu Hha Hdo]. split_and!; try done.
  - split; [|done]. split; simpl; try done. by rewrite Hbu, bslots_move.
  - split; [|done]. split; simpl; try done. constructor.
Qed.

(** growth before a link *)
Lemma ht_maybe_grow_ok over mbc hf t h Bs :
  trep t h Bs -> 0 < mbc ->
  (forall e, e ∈ concat Bs -> e_hash h !! e = Some (hf e)) ->
  exists t' h', ht_maybe_grow over mbc t h = Ok (t', h') /\
    let Bs' := if must_grow over mbc t then at_rehash hf (grow_size mbc t) Bs else Bs in
    trep t' h' Bs' /\ Bs' <> [] /\ t_id t' = t_id t /\
    e_hash h' = e_hash h /\ (forall x, e_has h' x <-> e_has h x) /\
    (forall x, x ∉ concat Bs -> e_succ h' !! x = e_succ h !! x).
Proof.
  intros Hr Hm Hhf. unfold ht_maybe_grow. destruct (must_grow over mbc t) eqn:Eg.
  - destruct (ht_rehash_ok hf t h Bs (grow_size mbc t) Hr) as (t' & h' & E & ?&?&?&?&?).
    + unfold grow_size, initial_size. repeat case_bool_decide; lia.
    + done.
    + exists t', h'. split; [done|]. cbv zeta. split_and!; try done.
      intros En. apply (f_equal length) in En. rewrite at_rehash_length in En. simpl in En.
      revert En. unfold grow_size, initial_size. repeat case_bool_decide; lia.
  - exists t, h. cbv zeta. split_and!; try done. intros ->. unfold must_grow in Eg.
    pose proof (tr_count _ _ _ (proj1 Hr)) as Hc. rewrite bool_decide_eq_true_2 in Eg by done. done.
Qed.
