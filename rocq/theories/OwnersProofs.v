(** Lemmas for PropertiesTeardown.v. *)
From Verif Require Import Base Owners.

Lemma remove_nil (t : thread_id) own : list_remove t own = Some [] -> own = [t].
Proof.
  destruct own as [|x own]; simpl; [done|]. case_decide as H; [intros [= ->]; by rewrite H|]. destruct (list_remove t own); simpl; done.
Qed.
Lemma remove_perm (t : thread_id) own own' : list_remove t own = Some own' -> own ≡ₚ t :: own'.
Proof. apply list_remove_Some. Qed.

(** a user's release leaves a user among the owners, if any is left *)
Definition led (own : list thread_id) : Prop := own = [] \/ exists n, User n ∈ own.
Lemma own_led l : forall own stops, led own ->
  (forall l1 n l2 own' own'', l = l1 ++ Release (User n) :: l2 -> own_run stops l1 own = Ok own' -> own_step stops (Release (User n)) own' = Ok own'' -> led own'') ->
  own_run stops l own <> Term /\ forall own', own_run stops l own = Ok own' -> led own'.
Proof.
  induction l as [|v l IH]; intros own stops Hl H; [by split; [|intros ? [= <-]]|].
  cbn [own_run]. destruct (own_step stops v own) as [own1| | |] eqn:E.
  - assert (led own1) as Hl1.
    { destruct v as [t|t|[n|]].
      - simpl in E. destruct own as [|x own]; [done|]. injection E as <-. right. destruct Hl as [|[n Hn]]; [done|]. exists n. by right.
      - simpl in E. destruct own as [|x own]; injection E as <-; [by left|]. right. destruct Hl as [|[n Hn]]; [done|]. exists n. by right.
      - by apply (H [] n l own own1).
      - simpl in E. unfold release in E. destruct (list_remove Refresher own) as [own2|] eqn:E2; [|done]. apply remove_perm in E2.
        assert (own1 = own2) as -> by (destruct own2; [destruct (stops && _); [done|by injection E]|by injection E]).
        destruct Hl as [->|[n Hn]]; [by apply Permutation_nil_cons in E2|]. right. exists n. rewrite E2 in Hn. by apply elem_of_cons in Hn as [|]. }
    apply (IH own1 stops Hl1). intros l1 n l2 o1 o2 -> R1 R2. apply (H (v :: l1) n l2 o1 o2); [done|simpl; by rewrite E|done].
  - done.
  - exfalso. destruct v as [t|t|t]; simpl in E; [by destruct own..|]. unfold release in E. destruct (list_remove t own) as [[|x o]|] eqn:E2; try done.
    apply remove_nil in E2 as ->. destruct stops; [|done]. simpl in E. case_bool_decide as Ht; [|done]. subst t. destruct Hl as [|[n Hn]]; [done|]. by apply elem_of_list_singleton in Hn.
  - done.
Qed.
Lemma own_free l : forall own, own_run false l own <> Term.
Proof.
  induction l as [|v l IH]; intros own; [done|]. cbn [own_run]. destruct (own_step false v own) as [own1| | |] eqn:E; try done; [apply IH|].
  destruct v as [t|t|t]; simpl in E; [by destruct own..|]. unfold release in E. by destruct (list_remove t own) as [[|x o]|].
Qed.
Lemma own_term stops l : forall own, own_run stops l own = Term <-> stops = true /\ exists l1 l2, l = l1 ++ Release Refresher :: l2 /\ own_run stops l1 own = Ok [Refresher].
Proof.
  induction l as [|v l IH]; intros own.
  { split; [done|]. intros (_ & [|? ?] & l2 & H & _); done. }
  cbn [own_run]. destruct (own_step stops v own) as [own1| | |] eqn:E; simpl.
  - rewrite IH. split; intros (Hs & l1 & l2 & H & R); (split; [done|]).
    + exists (v :: l1), l2. rewrite H. split; [done|]. cbn [own_run]. by rewrite E.
    + destruct l1 as [|v1 l1]; injection H as -> H.
      * cbn [own_run] in R. injection R as ->. rewrite Hs in E. done.
      * exists l1, l2. split; [done|]. cbn [own_run] in R. by rewrite E in R.
  - split; [done|]. intros (Hs & l1 & l2 & H & R). destruct l1 as [|v1 l1]; injection H as -> H; cbn [own_run] in R; [|by rewrite E in R]. injection R as ->. by rewrite Hs in E.
  - split; [|done]. intros _. destruct v as [t|t|t]; simpl in E; [by destruct own..|]. unfold release in E. destruct (list_remove t own) as [[|x o]|] eqn:E2; try done.
    apply remove_nil in E2 as ->. destruct stops; [|done]. simpl in E. case_bool_decide as Ht; [|done]. subst t. split; [done|]. by exists [], l.
  - split; [done|]. intros (Hs & l1 & l2 & H & R). destruct l1 as [|v1 l1]; injection H as -> H; cbn [own_run] in R; [|by rewrite E in R]. injection R as ->. by rewrite Hs in E.
Qed.
