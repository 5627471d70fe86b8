(** refcount_ptr counts its owners. *)
From Verif Require Import Base Refcount.

Definition is (p : option N) (o : N) : nat := if decide (p = Some o) then 1 else 0.
Lemma held_fresh m h p o : m !! h = None -> rs_held (<[h := p]> m) o = is p o + rs_held m o.
Proof.
  intros Hh. unfold rs_held, is. destruct (decide (p = Some o)) as [Hp|Hp].
  - rewrite map_filter_insert_True by done. rewrite map_size_insert_None; [done|]. apply map_filter_lookup_None. by left.
  - rewrite map_filter_insert_False by done. by rewrite delete_notin.
Qed.
Lemma held_out m h q o : m !! h = Some q -> rs_held m o = is q o + rs_held (delete h m) o.
Proof. intros Hh. rewrite <-(insert_delete m h q Hh) at 1. apply held_fresh. apply lookup_delete. Qed.
Lemma held_upd m h q p o : m !! h = Some q -> is q o + rs_held (<[h := p]> m) o = is p o + rs_held m o.
Proof.
  intros Hh. rewrite <-insert_delete_insert, held_fresh by apply lookup_delete. rewrite (held_out m h q o Hh). lia.
Qed.
Definition rcnt (o : N) (l : list N) : nat := length (filter (fun x => x = o) l).
Lemma rcnt_cons o x l : rcnt o (x :: l) = is (Some x) o + rcnt o l.
Proof. unfold rcnt, is. rewrite filter_cons. destruct (decide (x = o)), (decide (Some x = Some o)); try congruence; done. Qed.
Lemma rcnt_rm o x l : x ∈ l -> is (Some x) o + rcnt o (rm_one x l) = rcnt o l.
Proof.
  induction l as [|y l IH]; [by intros ?%elem_of_nil|]. intros Hx. simpl. rewrite rcnt_cons.
  destruct (decide (y = x)) as [->|Hne]; [done|]. rewrite rcnt_cons. apply elem_of_cons in Hx as [?|Hx]; [congruence|]. specialize (IH Hx). lia.
Qed.

Record rep (p : rspec) (s : rst) : Prop := {
  rp_ptr : r_ptr s = rs_ptr p;
  rp_cnt o : r_cnt s !! o = if decide (owners p o = 0) then None else Some (owners p o);
  rp_nd : NoDup (r_dead s);
  rp_dead o : o ∈ r_dead s <-> o ∈ rs_all p /\ owners p o = 0;
  rp_all o : owned p o -> o ∈ rs_all p
}.
(** changes that keep or raise the counts *)
Lemma rep_up p s p' s' (f : N -> nat) : rep p s -> r_ptr s' = rs_ptr p' -> r_dead s' = r_dead s ->
  (forall o, owners p' o = f o + owners p o) -> (forall o, f o <> 0 -> owners p o = 0 -> o ∉ rs_all p /\ o ∈ rs_all p') ->
  (forall o, o ∈ rs_all p -> o ∈ rs_all p') -> (forall o, o ∈ rs_all p' -> owners p' o = 0 -> o ∈ rs_all p) ->
  (forall o, r_cnt s' !! o = if decide (f o = 0) then r_cnt s !! o else Some (owners p' o)) -> rep p' s'.
Proof.
  intros [H1 H2 H3 H4 H5] Hp Hd Ho Hf Ha Ha' Hc. split; [done|..].
  - intros o. rewrite Hc, H2, Ho. destruct (decide (f o = 0)) as [->|]; [done|]. rewrite decide_False by lia. done.
  - by rewrite Hd.
  - intros o. rewrite Hd, H4, Ho. split.
    + intros [? E]. split; [auto|]. rewrite E. destruct (decide (f o = 0)) as [->|Hn]; [done|]. by destruct (Hf o Hn E).
    + intros [? E]. split; [|lia]. apply Ha'; [done|]. rewrite Ho. lia.
  - intros o. unfold owned. rewrite Ho. intros Hn. destruct (decide (owners p o = 0)) as [E|]; [apply Hf; lia|auto].
Qed.
(** an owner goes away *)
Lemma rep_reset p s p' q : rep p s -> rs_all p' = rs_all p -> (forall o, is q o + owners p' o = owners p o) ->
  exists s' q', r_reset s q = Ok (s', q') /\ r_ptr s' = r_ptr s /\ (forall s2, r_cnt s2 = r_cnt s' -> r_dead s2 = r_dead s' -> r_ptr s2 = rs_ptr p' -> rep p' s2) /\
    (q' = None <-> (match q with Some o => owners p o = 1 | None => True end)).
Proof.
  intros [H1 H2 H3 H4 H5] Ha Ho. destruct q as [x|].
  - assert (is (Some x) x = 1) as Ex by (unfold is; by rewrite decide_True).
    assert (forall o, o <> x -> owners p' o = owners p o) as Hne.
    { intros o Hn. specialize (Ho o). unfold is in Ho. rewrite decide_False in Ho by congruence. lia. }
    pose proof (Ho x) as Hx. rewrite Ex in Hx. simpl. rewrite H2. rewrite decide_False by lia. simpl.
    destruct (owners p x) as [|[|n]] eqn:En; [lia|..].
    + unfold r_destroy. rewrite H2, En. simpl. eexists _, _. split; [done|]. split; [done|]. split; [|done].
      intros s2 Ec Ed Ep. simpl in *. split; [done|..].
      * intros o. rewrite Ec. destruct (decide (o = x)) as [->|Hn]; [rewrite lookup_delete, decide_True by lia; done|].
        rewrite lookup_delete_ne, H2, Hne by done. done.
      * rewrite Ed. constructor; [|done]. rewrite H4, En. naive_solver.
      * intros o. rewrite Ed, elem_of_cons, H4, Ha. destruct (decide (o = x)) as [->|Hn]; [|rewrite (Hne o Hn); naive_solver].
        split; [|by left]. intros _. split; [|lia]. apply H5. unfold owned. lia.
      * intros o. rewrite Ha. unfold owned. intros Hn. apply H5. unfold owned. destruct (decide (o = x)) as [->|]; [lia|]. by rewrite <-Hne.
    + eexists _, _. split; [done|]. split; [done|]. split; [|split; [done|lia]].
      intros s2 Ec Ed Ep. simpl in *. split; [done|..].
      * intros o. rewrite Ec. destruct (decide (o = x)) as [->|Hn]; [rewrite lookup_insert, decide_False by lia; f_equal; lia|].
        rewrite lookup_insert_ne, H2, Hne by done. done.
      * by rewrite Ed.
      * intros o. rewrite Ed, H4, Ha. destruct (decide (o = x)) as [->|Hn]; [|by rewrite (Hne o Hn)]. lia.
      * intros o. rewrite Ha. unfold owned. intros Hn. apply H5. unfold owned. destruct (decide (o = x)) as [->|]; [lia|]. by rewrite <-Hne.
  - assert (forall o, owners p' o = owners p o) as E by (intros o; specialize (Ho o); unfold is in Ho; simpl in Ho; done).
    simpl. eexists _, _. split; [done|]. split; [done|]. split; [|done]. intros s2 Ec Ed Ep. split; [done|..].
    + intros o. by rewrite Ec, H2, E.
    + by rewrite Ed.
    + intros o. by rewrite Ed, H4, Ha, E.
    + intros o. rewrite Ha. unfold owned. rewrite E. apply H5.
Qed.
(** the same, as a change of count and destructor calls only *)
Definition same_ptr (s1 s2 : rst) : Prop := r_cnt s1 = r_cnt s2 /\ r_dead s1 = r_dead s2.
Lemma rep_inc p s x : rep p s -> owned p x -> exists s', (forall s2, same_ptr s2 s -> exists s3, r_inc s2 x = Ok s3 /\ r_ptr s3 = r_ptr s2 /\ same_ptr s3 s') /\
  forall p' s2, same_ptr s2 s' -> r_ptr s2 = rs_ptr p' -> rs_all p' = rs_all p -> (forall o, owners p' o = is (Some x) o + owners p o) -> rep p' s2.
Proof.
  intros H Hx. pose proof H as [H1 H2 H3 H4 H5]. exists (Rst (r_ptr s) (<[x := S (owners p x)]> (r_cnt s)) (r_dead s)). split.
  - intros s2 [E1 E2]. unfold r_inc. rewrite E1, H2, decide_False by done. simpl. eexists. split_and!; try done. 
  - intros p' s2 [E1 E2] Ep Ea Ho. simpl in *. eapply (rep_up p s); try done.
    + intros o Hn Hz. exfalso. unfold is in Hn. destruct (decide (Some x = Some o)); [|done]. assert (x = o) as -> by congruence. done.
    + by rewrite Ea.
    + by rewrite Ea.
    + intros o. unfold is. rewrite Ho, E1. unfold is. destruct (decide (Some x = Some o)) as [E|Hn].
      * assert (x = o) as -> by congruence. rewrite lookup_insert. done.
      * rewrite lookup_insert_ne by congruence. done.
Qed.

Lemma reset_frame s s2 q s' q' : same_ptr s2 s -> r_reset s q = Ok (s', q') ->
  exists s3, r_reset s2 q = Ok (s3, q') /\ r_ptr s3 = r_ptr s2 /\ same_ptr s3 s'.
Proof.
  intros [E1 E2]. destruct q as [x|]; simpl; [|intros [= <- <-]; exists s2; by split_and!]. unfold r_destroy. rewrite E1.
  destruct (r_cnt s !! x) as [[|[|n]]|]; simpl; try done; intros [= <- <-]; eexists; split_and!; try done; split; simpl; congruence.
Qed.
Lemma is_none o : is None o = 0.
Proof. done. Qed.
Lemma owners_set p h q o P R A : rs_ptr p !! h = Some q -> P = <[h := o]> (rs_ptr p) -> R = rs_raw p ->
  forall x, is q x + owners (Rspec P R A) x = is o x + owners p x.
Proof. intros Hh -> -> x. unfold owners. simpl. pose proof (held_upd (rs_ptr p) h q o x Hh). lia. Qed.
Lemma owned_ptr p h x : rs_ptr p !! h = Some (Some x) -> owned p x.
Proof.
  intros H. unfold owned, owners. rewrite (held_out _ _ _ x H). unfold is. rewrite decide_True by done. lia.
Qed.
Lemma owned_raw p x : x ∈ rs_raw p -> owned p x.
Proof. intros H. unfold owned, owners. pose proof (rcnt_rm x x _ H). unfold is in *. rewrite decide_True in * by done. unfold rcnt in *. lia. Qed.

Lemma rstep_ok p s o p' : rep p s -> rsem false p o = Some p' -> exists s', rstep s o = Ok s' /\ rep p' s'.
Proof.
  intros H. pose proof (rp_ptr _ _ H) as Ep.
  assert (forall s2 p2, same_ptr s2 s -> r_ptr s2 = rs_ptr p2 -> rs_all p2 = rs_all p -> (forall x, owners p2 x = owners p x) -> rep p2 s2) as Hsame.
  { intros s2 p2 [E1 E2] E3 E4 E5. eapply (rep_up p s _ _ (fun _ => 0)); try done; [by rewrite E4|by rewrite E4|]. intros x. by rewrite E1. }
  destruct o; simpl.
  - destruct (decide _) as [[Hh Hx]|]; [|done]. intros [= <-]. eexists. split; [done|].
    assert (owners p o = 0) as E0. { destruct (decide (owners p o = 0)) as [|Hn]; [done|]. destruct Hx. by apply (rp_all _ _ H). }
    assert (forall x, owners (Rspec (<[h:=Some o]> (rs_ptr p)) (rs_raw p) (o :: rs_all p)) x = is (Some o) x + owners p x) as Eo.
    { intros x. unfold owners. simpl. rewrite held_fresh by done. lia. }
    eapply (rep_up p s _ _ (is (Some o))); try done; simpl.
    + by rewrite Ep.
    + intros x Hn Hz. unfold is in Hn. destruct (decide (Some o = Some x)); [|done]. assert (o = x) as -> by congruence. split; [done|by left].
    + intros x Hin. by right.
    + intros x Hin. rewrite Eo. apply elem_of_cons in Hin as [->|]; [|done]. unfold is. rewrite decide_True by done. lia.
    + intros x. rewrite Eo. unfold is. destruct (decide (Some o = Some x)) as [E|Hn].
      * assert (o = x) as -> by congruence. rewrite lookup_insert, E0. done.
      * rewrite lookup_insert_ne by congruence. done.
  - destruct (decide _) as [Hh|]; [|done]. intros [= <-]. eexists. split; [done|]. apply Hsame; simpl; try done; [by rewrite Ep|].
    intros x. unfold owners. simpl. by rewrite held_fresh.
  - destruct (rs_ptr p !! h') as [q|] eqn:Hh'; [|done]. destruct (rs_ptr p !! h) eqn:Hh; [done|]. intros [= <-].
    unfold r_get. rewrite Ep, Hh'. simpl.
    assert (forall x, owners (Rspec (<[h:=q]> (rs_ptr p)) (rs_raw p) (rs_all p)) x = is q x + owners p x) as Eo.
    { intros x. unfold owners. simpl. rewrite held_fresh by done. lia. }
    destruct q as [x|]; simpl.
    + destruct (rep_inc p s x H (owned_ptr _ _ _ Hh')) as (s' & HI & HR). destruct (HI (r_set s h (Some x))) as (s3 & E3 & P3 & S3); [done|].
      exists s3. split; [done|]. apply HR; try done. rewrite P3. simpl. by rewrite Ep.
    + eexists. split; [done|]. apply Hsame; simpl; try done. by rewrite Ep.
  - destruct (rs_ptr p !! h') as [q|] eqn:Hh'; [|done]. destruct (rs_ptr p !! h) eqn:Hh; [done|]. intros [= <-].
    unfold r_get. rewrite Ep, Hh'. simpl. eexists. split; [done|]. apply Hsame; simpl; try done; [by rewrite Ep|].
    intros x. unfold owners. simpl. assert (h' <> h) as Hne by congruence.
    pose proof (held_upd (<[h:=q]> (rs_ptr p)) h' q None x ltac:(by rewrite lookup_insert_ne)). rewrite is_none, (held_fresh _ h q x Hh) in H0. lia.
  - destruct (rs_ptr p !! h') as [q|] eqn:Hh'; [|done]. destruct (rs_ptr p !! h) as [q0|] eqn:Hh; [|done]. intros [= <-].
    unfold r_get. rewrite Ep, Hh', Hh. simpl. case_bool_decide as Hb.
    + subst h'. eexists. split; [done|]. replace q with q0 by congruence. apply Hsame; simpl; try done; [by rewrite insert_id|].
      intros x. unfold owners. simpl. by rewrite insert_id.
    + (* first the increment, with both owners counted *)
      set (p2 := Rspec (rs_ptr p) (match q with Some x => x :: rs_raw p | None => rs_raw p end) (rs_all p)).
      assert (exists s1, r_inc_opt (r_set s h q) q = Ok s1 /\ r_ptr s1 = <[h:=q]> (rs_ptr p) /\ rep p2 (Rst (r_ptr s) (r_cnt s1) (r_dead s1))) as (s1 & E1 & P1 & R1).
      { destruct q as [x|]; simpl.
        - destruct (rep_inc p s x H (owned_ptr _ _ _ Hh')) as (s' & HI & HR). destruct (HI (r_set s h (Some x))) as (s3 & E3 & P3 & S3); [done|].
          exists s3. split; [done|]. split; [rewrite P3; simpl; by rewrite Ep|]. apply HR; try done.
          intros y. unfold owners. simpl. unfold p2. simpl. pose proof (rcnt_cons y x (rs_raw p)). unfold rcnt in *. lia.
        - eexists. split; [done|]. split; [simpl; by rewrite Ep|]. by apply Hsame. }
      rewrite E1. simpl.
      destruct (rep_reset p2 _ (Rspec (<[h:=q]> (rs_ptr p)) (rs_raw p) (rs_all p)) q0 R1 eq_refl) as (s4 & q4 & E4 & P4 & R4 & _).
      { intros y. rewrite (owners_set p h q0 q _ _ (rs_all p) Hh eq_refl eq_refl). unfold p2, owners. simpl.
        destruct q as [x|]; [|rewrite is_none; lia]. pose proof (rcnt_cons y x (rs_raw p)). unfold rcnt in *. lia. }
      destruct (reset_frame (Rst (r_ptr s) (r_cnt s1) (r_dead s1)) s1 q0 s4 q4 ltac:(done) E4) as (s5 & E5 & P5 & S5 & S5'). rewrite E5. simpl. exists s5. split; [done|].
      apply R4; [done|done|]. rewrite P5, P1. done.
  - destruct (rs_ptr p !! h') as [q|] eqn:Hh'; [|done]. destruct (rs_ptr p !! h) as [q0|] eqn:Hh; [|done].
    unfold r_get. rewrite Ep, Hh', Hh. simpl. destruct (decide (h = h')) as [->|Hne]; intros [= <-].
    + rewrite bool_decide_true by done. by exists s.
    + rewrite bool_decide_false by done.
      destruct (rep_reset p s (Rspec (<[h':=None]> (<[h:=q]> (rs_ptr p))) (rs_raw p) (rs_all p)) q0 H eq_refl) as (s4 & q4 & E4 & P4 & R4 & _).
      { intros y. unfold owners. simpl.
        pose proof (held_upd (<[h:=q]> (rs_ptr p)) h' q None y ltac:(by rewrite lookup_insert_ne)).
        pose proof (held_upd (rs_ptr p) h q0 q y Hh). rewrite is_none in *. lia. }
      destruct (reset_frame s (r_set (r_set s h q) h' None) q0 s4 q4 ltac:(done) E4) as (s5 & E5 & P5 & S5 & S5'). rewrite E5. simpl. exists s5. split; [done|].
      apply R4; [done|done|]. rewrite P5. simpl. by rewrite Ep.
  - destruct (rs_ptr p !! h) as [q|] eqn:Hh; [|done]. unfold r_get. rewrite Ep, Hh. simpl. destruct q as [x|].
    + destruct (bool_decide _) eqn:Hb; [|done]. apply bool_decide_eq_true in Hb. intros [= <-].
      destruct (rep_reset p s (Rspec (<[h:=None]> (rs_ptr p)) (rs_raw p) (rs_all p)) (Some x) H eq_refl) as (s4 & q4 & E4 & P4 & R4 & HN).
      { intros y. rewrite (owners_set p h (Some x) None _ _ (rs_all p) Hh eq_refl eq_refl). done. }
      rewrite E4. simpl. eexists. split; [done|]. apply R4; simpl; try done. rewrite P4, Ep. by rewrite (proj2 HN Hb).
    + intros [= <-]. simpl. eexists. split; [done|]. apply Hsame; simpl; try done. rewrite Ep. by rewrite insert_id.
  - destruct (rs_ptr p !! h) as [q|] eqn:Hh; [|done]. unfold r_get. rewrite Ep, Hh. simpl. destruct q as [x|].
    + destruct (bool_decide _) eqn:Hb; [|done]. apply bool_decide_eq_true in Hb. intros [= <-].
      destruct (rep_reset p s (Rspec (<[h:=None]> (rs_ptr p)) (rs_raw p) (rs_all p)) (Some x) H eq_refl) as (s4 & q4 & E4 & P4 & R4 & HN).
      { intros y. rewrite (owners_set p h (Some x) None _ _ (rs_all p) Hh eq_refl eq_refl). done. }
      rewrite E4. simpl. eexists. split; [done|]. apply R4; simpl; try done. rewrite P4, Ep. by rewrite (proj2 HN Hb).
    + intros [= <-]. simpl. eexists. split; [done|]. apply Hsame; simpl; try done. rewrite Ep. by rewrite insert_id.
  - destruct (rs_ptr p !! h) as [[q|]|] eqn:Hh; [done| |done]. destruct (decide (owned p o)) as [Ho|]; [|done]. intros [= <-].
    unfold r_get. rewrite Ep, Hh. simpl. destruct (rep_inc p s o H Ho) as (s' & HI & HR). destruct (HI s) as (s3 & E3 & P3 & S3); [done|].
    rewrite E3. simpl. eexists. split; [done|]. apply HR; try done.
    + simpl. by rewrite P3, Ep.
    + intros x. pose proof (owners_set p h None (Some o) _ _ (rs_all p) Hh eq_refl eq_refl x). rewrite is_none in *. lia.
  - destruct (rs_ptr p !! h) as [q|] eqn:Hh; [|done]. destruct (decide (o ∈ rs_raw p)) as [Ho|]; [|done]. intros [= <-].
    unfold r_get. rewrite Ep, Hh. simpl.
    destruct (rep_reset p s (Rspec (<[h:=Some o]> (rs_ptr p)) (rm_one o (rs_raw p)) (rs_all p)) q H eq_refl) as (s4 & q4 & E4 & P4 & R4 & _).
    { intros y. unfold owners. simpl. pose proof (held_upd (rs_ptr p) h q (Some o) y Hh). pose proof (rcnt_rm y o _ Ho). unfold rcnt in *. lia. }
    destruct (reset_frame s (r_set s h (Some o)) q s4 q4 ltac:(done) E4) as (s5 & E5 & P5 & S5 & S5'). rewrite E5. simpl. exists s5. split; [done|].
    apply R4; [done|done|]. rewrite P5. simpl. by rewrite Ep.
  - destruct (rs_ptr p !! h) as [q|] eqn:Hh; [|done]. unfold r_get. rewrite Ep, Hh. simpl. destruct q as [x|]; intros [= <-].
    + eexists. split; [done|]. apply Hsame; simpl; try done; [by rewrite Ep|]. intros y. unfold owners. simpl.
      pose proof (held_upd (rs_ptr p) h (Some x) None y Hh). pose proof (rcnt_cons y x (rs_raw p)). unfold rcnt in *. rewrite is_none in *. lia.
    + eexists. split; [done|]. apply Hsame; simpl; try done. rewrite Ep. by rewrite insert_id.
  - destruct (rs_ptr p !! h) as [q|] eqn:Hh; [|done]. intros [= <-]. unfold r_get. rewrite Ep, Hh. simpl.
    destruct (rep_reset p s (Rspec (delete h (rs_ptr p)) (rs_raw p) (rs_all p)) q H eq_refl) as (s4 & q4 & E4 & P4 & R4 & _).
    { intros y. unfold owners. simpl. rewrite (held_out _ _ _ y Hh). lia. }
    rewrite E4. simpl. eexists. split; [done|]. apply R4; simpl; try done. by rewrite P4, Ep.
Qed.
Lemma rrun_ok l : forall p s p', rep p s -> rsem_run false p l = Some p' -> exists s', rrun s l = Ok s' /\ rep p' s'.
Proof.
  induction l as [|o l IH]; simpl; intros p s p' H; [by intros [= <-]; eauto|].
  destruct (rsem false p o) as [p1|] eqn:E; [|done]. destruct (rstep_ok p s o p1 H E) as (s1 & -> & H1). simpl. by apply IH.
Qed.
Lemma rep_init : rep rspec_init rst_init.
Proof.
  split; simpl; try done; [constructor|].
  - intros o. split; [intros ?%elem_of_nil; done|]. intros [?%elem_of_nil _]; done.
Qed.
Theorem handles_count l p : rsem_run false rspec_init l = Some p ->
  exists s, rrun rst_init l = Ok s /\ (forall o, is_Some (r_cnt s !! o) <-> owned p o) /\
    NoDup (r_dead s) /\ (forall o, o ∈ r_dead s <-> o ∈ rs_all p /\ ~ owned p o).
Proof.
  intros H. destruct (rrun_ok l _ _ _ rep_init H) as (s & E & [H1 H2 H3 H4 H5]). exists s. split; [done|]. split_and!; [|done|].
  - intros o. rewrite H2. unfold owned. destruct (decide (owners p o = 0)); [split; [by intros []|done]|split; [done|eauto]].
  - intros o. rewrite H4. unfold owned. destruct (decide (owners p o = 0)); naive_solver.
Qed.
