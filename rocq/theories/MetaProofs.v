(** Type lists are lists; policy lists contain what they should. *)
From Verif Require Import Base Meta MetaSpec LinkedList Queue Containers ContainersProofs.

Lemma elem_concat {A} (x : A) ls : x ∈ concat ls <-> exists l, x ∈ l /\ l ∈ ls.
Proof. rewrite elem_of_list_In, in_concat. setoid_rewrite elem_of_list_In. naive_solver. Qed.
Section meta.
  Context {T : Type} `{EqDecision T}.
  Implicit Types (l acc : list T).

  Lemma remove_all_spec x l : forall acc, tl_remove_all acc x l = acc ++ filter (fun y => x <> y) l.
  Proof.
    induction l as [|y l IH]; intros acc; simpl; [by rewrite app_nil_r|]. rewrite IH, filter_cons.
    case_bool_decide; [by rewrite decide_False by naive_solver|]. rewrite decide_True by done. by rewrite <-app_assoc.
  Qed.
  Lemma remove_spec x l : forall acc, tl_remove acc x l = acc ++ rm_first x l.
  Proof.
    induction l as [|y l IH]; intros acc; simpl; [by rewrite app_nil_r|]. rewrite IH.
    case_bool_decide; [by rewrite decide_True|rewrite decide_False by done]. by rewrite <-app_assoc.
  Qed.
  Lemma extend_spec ls : forall acc, tl_extend acc ls = acc ++ concat ls.
  Proof. induction ls as [|l ls IH]; intros acc; simpl; [by rewrite app_nil_r|]. by rewrite IH, <-app_assoc. Qed.
  Lemma reverse_spec l : forall acc, tl_reverse acc l = rev l ++ acc.
  Proof. induction l as [|y l IH]; intros acc; simpl; [done|]. by rewrite IH, <-app_assoc. Qed.
  Lemma filter_spec f l : forall acc, tl_filter acc f l = acc ++ List.filter f l.
  Proof. induction l as [|y l IH]; intros acc; simpl; [by rewrite app_nil_r|]. rewrite IH. destruct (f y); [by rewrite <-app_assoc|done]. Qed.
  Lemma has_spec x l : tl_has x l = true <-> x ∈ l.
  Proof.
    unfold tl_has. rewrite existsb_exists. setoid_rewrite <-elem_of_list_In. setoid_rewrite bool_decide_eq_true. naive_solver.
  Qed.
  Lemma exclude_spec ex : forall l, tl_exclude l ex = filter (fun y => y ∉ ex) l.
  Proof.
    induction ex as [|x ex IH]; intros l; simpl.
    - induction l as [|y l IHl]; [done|]. rewrite filter_cons, decide_True by apply not_elem_of_nil. by rewrite <-IHl.
    - rewrite IH, remove_all_spec. simpl. rewrite list_filter_filter. apply list_filter_iff. intros y. rewrite not_elem_of_cons. naive_solver.
  Qed.
  Lemma firsts_ext l : forall s1 s2, (forall x, x ∈ s1 <-> x ∈ s2) -> firsts s1 l = firsts s2 l.
  Proof.
    induction l as [|y l IH]; intros s1 s2 E; simpl; [done|]. pose proof (E y). destruct (decide (y ∈ s1)), (decide (y ∈ s2)); [by apply IH|tauto|tauto|].
    f_equal. apply IH. intros x. rewrite !elem_of_cons. naive_solver.
  Qed.
  Lemma distinct_spec l : forall acc, tl_distinct acc l = acc ++ firsts acc l.
  Proof.
    induction l as [|y l IH]; intros acc; simpl; [by rewrite app_nil_r|].
    destruct (decide (y ∈ acc)) as [Hy|Hy].
    - assert (existsb (fun z => bool_decide (y = z)) acc = true) as -> by (by apply (has_spec y acc)). apply IH.
    - destruct (existsb _ acc) eqn:E; [by apply (has_spec y acc) in E|]. rewrite IH, <-app_assoc. simpl. do 2 f_equal.
      apply firsts_ext. intros x. rewrite elem_of_app, elem_of_list_singleton, elem_of_cons. naive_solver.
  Qed.
  Lemma firsts_elem l : forall seen x, x ∈ firsts seen l <-> x ∈ l /\ x ∉ seen.
  Proof.
    induction l as [|y l IH]; intros seen x; simpl; [rewrite elem_of_nil; naive_solver|].
    destruct (decide (y ∈ seen)) as [Hy|Hy]; rewrite ?elem_of_cons, IH, ?elem_of_cons; [naive_solver|].
    destruct (decide (x = y)); naive_solver.
  Qed.
  Lemma firsts_nodup l : forall seen, NoDup (firsts seen l).
  Proof.
    induction l as [|y l IH]; intros seen; simpl; [constructor|]. destruct (decide (y ∈ seen)); [apply IH|].
    constructor; [|apply IH]. rewrite firsts_elem, elem_of_cons. naive_solver.
  Qed.
  Lemma firsts_sub l : forall seen, sublist (firsts seen l) l.
  Proof.
    induction l as [|y l IH]; intros seen; simpl; [constructor|]. destruct (decide (y ∈ seen)); constructor; apply IH.
  Qed.

  (** ** policies *)
  Context (P : policies T).
  Local Notation needs := (needs P).
  Local Notation depth := (depth P).
  Local Notation chosen := (chosen P).
  Local Notation defaults := (defaults P).

  Lemma dependent_spec n : forall p, depth n p -> forall q, q ∈ dependent P n p <-> needs p q.
  Proof.
    induction n as [|n IH]; intros p Hd q; inversion Hd as [? ? Hn]; subst.
    simpl. rewrite !extend_spec. simpl. rewrite ?app_nil_r, elem_of_app. split.
    - intros [H|H]; [|by left]. apply elem_concat in H as (l & Hl & H). apply elem_of_list_fmap in H as (r & -> & Hr).
      eapply needs_trans; [done|]. by apply (IH r (Hn r Hr)).
    - destruct 1 as [p q Hq|p r q Hr Hq]; [by right|]. left. apply elem_concat. exists (dependent P n r).
      split; [by apply (IH r (Hn r Hr))|]. by apply elem_of_list_fmap_1.
  Qed.
  Lemma policy_dependencies_spec n us : (forall p, p ∈ us -> depth n p) ->
    NoDup (policy_dependencies P n us) /\
    forall q, q ∈ policy_dependencies P n us <-> q ∉ us /\ exists p, p ∈ us /\ needs p q.
  Proof.
    intros Hd. unfold policy_dependencies. rewrite distinct_spec. simpl. split; [apply firsts_nodup|].
    intros q. rewrite firsts_elem, exclude_spec, elem_of_list_filter, extend_spec. simpl. rewrite elem_concat.
    split.
    - intros [(Hq & l & Hl & H) _]. split; [done|]. apply elem_of_list_fmap in H as (p & -> & Hp). exists p. split; [done|].
      by apply (dependent_spec n p (Hd p Hp)).
    - intros (Hq & p & Hp & Hn). split; [|apply not_elem_of_nil]. split; [done|]. exists (dependent P n p). split.
      + by apply (dependent_spec n p (Hd p Hp)).
      + by apply elem_of_list_fmap_1.
  Qed.

  Lemma count_app q l1 l2 : count_of q (l1 ++ l2) = count_of q l1 + count_of q l2.
  Proof. unfold count_of. by rewrite filter_app, app_length. Qed.
  Lemma count_zero q l : q ∉ l -> count_of q l = 0.
  Proof.
    unfold count_of. induction l as [|x l IH]; [done|]. rewrite not_elem_of_cons. intros [H1 H2]. rewrite filter_cons, decide_False by congruence. auto.
  Qed.
  Lemma count_one q l : NoDup l -> q ∈ l -> count_of q l = 1.
  Proof.
    induction 1 as [|x l Hx Hn IH]; [by intros ?%elem_of_nil|]. unfold count_of in *. rewrite filter_cons. destruct (decide (x = q)) as [->|].
    - intros _. simpl. f_equal. by apply (count_zero q l).
    - intros [?|?]%elem_of_cons; [congruence|auto].
  Qed.
  Lemma existsb_cases (f : T -> bool) l (d : T) (Q : T -> Prop) : (forall p, p ∈ l <-> Q p) ->
    (if existsb f l then [] else [d]) = [d] /\ (forall p, Q p -> f p = false) \/
    (if existsb f l then [] else [d]) = [] /\ exists p, Q p /\ f p = true.
  Proof.
    intros HQ. destruct (existsb f l) eqn:E.
    - right. split; [done|]. apply existsb_exists in E as (p & Hp & Hf). exists p. split; [|done]. apply HQ. by apply elem_of_list_In.
    - left. split; [done|]. intros p Hp. destruct (f p) eqn:Ef; [|done]. rewrite <-E. symmetry. apply existsb_exists. exists p. split; [|done].
      apply elem_of_list_In. by apply HQ.
  Qed.
  Theorem all_policies_spec n us : (forall p, p ∈ us -> depth n p) ->
    exists dfl deps, all_policies P n us = dfl ++ deps ++ us /\ defaults us dfl /\
      NoDup deps /\ (forall q, q ∈ deps <-> q ∉ us /\ exists p, p ∈ us /\ needs p q).
  Proof.
    intros Hd. destruct (policy_dependencies_spec n us Hd) as [Hn Hq].
    assert (forall q, chosen us q <-> q ∈ us \/ q ∈ policy_dependencies P n us) as Hc.
    { intros q. unfold chosen. rewrite Hq. destruct (decide (q ∈ us)); naive_solver. }
    unfold all_policies. rewrite extend_spec. simpl. rewrite app_nil_r.
    match goal with |- context [?ts ++ ?al ++ ?eq ++ ?ha ++ ?er ++ policy_dependencies P n us ++ us] =>
      exists (ts ++ al ++ eq ++ ha ++ er), (policy_dependencies P n us); split; [by rewrite <-!app_assoc|]; split; [|done];
      exists ts, al, eq, ha, er; split; [done|] end. split_and!.
    - destruct (_ || _) eqn:E.
      + right. split; [done|]. rewrite !Hc. rewrite !orb_true_iff, !has_spec in E. naive_solver.
      + left. rewrite !Hc. rewrite !orb_false_iff in E. destruct E as [[[E1 E2] E3] E4].
        split; [done|]. split; intros [H|H]; apply has_spec in H; congruence.
    - by apply existsb_cases.
    - by apply existsb_cases.
    - by apply existsb_cases.
    - apply existsb_cases. intros p. rewrite elem_of_app. by rewrite Hc.
  Qed.

  (** naming a dependency explicitly does not change the set of chosen policies *)
  Lemma needs_ind_trans p q r : needs p q -> needs q r -> needs p r.
  Proof. induction 1; intros; [by eapply needs_trans|]. eapply needs_trans; [done|auto]. Qed.
  Lemma chosen_explicit us d q : chosen us d -> (chosen (d :: us) q <-> chosen us q).
  Proof.
    intros Hd. unfold chosen. setoid_rewrite elem_of_cons. split.
    - intros [[->|H]|(p & [->|Hp] & Hn)]; [done|by left| |by right; eauto].
      destruct Hd as [Hd|(p & Hp & Hpd)]; [by right; eauto|]. right. exists p. split; [done|]. by eapply needs_ind_trans.
    - intros [H|(p & Hp & Hn)]; [by left; right|]. right. exists p. split; [by right|done].
  Qed.
  Lemma needs_depth n p q : depth n p -> needs p q -> depth n q.
  Proof.
    intros Hd Hn. revert n Hd. assert (forall n p, depth n p -> depth (S n) p) as Hup.
    { intros n p'. induction 1 as [n p' H IH]. constructor. auto. }
    induction Hn as [p q Hq|p q r Hq Hn IH]; intros n Hd; inversion Hd as [m ? Hm]; subst; apply Hup; [by apply Hm|]. apply IH. by apply Hm.
  Qed.
End meta.

(** ** maintenance *)
Definition demand_of (d : option nat) : nat := default 0 d.
Lemma removal_check_max ds : forall m, removal_check m ds = Nat.max m (foldr Nat.max 0 (map demand_of ds)).
Proof.
  induction ds as [|[d|] ds IH]; intros m; simpl; [lia|..]; rewrite IH; [|lia]. case_bool_decide; lia.
Qed.
Lemma removal_check_spec ds n : maintenance_demand ds = Some n ->
  (forall d, Some d ∈ ds -> d <= n) /\ Some n ∈ ds.
Proof.
  unfold maintenance_demand. destruct (existsb _ ds) eqn:E; [|done]. intros [= <-]. rewrite removal_check_max.
  assert (forall d, Some d ∈ ds -> d <= foldr Nat.max 0 (map demand_of ds)) as Hle.
  { intros d. clear E. induction ds as [|x ds IH]; [by intros ?%elem_of_nil|]. simpl. intros [<-|H]%elem_of_cons; [simpl; lia|]. specialize (IH H). lia. }
  split; [simpl; intros d Hd; specialize (Hle d Hd); lia|]. simpl.
  apply existsb_exists in E as (x & Hx & Ex). apply bool_decide_eq_true in Ex as [y ->]. apply elem_of_list_In in Hx. clear Hle.
  assert (foldr Nat.max 0 (map demand_of ds) = 0 \/ Some (foldr Nat.max 0 (map demand_of ds)) ∈ ds) as [E0|]; [| |done].
  { clear. induction ds as [|[d|] ds IH]; simpl; [by left|..].
    - right. destruct IH as [->|IH]; [rewrite Nat.max_0_r; by left|]. destruct (Nat.max_spec d (foldr Nat.max 0 (map demand_of ds))) as [[_ ->]|[_ ->]]; [by right|by left].
    - destruct IH as [->|IH]; [by left|by right; right]. }
  assert (y = 0) as ->; [|by rewrite E0].
  clear -Hx E0. induction ds as [|z ds IH]; [by apply elem_of_nil in Hx|]. simpl in E0. apply elem_of_cons in Hx as [<-|Hx]; [simpl in E0; lia|]. apply IH; [done|lia].
Qed.

(** ** summaries *)
Section sum.
  Context {T : Type} `{EqDecision T} (P : policies T).
  Lemma type_lists x f (l acc ex : list T) ls :
    tl_remove_all [] x l = filter (fun y => x <> y) l /\
    tl_remove [] x l = rm_first x l /\
    tl_distinct [] l = firsts [] l /\
    tl_extend acc ls = acc ++ concat ls /\
    tl_reverse [] l = rev l /\
    tl_filter [] f l = List.filter f l /\
    tl_exclude l ex = filter (fun y => y ∉ ex) l /\
    (tl_has x l = true <-> x ∈ l).
  Proof.
    repeat split; [by rewrite remove_all_spec|by rewrite remove_spec|by rewrite distinct_spec|by rewrite extend_spec|
      by rewrite reverse_spec, app_nil_r|by rewrite filter_spec|by rewrite exclude_spec|apply has_spec|apply has_spec].
  Qed.
  Lemma first_occurrences (l : list T) : NoDup (firsts [] l) /\ sublist (firsts [] l) l /\ forall x, x ∈ firsts [] l <-> x ∈ l.
  Proof.
    split; [apply firsts_nodup|]. split; [apply firsts_sub|]. intros x. rewrite firsts_elem. pose proof (not_elem_of_nil x). tauto.
  Qed.
  (** the optional equal, hash and allocator defaults are the only policies that can come twice *)
  Lemma policy_counts n us q : (forall p, p ∈ us -> depth P n p) -> po_error P (po_derror P) = true ->
    q ∉ us -> (exists p, p ∈ us /\ needs P p q) -> q ∉ [po_dalloc P; po_dequal P; po_dhash P] ->
    count_of q (all_policies P n us) = 1.
  Proof.
    intros Hd He Hq Hn Hx. destruct (all_policies_spec P n us Hd) as (dfl & deps & -> & Hdf & Hnd & Hdeps).
    rewrite !count_app, (count_zero q us) by done. rewrite (count_one q deps) by (done || by apply Hdeps).
    assert (count_of q dfl = 0) as ->; [|done]. apply count_zero.
    destruct Hdf as (ts & al & eq & ha & er & -> & H1 & H2 & H3 & H4 & H5).
    rewrite !not_elem_of_cons in Hx. destruct Hx as (X1 & X2 & X3 & _).
    assert (chosen P us q) as Hc by (by right).
    rewrite !not_elem_of_app. split_and!.
    - destruct H1 as [(-> & Hs & _)|[-> _]]; [|apply not_elem_of_nil]. rewrite elem_of_list_singleton. intros ->. done.
    - destruct H2 as [[-> _]|[-> _]]; [by rewrite elem_of_list_singleton|apply not_elem_of_nil].
    - destruct H3 as [[-> _]|[-> _]]; [by rewrite elem_of_list_singleton|apply not_elem_of_nil].
    - destruct H4 as [[-> _]|[-> _]]; [by rewrite elem_of_list_singleton|apply not_elem_of_nil].
    - destruct H5 as [[-> Hs]|[-> _]]; [|apply not_elem_of_nil]. rewrite elem_of_list_singleton. intros ->. rewrite (Hs _ Hc) in He. done.
  Qed.
  Lemma explicit_dependency n us d : (forall p, p ∈ us -> depth P n p) -> d ∉ us -> (exists p, p ∈ us /\ needs P p d) ->
    exists dfl deps dfl' deps', all_policies P n us = dfl ++ deps ++ us /\ all_policies P n (d :: us) = dfl' ++ deps' ++ d :: us /\
      count_of d (deps ++ us) = 1 /\ count_of d (deps' ++ d :: us) = 1 /\
      (forall q, q ∈ deps' ++ d :: us <-> q ∈ deps ++ us).
  Proof.
    intros Hd Hu Hn. pose proof Hn as (p & Hp & Hpd).
    destruct (all_policies_spec P n us Hd) as (dfl & deps & E & _ & Hnd & Hq).
    assert (forall p, p ∈ d :: us -> depth P n p) as Hd'.
    { intros r [->|Hr]%elem_of_cons; [by eapply needs_depth; eauto|by apply Hd]. }
    destruct (all_policies_spec P n (d :: us) Hd') as (dfl' & deps' & E' & _ & Hnd' & Hq').
    exists dfl, deps, dfl', deps'. split; [done|]. split; [done|]. split_and!.
    - rewrite count_app, (count_zero d us), (count_one d deps); [done|done|by apply Hq|done].
    - rewrite count_app, (count_zero d deps') by (intros H; apply Hq' in H as [H _]; apply H; by left).
      change (d :: us) with ([d] ++ us). rewrite count_app, (count_zero d us) by done.
      rewrite (count_one d [d]); [done|apply NoDup_singleton|by left].
    - intros q. assert (chosen P us d) as Hc by (by right; eauto). pose proof (chosen_explicit P us d q Hc) as H. unfold chosen in H.
      rewrite !elem_of_app, Hq, Hq'. destruct (decide (q ∈ us)), (decide (q ∈ d :: us)); tauto.
  Qed.
End sum.
Lemma demand_max ds n os s : maintenance_demand ds = Some n -> qsem_run ∅ os = Some s ->
  (forall d, Some d ∈ ds -> d <= n) /\ Some n ∈ ds /\
  exists q hot cold, qrun queue_init os = Ok q /\ elements 0 (q_links q) = Ok (hot ++ cold) /\
    (length cold = length hot \/ length cold = S (length hot)) /\
    exists dropped, lru_expire q n = Ok dropped /\ length dropped = Nat.min n (length cold).
Proof.
  intros Hm Hs. destruct (removal_check_spec ds n Hm) as [H1 H2]. split; [done|]. split; [done|].
  destruct (queue_histories os s Hs) as (q & hot & cold & E1 & E2 & _ & _ & E3 & _ & _ & _ & E4).
  exists q, hot, cold. split; [done|]. split; [done|]. split; [done|]. eexists. split; [apply E4|].
  by rewrite take_length, reverse_length.
Qed.
