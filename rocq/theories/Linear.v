(** Proofs about Concurrency.v: guarded calls are linearizable and do not deadlock. *)
From Coq Require Import ssreflect.
From Verif Require Import Base Mapped Cache Histories Concurrency.

(** ** Order in lists *)
Lemma before_app {X : Type} (l l' : list X) x y : before l x y -> before (l ++ l') x y.
Proof. intros (l1 & l2 & l3 & ->). exists l1, l2, (l3 ++ l'). by rewrite -!app_assoc /= -!app_assoc. Qed.
Lemma before_snoc {X : Type} (l : list X) x y : x ∈ l -> before (l ++ [y]) x y.
Proof. intros (l1 & l2 & ->)%elem_of_list_split. exists l1, l2, []. by rewrite -!app_assoc /=. Qed.
Lemma before_snoc_inv {X : Type} (l : list X) x y z : before (l ++ [z]) x y -> before l x y \/ (y = z /\ x ∈ l).
Proof.
  intros (l1 & l2 & l3 & E). destruct (decide (l3 = [])) as [->|Hn].
  - right. replace (l1 ++ x :: l2 ++ [y]) with ((l1 ++ x :: l2) ++ [y]) in E by by rewrite -app_assoc.
    apply app_inj_tail in E as [-> ->]. split; [done|]. apply elem_of_app. right. by left.
  - left. destruct (exists_last Hn) as (l4 & w & ->).
    replace (l1 ++ x :: l2 ++ y :: l4 ++ [w]) with ((l1 ++ x :: l2 ++ y :: l4) ++ [w]) in E
      by by rewrite -!app_assoc /= -!app_assoc.
    apply app_inj_tail in E as [-> _]. by exists l1, l2, l4.
Qed.
Lemma before_in {X : Type} (l : list X) x y : before l x y -> x ∈ l /\ y ∈ l.
Proof. intros (l1 & l2 & l3 & ->). split; set_solver. Qed.

Section linear.
  Context {S O R : Type} (body : O -> prog S R) (look : O -> option (S -> bool)) (run1 : O -> S -> res (S * R)).
  Context (good : S -> Prop) (okop : O -> Prop).
  Context (Hok : forall o s, good s -> okop o -> exists s' r, run1 o s = Ok (s', r) /\ exec (body o) s = Ok (s', r) /\ good s').
  (** a call holds the lock all the time, or it looks at something first *)
  Definition peeks (o : O) (V : S -> bool) (q : bool -> prog S R) : Prop := body o = PAct (fun s => Ok (s, V s)) q.
  Context (Hgu : forall o, okop o ->
    match look o with
    | None => guarded (body o)
    | Some V => exists q, peeks o V q /\ forall b, (exists r, q b = PRet r) \/ guarded (q b)
    end).
  Context (s0 : S) (ps : list (list O)) (Hs0 : good s0) (Hps : Forall (Forall okop) ps).
  (** accesses of the call do not change [V] *)
  Fixpoint steady (V : S -> bool) (p : prog S R) (s : S) : Prop :=
    match p with
    | PRet _ => True
    | PAcq p | PRel p => steady V p s
    | PAct f c => forall s' a, f s = Ok (s', a) -> V s' = V s /\ steady V (c a) s'
    end.
  (** [V]: what a call of a thread other than [t] looks at *)
  Definition foreign (t : nat) (V : S -> bool) : Prop := exists u l o, u <> t /\ ps !! u = Some l /\ o ∈ l /\ look o = Some V.
  Context (Hfor : forall t l o V s, ps !! t = Some l -> o ∈ l -> foreign t V -> good s -> steady V (body o) s).
  Notation conf := (conf S O R).
  Notation ids := (map (@fst (nat * nat) (O * R))).

  Definition mine (c : conf) (t : nat) : Prop := exists d, c_owner c = Some (t, d).
  (** [p] is what [o] does with the lock, given what it saw *)
  Definition ready (o : O) (b : S) (p : prog S R) : Prop :=
    guarded p /\ match look o with None => p = body o | Some V => exists q, peeks o V q /\ p = q (V b) end.
  (** where thread [t] is in its current call [o], the [m]-th *)
  Definition stage (c : conf) (lin : list (nat * nat * (O * R))) (b : S) (t m : nat) (o : O) (p : prog S R) : Prop :=
    (~ mine c t /\ is_Some (look o) /\ p = body o /\ (t, m) ∉ ids lin) \/
    (~ mine c t /\ ready o b p /\ (t, m) ∉ ids lin) \/
    (~ mine c t /\ exists r, p = PRet r /\ ((t, m), (o, r)) ∈ lin) \/
    (exists d, c_owner c = Some (t, Datatypes.S d) /\ crit (Datatypes.S d) p /\ exec p (c_sh c) = exec (body o) b /\ (t, m) ∉ ids lin /\
       forall V, foreign t V -> V (c_sh c) = V b /\ steady V p (c_sh c)).
  Definition tinv (c : conf) (lin : list (nat * nat * (O * R))) (b : S) (t : nat) (th : thread S O R) : Prop :=
    exists l, ps !! t = Some l /\ t_todo th = drop (t_n th) l /\ t_n th <= length l /\
      match t_cur th with
      | None => ~ mine c t /\ forall m, m < t_n th -> exists r, HRes t m r ∈ c_hist c
      | Some p => exists m o, t_n th = Datatypes.S m /\ l !! m = Some o /\ HInv t m o ∈ c_hist c /\
          (forall m', m' < m -> exists r, HRes t m' r ∈ c_hist c) /\ stage c lin b t m o p
      end.
  Record inv (c : conf) (lin : list (nat * nat * (O * R))) (b : S) : Prop := {
    i_good : good b;
    i_turn : in_turn run1 s0 lin b;
    i_state : c_owner c = None -> c_sh c = b;
    i_once : NoDup (ids lin);
    i_begun t n o r : ((t, n), (o, r)) ∈ lin -> (exists l, ps !! t = Some l /\ l !! n = Some o) /\ HInv t n o ∈ c_hist c;
    i_ret t n r : HRes t n r ∈ c_hist c -> exists o, ((t, n), (o, r)) ∈ lin;
    i_order t n r t' n' o' : before (c_hist c) (HRes t n r) (HInv t' n' o') -> (t', n') ∈ ids lin -> before (ids lin) (t, n) (t', n');
    i_thread t n n' o : HInv t n o ∈ c_hist c -> n' < n -> exists r, before (c_hist c) (HRes t n' r) (HInv t n o);
    i_inv t n o : HInv t n o ∈ c_hist c -> exists th, c_ths c !! t = Some th /\ n < t_n th;
    i_len : length (c_ths c) = length ps;
    i_owner t d : c_owner c = Some (t, d) -> exists th p, c_ths c !! t = Some th /\ t_cur th = Some p;
    i_th t th : c_ths c !! t = Some th -> tinv c lin b t th
  }.

  Lemma inv_start : inv (start s0 ps) [] s0.
  Proof using Hs0.
    split; simpl; try done.
    - constructor.
    - constructor.
    - intros t n o r H. by apply elem_of_nil in H.
    - intros t n r H. by apply elem_of_nil in H.
    - intros t n r t' n' o' _ H. by apply elem_of_nil in H.
    - intros t n n' o H. by apply elem_of_nil in H.
    - intros t n o H. by apply elem_of_nil in H.
    - by rewrite map_length.
    - intros t th H. rewrite list_lookup_fmap in H. destruct (ps !! t) as [l|] eqn:E; [|done].
      injection H as <-. exists l. simpl. rewrite drop_0. split; [done|]. split; [done|]. split; [lia|].
      split; [intros [d H]; done|]. intros m H. lia.
  Qed.

  Lemma inv_like c lin b : inv c lin b -> looks_like run1 s0 ps c lin b.
  Proof.
    intros [H1 H2 H3 H4 H5 H6 H7 H8 H9 H10 H11 H12]. split; try done.
    intros Hf t l n o Hl Hn. destruct (c_ths c !! t) as [th|] eqn:E.
    2: { apply lookup_lt_Some in Hl. apply lookup_ge_None in E. lia. }
    destruct (H12 t th E) as (l' & Hl' & Htodo & Hle & Hc). destruct (Hf t th E) as [Hcur Ht].
    rewrite Hl in Hl'. injection Hl' as <-. rewrite Hcur in Hc. destruct Hc as [_ Hc].
    apply Hc. apply lookup_lt_Some in Hn. rewrite Ht in Htodo.
    assert (length (drop (t_n th) l) = 0) as Hd by by rewrite -Htodo. rewrite drop_length in Hd. lia.
  Qed.

  (** what other threads see of a step *)
  Lemma stage_other c c' lin lin' b b' t u m o p l :
    stage c lin b u m o p -> u <> t -> ps !! u = Some l -> o ∈ l ->
    (forall d, c_owner c' = Some (u, d) <-> c_owner c = Some (u, d)) -> (mine c u -> c_sh c' = c_sh c /\ b' = b) ->
    (forall V, foreign t V -> V b' = V b) ->
    (forall x, x ∈ lin -> x ∈ lin') -> (forall i, i ∈ ids lin' -> i ∈ ids lin \/ i.1 = t) ->
    stage c' lin' b' u m o p.
  Proof.
    intros Hs Hut Hl Ho Hm Hm' HV Hsub Hi.
    assert (~ mine c u -> ~ mine c' u) as Hm1 by (intros H [d Hd]; apply H; exists d; by apply Hm).
    assert ((u, m) ∉ ids lin -> (u, m) ∉ ids lin') as Hi1 by (intros H1 H2; destruct (Hi _ H2); done).
    destruct Hs as [(H1 & H2 & H3 & H4)|[(H1 & H2 & H3)|[(H1 & r & H2 & H3)|(d & H1 & H2 & H3 & H4 & H5)]]].
    - left. by auto.
    - right. left. split; [auto|]. split; [|auto]. destruct H2 as [Hg H2]. split; [done|].
      destruct (look o) as [V|] eqn:E; [|done]. destruct H2 as (q & Hq & ->). exists q. split; [done|].
      assert (V b = V b') as -> by (symmetry; apply HV; by exists u, l, o). done.
    - right. right. left. split; [auto|]. eauto.
    - right. right. right. destruct Hm' as [E1 E2]; [by exists (Datatypes.S d)|]. rewrite E2.
      exists d. rewrite E1. split; [by apply Hm|]. auto.
  Qed.
  Lemma ready_exec o b p : ready o b p -> exec p b = exec (body o) b.
  Proof. intros [_ H]. destruct (look o) as [V|]; [|by subst]. destruct H as (q & Hq & ->). by rewrite Hq. Qed.
  Lemma ready_steady t l o b p V : ps !! t = Some l -> o ∈ l -> good b -> ready o b p -> foreign t V -> steady V p b.
  Proof using Hfor.
    intros Hl Ho Hb [_ H] HV. pose proof (Hfor t l o V b Hl Ho HV Hb) as H'. destruct (look o) as [V0|]; [|by subst].
    destruct H as (q & Hq & ->). rewrite Hq in H'. simpl in H'. by apply (H' b (V0 b)).
  Qed.

  Lemma ok_op t l m o : ps !! t = Some l -> l !! m = Some o -> okop o.
  Proof using Hps. intros H1 H2. eapply Forall_lookup_1 in H1; [|exact Hps]. by eapply Forall_lookup_1 in H1. Qed.

  Lemma inv_tick t c lin b : inv c lin b -> exists c', tick body t c = Ok c' /\ exists lin' b', inv c' lin' b'.
  Proof using Hok Hgu Hps Hfor.
    intros HI. unfold tick. destruct (c_ths c !! t) as [th|] eqn:Eth; [|by eauto].
    pose proof HI as [H1 H2 H3 H4 H5 H6 H7 H8 H9 H10 H11 H12].
    destruct (H12 t th Eth) as (l & Hl & Htodo & Hle & Hc).
    assert (t < length (c_ths c)) as Hlt by by eapply lookup_lt_Some.
    destruct (t_cur th) as [p|] eqn:Ecur.
    2: { (* the next call begins *)
      destruct Hc as [Hno Hret]. destruct (t_todo th) as [|o l'] eqn:Et; [by eauto|].
      eexists. split; [reflexivity|]. exists lin, b.
      assert (l !! t_n th = Some o /\ l' = drop (1 + t_n th) l) as [Ho Hl'].
      { assert (drop (t_n th) l !! 0 = Some o) as E by by rewrite -Htodo.
        rewrite lookup_drop Nat.add_0_r in E. split; [done|].
        rewrite (drop_S l o (t_n th)) // in Htodo. by injection Htodo. }
      assert (forall m, HInv t m o ∈ c_hist c -> m < t_n th) as Hfresh.
      { intros m H. destruct (H9 t m o H) as (th' & E & Hm). rewrite Eth in E. by injection E as <-. }
      assert ((t, t_n th) ∉ ids lin) as Hnew.
      { intros ([[t' n] [o' r]] & E & H)%elem_of_list_fmap. simpl in E. injection E as <- <-.
        destruct (H5 _ _ _ _ H) as [_ H']. destruct (H9 _ _ _ H') as (th' & E & Hm). rewrite Eth in E. injection E as <-. lia. }
      assert (forall x, x ∈ c_hist c -> x ∈ c_hist c ++ [HInv t (t_n th) o]) as Hh by (intros x H; apply elem_of_app; by left).
      split; simpl; try done.
      - intros t' n o' r H. destruct (H5 _ _ _ _ H) as [? ?]. eauto.
      - intros t' n r H. apply elem_of_app in H as [H|H]; [eauto|]. apply elem_of_list_singleton in H. done.
      - intros t1 n r t2 n2 o2 H Hi. apply before_snoc_inv in H as [H|[H _]]; [eauto|].
        injection H as -> -> ->. done.
      - intros t1 n n' o1 H Hn. apply elem_of_app in H as [H|H].
        + destruct (H8 _ _ _ _ H Hn) as [r Hr]. exists r. by apply before_app.
        + apply elem_of_list_singleton in H. injection H as -> -> ->. destruct (Hret n' Hn) as [r Hr]. exists r. by apply before_snoc.
      - intros t1 n o1 H. apply elem_of_app in H as [H|H].
        + destruct (H9 _ _ _ H) as (th' & E & Hn). destruct (decide (t1 = t)) as [->|Ht].
          * rewrite Eth in E. injection E as <-. eexists. rewrite /put list_lookup_insert //. split; [done|]. simpl. lia.
          * exists th'. rewrite /put list_lookup_insert_ne //. 
        + apply elem_of_list_singleton in H. injection H as -> -> ->. eexists. rewrite /put list_lookup_insert //.
          split; [done|]. simpl. lia.
      - by rewrite /put insert_length.
      - intros u d Hu. destruct (H11 u d Hu) as (th' & p' & E & Ep). destruct (decide (u = t)) as [->|Ht].
        + exfalso. apply Hno. by exists d.
        + exists th', p'. by rewrite /put list_lookup_insert_ne.
      - intros u th' Hu. destruct (decide (u = t)) as [->|Ht].
        + rewrite /put list_lookup_insert // in Hu. injection Hu as <-. exists l. simpl.
          split; [done|]. split; [done|]. split; [by apply lookup_lt_Some in Ho|].
          exists (t_n th), o. split; [done|]. split; [done|]. split; [apply elem_of_app; right; by left|].
          split; [intros m Hm; destruct (Hret m Hm) as [r Hr]; eauto|].
          pose proof (Hgu o ltac:(by eapply ok_op)) as Hg. destruct (look o) as [V|] eqn:El.
          * left. rewrite El. by eauto.
          * right. left. split; [done|]. split; [|done]. split; [done|]. by rewrite El.
        + rewrite /put list_lookup_insert_ne // in Hu. destruct (H12 u th' Hu) as (l1 & A1 & A2 & A3 & A4).
          exists l1. split; [done|]. split; [done|]. split; [done|]. destruct (t_cur th').
          * destruct A4 as (m & o1 & B1 & B2 & B3 & B4 & B5). exists m, o1. split; [done|]. split; [done|]. split; [eauto|].
            split; [intros m' Hm'; destruct (B4 m' Hm'); eauto|]. exact B5.
          * destruct A4 as [B1 B2]. split; [done|]. intros m Hm. destruct (B2 m Hm). eauto. }
    destruct Hc as (m & o & Hn & Ho & Hinv & Hret & Hst).
    assert (okop o) as Hoo by by eapply ok_op.
    assert (o ∈ l) as Hol by by eapply elem_of_list_lookup_2.
    (* what a step that only changes thread [t], the owner and the state does *)
    assert (forall sh' ow' p' lin' b', 
      let c' := Conf sh' ow' (put c t (Th (t_todo th) (Some p') (t_n th))) (c_hist c) in
      good b' -> in_turn run1 s0 lin' b' -> (ow' = None -> sh' = b') ->
      (lin' = lin \/ (exists r, lin' = lin ++ [((t, m), (o, r))] /\ (t, m) ∉ ids lin)) ->
      (forall u d, u <> t -> ow' = Some (u, d) <-> c_owner c = Some (u, d)) ->
      (forall u d, u <> t -> c_owner c = Some (u, d) -> sh' = c_sh c /\ b' = b) ->
      (forall V, foreign t V -> V b' = V b) ->
      stage c' lin' b' t m o p' -> inv c' lin' b') as Hmk.
    { intros sh' ow' p' lin' b' c' G1 G2 G3 G4 G5 G6 G7 G8.
      assert (forall x, x ∈ lin -> x ∈ lin') as Hsub by (destruct G4 as [->|(r & -> & _)]; [done|intros; apply elem_of_app; by left]).
      assert (forall i, i ∈ ids lin' -> i ∈ ids lin \/ i = (t, m)) as Hids.
      { destruct G4 as [->|(r & -> & _)]; [by left|]. intros i H. rewrite map_app in H.
        apply elem_of_app in H as [H|H]; [by left|]. right. by apply elem_of_list_singleton in H. }
      split; simpl; try done.
      - destruct G4 as [->|(r & -> & Hr)]; [done|]. rewrite map_app. apply NoDup_app. split; [done|]. split.
        + intros x Hx H. apply elem_of_list_singleton in H. subst x. done.
        + apply NoDup_singleton.
      - intros t1 n1 o1 r1 H. destruct G4 as [->|(r & -> & Hr)]; [eauto|]. apply elem_of_app in H as [H|H]; [eauto|].
        apply elem_of_list_singleton in H. injection H as -> -> -> ->. eauto.
      - intros t1 n1 r1 H. destruct (H6 _ _ _ H) as [o1 H']. eauto.
      - intros t1 n1 r1 t2 n2 o2 H Hi. destruct G4 as [->|(r & -> & Hr)]; [eauto|]. rewrite map_app in Hi; rewrite map_app.
        apply elem_of_app in Hi as [Hi|Hi]; [by apply before_app; eauto|]. apply elem_of_list_singleton in Hi. rewrite Hi.
        apply before_snoc. destruct (before_in _ _ _ H) as [Hr1 _]. destruct (H6 _ _ _ Hr1) as [o1 Ho1].
        apply elem_of_list_fmap. by exists ((t1, n1), (o1, r1)).
      - intros t1 n1 o1 H. destruct (H9 _ _ _ H) as (th' & E & Hm). destruct (decide (t1 = t)) as [->|Ht].
        * rewrite Eth in E. injection E as <-. eexists. rewrite /put list_lookup_insert //.
        * exists th'. rewrite /put list_lookup_insert_ne //. 
      - by rewrite /put insert_length.
      - intros u d Hu. destruct (decide (u = t)) as [->|Ht].
        + eexists _, p'. rewrite /put list_lookup_insert //.
        + rewrite /put list_lookup_insert_ne //. apply (H11 u d). by apply (G5 u d Ht).
      - intros u th' Hu. destruct (decide (u = t)) as [->|Ht].
        + rewrite /put list_lookup_insert // in Hu. injection Hu as <-. exists l. simpl. split; [done|]. split; [done|]. split; [done|].
          exists m, o. done.
        + rewrite /put list_lookup_insert_ne // in Hu. destruct (H12 u th' Hu) as (l1 & A1 & A2 & A3 & A4).
          exists l1. split; [done|]. split; [done|]. split; [done|].
          destruct (t_cur th').
          * destruct A4 as (m1 & o1 & B1 & B2 & B3 & B4 & B5). exists m1, o1. split; [done|]. split; [done|]. split; [done|].
            split; [done|]. eapply (stage_other c c'); [exact B5|exact Ht|exact A1|by eapply elem_of_list_lookup_2|..|exact G7|exact Hsub|].
            -- intros d. by apply G5.
            -- intros [d Hd]. by eapply G6.
            -- intros i [H| ->]%Hids; [by left|by right].
          * destruct A4 as [B1 B2]. split; [|done]. intros [d Hd]. apply B1. exists d. by apply (G5 u d Ht). }
    destruct Hst as [(A1 & [V A2] & A3 & A4)|[(A1 & A2 & A3)|[(A1 & r & A2 & A3)|(d & A1 & A2 & A3 & A4 & A5)]]].
    - (* look *)
      pose proof (Hgu o Hoo) as Hg. rewrite A2 in Hg. destruct Hg as (q & Hq & Hg). unfold peeks in Hq. rewrite A3 Hq. simpl.
      assert (V (c_sh c) = V b) as Hv.
      { destruct (c_owner c) as [[u d]|] eqn:Eow; [|by rewrite H3]. assert (u <> t) as Hut by (intros ->; apply A1; by exists d).
        destruct (H11 u d eq_refl) as (th' & p' & E & Ep). destruct (H12 u th' E) as (l1 & B1 & _ & _ & B4). rewrite Ep in B4.
        destruct B4 as (m1 & o1 & _ & _ & _ & _ & Hst).
        destruct Hst as [(C1 & _)|[(C1 & _)|[(C1 & _)|(d' & C1 & C2 & C3 & C4 & C5)]]]; [by destruct C1; exists d..|].
        apply C5. exists t, l, o. done. }
      eexists. split; [reflexivity|]. rewrite Hv. destruct (Hg (V b)) as [[r Hr]|Hg'].
      + destruct (Hok o b H1 Hoo) as (s' & r' & B1 & B2 & B3). rewrite Hq /= Hr in B2. injection B2 as <- <-. rewrite Hr.
        exists (lin ++ [((t, m), (o, r))]), b. apply Hmk; try done.
        * econstructor; done.
        * by right; exists r.
        * right. right. left. split; [done|]. exists r. split; [done|]. apply elem_of_app. right. by left.
      + exists lin, b. apply Hmk; try done; [by left|]. right. left. split; [done|]. split; [|done]. split; [done|].
        rewrite A2. by exists q.
    - (* lock *)
      pose proof A2 as A2'. destruct A2 as [(q & -> & Hcr) A2]. simpl.
      destruct (c_owner c) as [[u d]|] eqn:Eow.
      * assert (u <> t) as Hne by (intros ->; apply A1; exists d; done). rewrite bool_decide_eq_false_2 //. eauto.
      * eexists. split; [reflexivity|]. exists lin, b. apply Hmk; try done; [by left|by intros ?? ?; split; intros [=]|].
        right. right. right. exists 0. simpl. split; [done|]. split; [done|]. rewrite (H3 eq_refl).
        split; [rewrite -(ready_exec o b _ A2') //|]. split; [done|].
        intros V HV. split; [done|]. exact (ready_steady t l o b _ V Hl Hol H1 A2' HV).
    - (* return *)
      rewrite A2. simpl.
      eexists. split; [reflexivity|]. exists lin, b.
      assert (t_n th - 1 = m) as -> by lia.
      assert (forall x, x ∈ c_hist c -> x ∈ c_hist c ++ [HRes t m r]) as Hh by (intros x H; apply elem_of_app; by left).
      split; simpl; try done.
      + intros t1 n1 o1 r1 H. destruct (H5 _ _ _ _ H) as [? ?]. eauto.
      + intros t1 n1 r1 H. apply elem_of_app in H as [H|H]; [eauto|]. apply elem_of_list_singleton in H. injection H as -> -> ->. eauto.
      + intros t1 n1 r1 t2 n2 o2 H Hi. apply before_snoc_inv in H as [H|[H _]]; [eauto|done].
      + intros t1 n1 n' o1 H Hn'. apply elem_of_app in H as [H|H]; [|by apply elem_of_list_singleton in H].
        destruct (H8 _ _ _ _ H Hn') as [r' Hr]. exists r'. by apply before_app.
      + intros t1 n1 o1 H. apply elem_of_app in H as [H|H]; [|by apply elem_of_list_singleton in H].
        destruct (H9 _ _ _ H) as (th' & E & Hm). destruct (decide (t1 = t)) as [->|Ht].
        * rewrite Eth in E. injection E as <-. eexists. rewrite /put list_lookup_insert //.
        * exists th'. rewrite /put list_lookup_insert_ne //. 
      + by rewrite /put insert_length.
      + intros u d Hu. destruct (H11 u d Hu) as (th' & p' & E & Ep). destruct (decide (u = t)) as [->|Ht].
        * exfalso. apply A1. by exists d.
        * exists th', p'. by rewrite /put list_lookup_insert_ne.
      + intros u th' Hu. destruct (decide (u = t)) as [->|Ht].
        * rewrite /put list_lookup_insert // in Hu. injection Hu as <-. exists l. simpl.
          split; [done|]. split; [done|]. split; [done|]. split; [done|].
          intros m' Hm'. destruct (decide (m' = m)) as [->|Hne].
          -- exists r. apply elem_of_app. right. by left.
          -- destruct (Hret m') as [r' Hr]; [lia|]. eauto.
        * rewrite /put list_lookup_insert_ne // in Hu. destruct (H12 u th' Hu) as (l1 & B1 & B2 & B3 & B4).
          exists l1. split; [done|]. split; [done|]. split; [done|]. destruct (t_cur th').
          -- destruct B4 as (m1 & o1 & C1 & C2 & C3 & C4 & C5). exists m1, o1. split; [done|]. split; [done|]. split; [eauto|].
             split; [intros m' Hm'; destruct (C4 m' Hm'); eauto|]. exact C5.
          -- destruct B4 as [C1 C2]. split; [done|]. intros m1 Hm1. destruct (C2 m1 Hm1). eauto.
    - (* with the lock *)
      assert (forall u d', u <> t -> c_owner c <> Some (u, d')) as Hother by (rewrite A1; by intros ?? ? [=]).
      assert (forall u d', u <> t -> c_owner c = Some (u, d') -> False) as Hother' by (intros; by eapply Hother).
      destruct p as [r|q|q|A f q]; simpl in A2; [done|..]; simpl.
      + rewrite A1. rewrite bool_decide_eq_true_2 //. eexists. split; [reflexivity|]. exists lin, b.
        apply Hmk; try done; try (by left); try (by rewrite A1); try (by rewrite A1; intros ?? ?; split; intros [=]); try (by intros ?? ? ?%Hother').
        right. right. right. exists (Datatypes.S d). simpl. split; [done|]. split; [by destruct A2|]. done.
      + rewrite A1. rewrite bool_decide_eq_true_2 //. eexists. split; [reflexivity|].
        destruct d as [|d].
        * (* the last one *)
          rewrite bool_decide_eq_true_2 //.
          destruct q as [r|q|q|A f q]; simpl in A2; try done; [|by destruct A2; lia|by destruct A2; lia].
          simpl in A3. destruct (Hok o b H1 Hoo) as (s' & r' & B1 & B2 & B3). rewrite B2 in A3. injection A3 as A3 <-.
          exists (lin ++ [((t, m), (o, r))]), s'. apply Hmk; try done.
          -- econstructor; done.
          -- by right; exists r.
          -- rewrite A1. by intros ?? ?; split; intros [=].
          -- by intros ?? ? ?%Hother'.
          -- intros V HV. rewrite -A3. by apply A5.
          -- right. right. left. split; [by intros [? ?]|]. exists r. split; [done|]. apply elem_of_app. right. by left.
        * rewrite bool_decide_eq_false_2 //. exists lin, b.
          apply Hmk; try done; try (by left); try (by rewrite A1); try (by rewrite A1; intros ?? ?; split; intros [=]); try (by intros ?? ? ?%Hother').
          right. right. right. exists d. simpl. rewrite ?Nat.sub_0_r. split; [done|]. done.
      + destruct (Hok o b H1 Hoo) as (s' & r' & B1 & B2 & B3). rewrite B2 in A3. simpl in A3.
        destruct (f (c_sh c)) as [[s1 a]| | |] eqn:Ef; simpl in A3; try done. simpl.
        eexists. split; [reflexivity|]. exists lin, b.
        apply Hmk; try done; try (by left); try (by rewrite A1); try (by rewrite A1; intros ?? ?; split; intros [=]); try (by intros ?? ? ?%Hother').
        right. right. right. exists d. simpl. split; [done|]. split; [by destruct A2|]. rewrite B2. split; [done|]. split; [done|].
        intros V HV. destruct (A5 V HV) as [E1 E2]. simpl in E2. destruct (E2 _ _ Ef) as [E3 E4]. split; [congruence|done].
  Qed.

  Lemma inv_play sched c lin b : inv c lin b -> exists c', play body sched c = Ok c' /\ exists lin' b', inv c' lin' b'.
  Proof using Hok Hgu Hps Hfor.
    revert c lin b. induction sched as [|t sched IH]; intros c lin b HI; simpl; [by eauto 6|].
    destruct (inv_tick t c lin b HI) as (c' & -> & lin' & b' & HI'). simpl. eauto.
  Qed.

  (** ** Progress *)
  (** A thread is blocked when it waits for the lock and another thread holds it. *)
  Lemma play_app l1 l2 c : play body (l1 ++ l2) c = (c' <- play body l1 c;; play body l2 c').
  Proof. revert c. induction l1 as [|t l1 IH]; intros c; simpl; [done|]. destruct (tick body t c); simpl; [apply IH|done..]. Qed.
  Definition work (th : thread S O R) : nat := length (t_todo th) + match t_cur th with Some _ => 1 | None => 0 end.
  Definition total (c : conf) : nat := sum_list (map work (c_ths c)).
  Lemma total_put c t th th' s ow h : c_ths c !! t = Some th ->
    total (Conf s ow (put c t th') h) + work th = total c + work th'.
  Proof.
    unfold total, put. simpl. generalize (c_ths c). intros l Hl. revert t Hl. induction l as [|x l IH]; intros t Hl; [done|].
    destruct t as [|t]; simpl in *; [injection Hl as ->; lia|]. specialize (IH t Hl). lia.
  Qed.
  (** the holder of the lock finishes its call *)
  Lemma run_crit t p : forall c d th s' r, c_ths c !! t = Some th -> t_cur th = Some p -> c_owner c = Some (t, Datatypes.S d) ->
    crit (Datatypes.S d) p -> exec p (c_sh c) = Ok (s', r) ->
    exists sched, play body sched c = Ok (Conf s' None (put c t (Th (t_todo th) None (t_n th))) (c_hist c ++ [HRes t (t_n th - 1) r])).
  Proof.
    induction p as [r0|q IH|q IH|A f q IH]; intros c d th s' r Eth Ecur Eow Hcr Hex; simpl in Hcr; [done|..].
    - assert (t < length (c_ths c)) as Hlt by by eapply lookup_lt_Some.
      destruct Hcr as [_ Hcr].
      set (c1 := Conf (c_sh c) (Some (t, Datatypes.S (Datatypes.S d))) (put c t (Th (t_todo th) (Some q) (t_n th))) (c_hist c)).
      destruct (IH c1 (Datatypes.S d) (Th (t_todo th) (Some q) (t_n th)) s' r) as [sched Hs]; try done.
      { by rewrite /= /put list_lookup_insert. }
      exists (t :: sched). simpl. unfold tick. rewrite Eth Ecur Eow bool_decide_eq_true_2 //. fold c1. simpl.
      rewrite Hs. unfold put. simpl. unfold put. by rewrite list_insert_insert.
    - assert (t < length (c_ths c)) as Hlt by by eapply lookup_lt_Some.
      destruct d as [|d].
      + destruct q as [r0|q|q|A f q]; simpl in Hcr; try done; [|by destruct Hcr; lia|by destruct Hcr; lia].
        simpl in Hex. injection Hex as <- <-.
        exists [t; t]. simpl. unfold tick at 1. rewrite Eth Ecur Eow bool_decide_eq_true_2 //. simpl.
        unfold tick. simpl. rewrite /put list_lookup_insert //. simpl. unfold put. simpl. by rewrite list_insert_insert.
      + set (c1 := Conf (c_sh c) (Some (t, Datatypes.S d)) (put c t (Th (t_todo th) (Some q) (t_n th))) (c_hist c)).
        destruct (IH c1 d (Th (t_todo th) (Some q) (t_n th)) s' r) as [sched Hs]; try done.
        { by rewrite /= /put list_lookup_insert. }
        exists (t :: sched). simpl. unfold tick. rewrite Eth Ecur Eow bool_decide_eq_true_2 //.
        rewrite bool_decide_eq_false_2 //. replace (Datatypes.S (Datatypes.S d) - 1) with (Datatypes.S d) by lia. fold c1. simpl.
        rewrite Hs. unfold put. simpl. unfold put. by rewrite list_insert_insert.
    - assert (t < length (c_ths c)) as Hlt by by eapply lookup_lt_Some.
      destruct Hcr as [_ Hcr]. simpl in Hex. destruct (f (c_sh c)) as [[s1 a]| | |] eqn:Ef; simpl in Hex; try done.
      set (c1 := Conf s1 (Some (t, Datatypes.S d)) (put c t (Th (t_todo th) (Some (q a)) (t_n th))) (c_hist c)).
      destruct (IH a c1 d (Th (t_todo th) (Some (q a)) (t_n th)) s' r) as [sched Hs]; try done.
      { by rewrite /= /put list_lookup_insert. }
      exists (t :: sched). simpl. unfold tick. rewrite Eth Ecur Ef /= Eow. fold c1. simpl.
      rewrite Hs. unfold put. simpl. unfold put. by rewrite list_insert_insert.
  Qed.

  Lemma total_zero c : total c = 0 -> finished c.
  Proof.
    unfold total, finished. generalize (c_ths c). intros l. induction l as [|x l IH]; intros H t th Hl; [done|].
    simpl in H. destruct t as [|t]; simpl in Hl; [|apply (IH ltac:(lia) t th Hl)].
    injection Hl as ->. unfold work in H. destruct (t_cur th), (t_todo th); simpl in *; try lia. done.
  Qed.
  Lemma total_pos c : total c <> 0 -> exists t th, c_ths c !! t = Some th /\ work th <> 0.
  Proof.
    unfold total. generalize (c_ths c). intros l. induction l as [|x l IH]; intros H; [done|].
    simpl in H. destruct (decide (work x = 0)) as [E|E]; [|by exists 0, x].
    destruct IH as (t & th & Ht & Hw); [lia|]. by exists (Datatypes.S t), th.
  Qed.

  (** some thread gets a call done *)
  Lemma one_call c lin b : inv c lin b -> total c <> 0 ->
    exists sched c', play body sched c = Ok c' /\ total c' < total c.
  Proof using Hok Hgu Hps Hfor.
    intros HI Htot. pose proof HI as [H1 H2 H3 H4 H5 H6 H7 H8 H9 H10 H11 H12].
    destruct (c_owner c) as [[t d]|] eqn:Eow.
    - destruct (H11 t d eq_refl) as (th & p & Eth & Ecur). destruct (H12 t th Eth) as (l & Hl & _ & _ & Hc). rewrite Ecur in Hc.
      destruct Hc as (m & o & _ & Ho & _ & _ & Hst). assert (okop o) as Hoo by by eapply ok_op.
      destruct Hst as [(A1 & _)|[(A1 & _)|[(A1 & _)|(d' & A1 & A2 & A3 & A4 & _)]]]; [by destruct A1; exists d..|].
      destruct (Hok o b H1 Hoo) as (s' & r' & B1 & B2 & B3). rewrite B2 in A3.
      destruct (run_crit t p c d' th s' r' Eth Ecur A1 A2 A3) as [sched Hs].
      exists sched. eexists. split; [exact Hs|].
      pose proof (total_put c t th (Th (t_todo th) None (t_n th)) s' None (c_hist c ++ [HRes t (t_n th - 1) r']) Eth) as E.
      unfold work in E. rewrite Ecur in E. simpl in E. lia.
    - destruct (total_pos c Htot) as (t & th & Eth & Hw).
      assert (t < length (c_ths c)) as Hlt by by eapply lookup_lt_Some.
      (* [t] waits for the lock *)
      assert (forall c1 th1 p s' r, guarded p -> exec p b = Ok (s', r) -> c_ths c1 !! t = Some th1 -> t_cur th1 = Some p -> c_owner c1 = None -> c_sh c1 = b ->
        exists sched s' h, play body sched c1 = Ok (Conf s' None (put c1 t (Th (t_todo th1) None (t_n th1))) h)) as Hgo.
      { intros c1 th1 p s' r (q & -> & Hcr) B2 E1 E2 E3 E4. assert (t < length (c_ths c1)) as Hlt1 by by eapply lookup_lt_Some.
        simpl in B2.
        set (c2 := Conf (c_sh c1) (Some (t, 1)) (put c1 t (Th (t_todo th1) (Some q) (t_n th1))) (c_hist c1)).
        destruct (run_crit t q c2 0 (Th (t_todo th1) (Some q) (t_n th1)) s' r) as [sched Hs]; try done.
        { by rewrite /= /put list_lookup_insert. }
        { by rewrite /= E4. }
        exists (t :: sched), s'. eexists. simpl. unfold tick. rewrite E1 E2 E3. fold c2. simpl.
        rewrite Hs. unfold put. simpl. unfold put. by rewrite list_insert_insert. }
      (* [t] begins with call [o] *)
      assert (forall c1 th1 o, okop o -> c_ths c1 !! t = Some th1 -> t_cur th1 = Some (body o) -> c_owner c1 = None -> c_sh c1 = b ->
        exists sched s' h, play body sched c1 = Ok (Conf s' None (put c1 t (Th (t_todo th1) None (t_n th1))) h)) as Hgo2.
      { intros c1 th1 o Hoo E1 E2 E3 E4. assert (t < length (c_ths c1)) as Hlt1 by by eapply lookup_lt_Some.
        destruct (Hok o b H1 Hoo) as (s' & r' & B1 & B2 & B3). pose proof (Hgu o Hoo) as Hg.
        destruct (look o) as [V|]; [|by eapply Hgo]. destruct Hg as (q & Hq & Hg). unfold peeks in Hq. rewrite Hq in B2, E2. simpl in B2.
        set (c2 := Conf b None (put c1 t (Th (t_todo th1) (Some (q (V b))) (t_n th1))) (c_hist c1)).
        assert (tick body t c1 = Ok c2) as Ht by (unfold tick; rewrite E1 E2 /= E3 E4; done).
        destruct (Hg (V b)) as [[r Hr]|Hg'].
        - exists [t; t], b. eexists. simpl. rewrite Ht. simpl. unfold tick. simpl. rewrite /put list_lookup_insert //. simpl. rewrite Hr. simpl.
          unfold put. simpl. unfold put. rewrite list_insert_insert. done.
        - destruct (Hgo c2 (Th (t_todo th1) (Some (q (V b))) (t_n th1)) (q (V b)) s' r' Hg' B2) as (sched & s2 & h & Hs); try done.
          { by rewrite /= /put list_lookup_insert. }
          exists (t :: sched), s2, h. simpl. rewrite Ht. simpl. rewrite Hs. unfold put. simpl. unfold put. by rewrite list_insert_insert. }
      destruct (H12 t th Eth) as (l & Hl & Htodo & _ & Hc). destruct (t_cur th) as [p|] eqn:Ecur.
      + assert (forall s' h, total (Conf s' None (put c t (Th (t_todo th) None (t_n th))) h) < total c) as Hless.
        { intros s' h. pose proof (total_put c t th (Th (t_todo th) None (t_n th)) s' None h Eth) as E.
          unfold work in E. rewrite Ecur in E. simpl in E. lia. }
        destruct Hc as (m & o & _ & Ho & _ & _ & Hst). assert (okop o) as Hoo by by eapply ok_op.
        destruct Hst as [(A1 & A2 & -> & _)|[(A1 & A2 & _)|[(A1 & r & A2 & _)|(d' & A1 & _)]]].
        * destruct (Hgo2 c th o Hoo Eth Ecur Eow (H3 eq_refl)) as (sched & s' & h & Hs). eauto.
        * destruct (Hok o b H1 Hoo) as (s1 & r1 & B1 & B2 & B3). rewrite -(ready_exec o b p A2) in B2. destruct A2 as [Hg _].
          destruct (Hgo c th p s1 r1 Hg B2 Eth Ecur Eow (H3 eq_refl)) as (sched & s' & h & Hs). eauto.
        * exists [t]. eexists. split; [simpl; unfold tick; rewrite Eth Ecur A2 Eow; reflexivity|]. apply Hless.
        * rewrite Eow in A1. done.
      + destruct (t_todo th) as [|o l'] eqn:Et; [by unfold work in Hw; rewrite Ecur Et in Hw|].
        assert (okop o) as Hoo.
        { assert (drop (t_n th) l !! 0 = Some o) as E by by rewrite -Htodo. rewrite lookup_drop Nat.add_0_r in E. by eapply ok_op. }
        set (c1 := Conf (c_sh c) (c_owner c) (put c t (Th l' (Some (body o)) (1 + t_n th))) (c_hist c ++ [HInv t (t_n th) o])).
        destruct (Hgo2 c1 (Th l' (Some (body o)) (1 + t_n th)) o Hoo) as (sched & s' & h & Hs); try done.
        { by rewrite /= /put list_lookup_insert. }
        { by rewrite /= H3. }
        exists (t :: sched). eexists. split.
        { simpl. unfold tick. rewrite Eth Ecur Et. fold c1. simpl. exact Hs. }
        unfold put. simpl. unfold put. rewrite list_insert_insert.
        match goal with |- total (Conf ?s ?ow _ ?h) < _ => pose proof (total_put c t th (Th l' None (Datatypes.S (t_n th))) s ow h Eth) as E end.
        unfold work in E. rewrite Ecur Et in E. simpl in E. unfold put in E. lia.
  Qed.
  Lemma finishes c lin b : inv c lin b -> exists sched c', play body sched c = Ok c' /\ finished c'.
  Proof using Hok Hgu Hps Hfor.
    remember (total c) as n eqn:E. revert c lin b E. induction n as [n IH] using lt_wf_ind. intros c lin b -> HI.
    destruct (decide (total c = 0)) as [Ez|Ez]; [exists [], c; split; [done|]; by apply total_zero|].
    destruct (one_call c lin b HI Ez) as (l1 & c1 & Hp & Hlt).
    destruct (inv_play l1 c lin b HI) as (c1' & Hp' & lin1 & b1 & HI1). rewrite Hp in Hp'. injection Hp' as <-.
    destruct (IH (total c1) Hlt c1 lin1 b1 eq_refl HI1) as (l2 & c2 & Hp2 & Hf).
    exists (l1 ++ l2), c2. split; [|done]. by rewrite play_app Hp.
  Qed.

  Theorem linearizable sched : exists c, play body sched (start s0 ps) = Ok c /\
    (exists lin s, looks_like run1 s0 ps c lin s) /\
    (exists sched' c', play body sched' c = Ok c' /\ finished c').
  Proof using Hok Hgu Hps Hs0 Hfor.
    destruct (inv_play sched _ _ _ inv_start) as (c & Hp & lin & b & HI). exists c. split; [done|].
    split; [exists lin, b; by apply inv_like|by eapply finishes].
  Qed.
End linear.
