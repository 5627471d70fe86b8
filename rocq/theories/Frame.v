(** Callbacks that an operation does not touch stay as they are (lemmas for the concurrency files). *)
From Verif Require Import Base Mapped Cache CompSim CacheSim Histories Concurrency.

Section frame.
  Context {C : comp} (k : cfg).
  Notation st := (@st C).
  Definition kept (s : st) := (m_cbs (me s), m_ncb (me s), m_up (me s)).

  Definition chn (s s' : st) : Prop := kept s' = kept s.

  Local Ltac ok1 := match goal with
    | H : Ok _ = Ok _ |- _ => injection H; clear H; intros; subst
    | H : ?x = Ok _ |- _ =>
      match x with
      | rbind ?m ?f => let E := fresh "E" in let r := fresh "r" in destruct m as [r| | |] eqn:E;
          [change (f r = _) in H || change (rbind (Ok r) f) with (f r) in H; cbv beta in H|discriminate H..]
      | (match ?y with _ => _ end) => let E := fresh "E" in destruct y eqn:E; try discriminate H
      | (let '(_, _) := ?y in _) => let E := fresh "E" in destruct y eqn:E
      | UB => discriminate H | Term => discriminate H | Fuel => discriminate H
      end
    | H : Some _ = Some _ |- _ => injection H; clear H; intros; subst
    | H : (_, _) = (_, _) |- _ => injection H; clear H; intros; subst
    end.
  Local Ltac oks := repeat ok1.
  Local Ltac kp := repeat match goal with
    | H : ?m = Ok ?r |- _ =>
      let s' := match type of r with
                | st => r
                | (st * _)%type => match r with (?s, _) => s end
                | option st => match r with Some ?s => s end
                end in
      lazymatch goal with H' : chn _ s' |- _ => fail | _ => idtac end;
      let K := fresh "K" in eassert (chn _ s') as K by eauto 3 with kept
    end; unfold chn, kept in *; simpl in *; try congruence.
  Local Ltac kt f := intros; unfold f in *; oks; kp.

  Lemma s_upd_k s e f s' : s_upd s e f = Ok s' -> chn s s'.
  Proof. intros H. unfold s_upd, upd_el in H. oks. unfold chn, kept. simpl. unfold wr_el. done. Qed.
  Hint Resolve s_upd_k : kept.
  Lemma mark_expired_k s e s' : mark_expired k s e = Ok s' -> chn s s'.
  Proof. apply s_upd_k. Qed.
  Lemma weaken_k s e s' : weaken k s e = Ok s' -> chn s s'.
  Proof. apply s_upd_k. Qed.
  Lemma strengthen_k s e s' : strengthen k s e = Ok s' -> chn s s'.
  Proof. apply s_upd_k. Qed.
  Lemma inc_ref_k s e s' : inc_ref s e = Ok s' -> chn s s'.
  Proof. apply s_upd_k. Qed.
  Hint Resolve mark_expired_k weaken_k strengthen_k inc_ref_k : kept.
  Lemma destroy_k s e el s' : destroy s e el = Ok s' -> chn s s'.
  Proof. kt @destroy. Qed.
  Hint Resolve destroy_k : kept.
  Lemma drop_ref_k s e s' : drop_ref s e = Ok s' -> chn s s'.
  Proof. kt @drop_ref. Qed.
  Hint Resolve drop_ref_k : kept.
  Lemma drop_pcb_k s p s' : drop_pcb s p = Ok s' -> chn s s'.
  Proof. kt @drop_pcb. Qed.
  Hint Resolve drop_pcb_k : kept.
  Lemma drop_pcbs_k ps : forall s s', drop_pcbs s ps = Ok s' -> chn s s'.
  Proof. induction ps as [|p ps IH]; simpl; intros; oks; kp. Qed.
  Lemma free_pcbs_k ps : forall s s', free_pcbs s ps = Ok s' -> chn s s'.
  Proof. induction ps as [|p ps IH]; simpl; intros; oks; kp. Qed.
  Hint Resolve drop_pcbs_k free_pcbs_k : kept.
  Lemma el_cancel_k s e s' : el_cancel s e = Ok s' -> chn s s'.
  Proof. kt @el_cancel. Qed.
  Hint Resolve el_cancel_k : kept.
  Lemma on_create_k s e s' : on_create_ k s e = Ok s' -> chn s s'.
  Proof. kt @on_create_. Qed.
  Lemma on_hit_k s e s' : on_hit_ k s e = Ok s' -> chn s s'.
  Proof. kt @on_hit_. Qed.
  Lemma on_unlink_k s e s' : on_unlink_ k s e = Ok s' -> chn s s'.
  Proof. kt @on_unlink_. Qed.
  Lemma on_assign_age_k s e d s' : on_assign_age k s e d = Ok s' -> chn s s'.
  Proof. apply s_upd_k. Qed.
  Lemma on_assign_refresh_k s e d i s' : on_assign_refresh s e d i = Ok s' -> chn s s'.
  Proof. kt @on_assign_refresh. Qed.
  Hint Resolve on_create_k on_hit_k on_unlink_k on_assign_age_k on_assign_refresh_k : kept.
  Lemma on_assign_k s e b s' : on_assign_ k s e b = Ok s' -> chn s s'.
  Proof. kt @on_assign_. Qed.
  Hint Resolve on_assign_k : kept.
  Lemma dispose_k s e s' : dispose k s e = Ok s' -> chn s s'.
  Proof. kt @dispose. Qed.
  Hint Resolve dispose_k : kept.
  Lemma sweep_k fuel visit : (forall s e s' a, visit s e = Ok (s', a) -> chn s s') ->
    forall s bi be s' r, sweep k fuel visit s bi be = Ok (s', r) -> chn s s'.
  Proof. intros Hv. induction fuel as [|f IH]; simpl; intros; oks; kp. Qed.
  Lemma sweep_bucket_k visit : (forall s e s' a, visit s e = Ok (s', a) -> chn s s') ->
    forall s h s' r, sweep_bucket k visit s h = Ok (s', r) -> chn s s'.
  Proof. intros Hv s h s' r H. unfold sweep_bucket in H. oks. by apply sweep_k in H. Qed.
  Lemma sweep_all_k visit : (forall s e s' a, visit s e = Ok (s', a) -> chn s s') ->
    forall s s', sweep_all k visit s = Ok s' -> chn s s'.
  Proof. intros Hv s s' H. unfold sweep_all in H. oks. by eapply sweep_k. Qed.
  Lemma unlink_expired_k s s' : unlink_expired k s = Ok s' -> chn s s'.
  Proof. apply sweep_all_k. kt @unlink_expired_visit. Qed.
  Lemma get__k s key b s' r : get_ k s key b = Ok (s', r) -> chn s s'.
  Proof.
    intros H. unfold get_ in H. oks.
    all: match goal with E : sweep_bucket _ _ _ _ = _ |- _ => apply sweep_bucket_k in E; [|kt @get_visit] end; kp.
  Qed.
  Lemma expire_k s key s' : expire k s key = Ok s' -> chn s s'.
  Proof.
    intros H. unfold expire in H. oks.
    match goal with E : sweep_bucket _ _ _ _ = _ |- _ => apply sweep_bucket_k in E; [done|kt @expire_visit] end.
  Qed.
  Lemma expire_all_k s s' : expire_all k s = Ok s' -> chn s s'.
  Proof. apply sweep_all_k. kt @expire_all_visit. Qed.
  Hint Resolve unlink_expired_k get__k expire_k expire_all_k : kept.
  Lemma maybe_rehash_k s s' : maybe_rehash k s = Ok s' -> chn s s'.
  Proof. kt @maybe_rehash. Qed.
  Hint Resolve maybe_rehash_k : kept.
  Lemma link_k s h e s' : link k s h e = Ok s' -> chn s s'.
  Proof. kt @link. Qed.
  Lemma reserve_k s n s' : reserve k s n = Ok s' -> chn s s'.
  Proof. kt @reserve. Qed.
  Lemma allocate_k s key m s' e : allocate s key m = Ok (s', e) -> chn s s'.
  Proof. kt @allocate. Qed.
  Lemma expire_victims_k l : forall s s', expire_victims k s l = Ok s' -> chn s s'.
  Proof. induction l as [|p ps IH]; simpl; intros; oks; kp; destruct (m_live _); simpl in *; congruence. Qed.
  Hint Resolve link_k reserve_k allocate_k expire_victims_k : kept.
  Lemma maintenance_k s s' : maintenance_ k s = Ok s' -> chn s s'.
  Proof. kt @maintenance_. Qed.
  Hint Resolve maintenance_k : kept.
  Lemma emplace_k s key v s' : emplace k s key v = Ok s' -> chn s s'.
  Proof. kt @emplace. Qed.
  Lemma get_or_emplace_k s key v s' r : get_or_emplace k s key v = Ok (s', r) -> chn s s'.
  Proof. kt @get_or_emplace. Qed.
  Lemma refresh_event_k s a b s' : refresh_event k s a b = Ok s' -> chn s s'.
  Proof. kt @refresh_event. Qed.
  Lemma give_k s v : chn s (give k s v).
  Proof. unfold chn, give. by case_match. Qed.
  Hint Resolve emplace_k get_or_emplace_k refresh_event_k : kept.

  (** ** Programs of the user *)
  Definition wfc (s : st) : Prop := forall j, (m_ncb (me s) <= j)%N -> m_cbs (me s) !! j = None.
  Context (i : N).
  Definition fr (s s' : st) : Prop := wfc s -> wfc s' /\ called s' i = called s i /\ m_up (me s') = m_up (me s) /\ (m_ncb (me s) <= m_ncb (me s'))%N.
  Definition ufr (u : st -> res st) : Prop := forall s s', u s = Ok s' -> fr s s'.
  Lemma fr_refl s : fr s s.
  Proof. done. Qed.
  Lemma fr_trans s1 s2 s3 : fr s1 s2 -> fr s2 s3 -> fr s1 s3.
  Proof. intros H1 H2 W. destruct (H1 W) as (W2 & ? & ? & ?). destruct (H2 W2) as (W3 & ? & ? & ?). split; [done|]. split; [congruence|]. split; [congruence|lia]. Qed.
  Lemma chn_fr s s' : chn s s' -> fr s s'.
  Proof. unfold chn, kept. intros H W. injection H as H1 H2 H3. unfold wfc, called in *. rewrite H1, H2, H3. done. Qed.
  Lemma chn_fr_r s1 s2 s3 : fr s1 s2 -> chn s2 s3 -> fr s1 s3.
  Proof. intros H1 H2. eapply fr_trans; [exact H1|by apply chn_fr]. Qed.
  Lemma chn_fr_l s1 s2 s3 : chn s1 s2 -> fr s2 s3 -> fr s1 s3.
  Proof. intros H1 H2. eapply fr_trans; [by apply chn_fr|exact H2]. Qed.
  Lemma chn_trans (s1 s2 s3 : st) : chn s1 s2 -> chn s2 s3 -> chn s1 s3.
  Proof. unfold chn. congruence. Qed.
  Lemma chn_refl (s : st) : chn s s.
  Proof. done. Qed.

  Local Ltac fold_chn := repeat match goal with
    | H : ?m = Ok ?r |- _ =>
      let s' := match type of r with
                | st => r
                | (st * _)%type => match r with (?s, _) => s end
                | option st => match r with Some ?s => s end
                end in
      lazymatch goal with H' : chn _ s' |- _ => fail | H' : fr _ s' |- _ => fail | _ => idtac end;
      let K := fresh "K" in
      first [eassert (chn _ s') as K by eauto 3 with kept | eassert (fr _ s') as K by eauto 4 with fram]
    end.
  (** goal [fr s s']: walk back from [s'] *)
  Local Ltac walk := repeat match goal with
    | |- fr ?s ?s => apply fr_refl
    | H : chn ?b ?s' |- fr _ ?s' => refine (chn_fr_r _ b _ _ H); clear H
    | H : fr ?b ?s' |- fr _ ?s' => refine (fr_trans _ b _ _ H); clear H
    | |- fr _ (s_log ?b _) => refine (chn_fr_r _ b _ _ eq_refl)
    | |- fr _ (with_cs ?b _) => refine (chn_fr_r _ b _ _ eq_refl)
    | |- fr _ (give k ?b ?v) => refine (chn_fr_r _ b _ _ (give_k b v))
    end.
  Local Ltac ft := oks; fold_chn; walk.

  Lemma deliver_f cbq : forall s e v us s', Forall ufr us -> deliver k s e v cbq us = Ok s' -> fr s s'.
  Proof.
    induction cbq as [|[w|a b] cbq IH]; simpl; intros s e v us s' Hu H; [by ft|oks..].
    - apply IH in H; [|done]. walk.
    - inversion_clear Hu as [|? ? Hu1 Hu2]. apply IH in H; [|done]. match goal with E : _ = Ok ?r |- fr _ _ => apply Hu1 in E end. walk.
    - apply IH in H; [|done]. fold_chn. walk.
  Qed.
  Lemma deliver_error_f cbq : forall s e x all us s', Forall ufr us -> deliver_error k s e x all cbq us = Ok s' -> fr s s'.
  Proof.
    induction cbq as [|[w|a b] cbq IH]; simpl; intros s e x all us s' Hu H; [by ft|oks..].
    - apply IH in H; [|done]. walk.
    - inversion_clear Hu as [|? ? Hu1 Hu2]. apply IH in H; [|done]. match goal with E : _ = Ok ?r |- fr _ _ => apply Hu1 in E end. walk.
    - apply IH in H; [|done]. fold_chn. walk.
  Qed.
  Lemma el_assign_f s e v us s' : Forall ufr us -> el_assign k s e v us = Ok (Some s') -> fr s s'.
  Proof.
    intros Hu H. unfold el_assign in H. oks. match goal with E : deliver _ _ _ _ _ _ = _ |- _ => apply deliver_f in E; [|done] end.
    fold_chn. walk.
  Qed.
  Lemma el_fail_f s e x us s' : Forall ufr us -> el_fail k s e x us = Ok s' -> fr s s'.
  Proof.
    intros Hu H. unfold el_fail in H. oks. match goal with E : deliver_error _ _ _ _ _ _ _ = _ |- _ => apply deliver_error_f in E; [|done] end.
    fold_chn. walk.
  Qed.
  Hint Resolve el_assign_f el_fail_f Forall_nil_2 : fram.
  Lemma resolve_sync_f s h key u out s' e : ufr u -> resolve_sync k s h key u out = Ok (s', e) -> fr s s'.
  Proof. intros Hu H. unfold resolve_sync in H. oks; match goal with E : u _ = _ |- _ => apply Hu in E end; fold_chn; walk. Qed.

  (** ** Callbacks *)
  Lemma fr_insert s j c : (j < m_ncb (me s))%N -> (j = i -> cb_called c = called s i) -> fr s (with_me s (set_cbs (me s) (<[j := c]> (m_cbs (me s))))).
  Proof.
    intros Hj Hc W. unfold wfc, called in *. simpl. split.
    - intros x Hx. rewrite lookup_insert_ne; [by apply W|lia].
    - split; [|done]. destruct (decide (j = i)) as [->|Hn]; [rewrite lookup_insert; by apply Hc|by rewrite lookup_insert_ne].
  Qed.
  Lemma fr_delete s j : (j = i -> called s i = false) -> fr s (with_me s (set_cbs (me s) (delete j (m_cbs (me s))))).
  Proof.
    intros Hc W. unfold wfc, called in *. simpl. split.
    - intros x Hx. apply lookup_delete_None. right. by apply W.
    - split; [|done]. destruct (decide (j = i)) as [->|Hn]; [by rewrite lookup_delete, Hc|by rewrite lookup_delete_ne].
  Qed.
  Lemma wfc_lt s j c : wfc s -> m_cbs (me s) !! j = Some c -> (j < m_ncb (me s))%N.
  Proof. intros W H. destruct (decide (j < m_ncb (me s))%N); [done|]. rewrite W in H; [done|lia]. Qed.
  Lemma chn_el s s' j : chn s s' -> m_cbs (me s') !! j = m_cbs (me s) !! j.
  Proof. unfold chn, kept. congruence. Qed.
  Lemma chn_n s s' : chn s s' -> m_ncb (me s') = m_ncb (me s).
  Proof. unfold chn, kept. congruence. Qed.
  Lemma chn_called s s' : chn s s' -> called s' i = called s i.
  Proof. intros H. unfold called. by rewrite (chn_el _ _ _ H). Qed.
  Lemma fr_w s s' : (wfc s -> fr s s') -> fr s s'.
  Proof. unfold fr. naive_solver. Qed.
  Hint Resolve resolve_sync_f : fram.

  Lemma cb_cancel_f s j c s' b : m_cbs (me s) !! j = Some c -> j <> i -> cb_cancel s j c = Ok (s', b) -> fr s s'.
  Proof.
    intros Hc Hn H. unfold cb_cancel in H. oks; [apply fr_refl|]. fold_chn. apply fr_w. intros W. eapply fr_trans; [by apply chn_fr|].
    apply fr_insert; [|done]. erewrite chn_n by done. by eapply wfc_lt.
  Qed.
  Lemma cb_holders_f s j o p s' : (j <> i \/ called s i = false) -> cb_holders s j o p = Ok s' -> fr s s'.
  Proof.
    intros Hn H. unfold cb_holders in H. destruct (m_cbs (me s) !! j) as [c|] eqn:Ec; [|done]. simpl in H. oks.
    - apply fr_w. intros W. apply fr_insert; [by eapply wfc_lt|]. intros ->. unfold called. by rewrite Ec.
    - fold_chn. apply fr_w. intros W. refine (chn_fr_r _ _ _ _ K). unfold cb_cancel in E0. oks.
      + apply fr_delete. intros ->. by destruct Hn.
      + match goal with E : el_cancel _ _ = Ok ?r |- _ => assert (chn s r) as K1 by eauto with kept end. eapply fr_trans; [by apply chn_fr|].
        intros W1. unfold wfc, called in *. simpl. split.
        * intros x Hx. apply lookup_delete_None. right. rewrite lookup_insert_ne; [by apply W1|]. intros <-. rewrite (chn_n _ _ K1) in Hx. apply (wfc_lt s) in Ec; [lia|done].
        * split; [|done]. destruct (decide (j = i)) as [->|Hne].
          -- rewrite lookup_delete. destruct Hn as [?|Hn]; [done|]. rewrite (chn_el _ _ i K1). by rewrite Ec in Hn |- *.
          -- by rewrite lookup_delete_ne, lookup_insert_ne.
  Qed.
  Lemma resolve_async_f s h key u kp th s' o : ufr u -> resolve_async k s h key u kp th = Ok (s', o) -> fr s s'.
  Proof.
    intros Hu H. apply fr_w. intros W. unfold resolve_async in H.
    destruct (allocate s key (MPend pend_init)) as [[s1 e]| | |] eqn:E1; try done. simpl in H. apply allocate_k in E1.
    destruct (inc_ref s1 e) as [s2| | |] eqn:E2; try done. simpl in H. apply inc_ref_k in E2.
    set (s3 := with_me s2 _) in H. set (j := m_ncb (me s1)) in *.
    assert (chn s s2) as K by (unfold chn in *; congruence).
    assert (j = m_ncb (me s2)) as Ej by (unfold j; apply chn_n in E2; congruence).
    assert (m_cbs (me s2) !! j = None) as Hj.
    { rewrite (chn_el _ _ _ K). apply W. rewrite Ej, (chn_n _ _ K). lia. }
    assert (fr s s3 /\ called s3 j = false) as [F3 C3].
    { split; [|unfold called; simpl; by rewrite lookup_insert]. eapply fr_trans; [by apply chn_fr|]. intros W2. unfold wfc, called in *. simpl. split.
      - intros x Hx. rewrite lookup_insert_ne; [apply W2; lia|lia].
      - split; [|split; [done|lia]]. destruct (decide (j = i)) as [<-|Hne]; [by rewrite lookup_insert, Hj|by rewrite lookup_insert_ne]. }
    destruct (inc_ref s3 e) as [s4| | |] eqn:E4; try done. simpl in H. apply inc_ref_k in E4.
    destruct (link k s4 h e) as [s5| | |] eqn:E5; try done. simpl in H. apply link_k in E5.
    destruct (u (s_log s5 (EvResolve key))) as [s6| | |] eqn:E6; try done. simpl in H. apply Hu in E6.
    destruct (m_cbs (me s6) !! j) as [c|] eqn:E7; try done. simpl in H.
    destruct (cb_holders s6 j false (cb_kept c && kp)) as [s7| | |] eqn:E8; try done. simpl in H.
    assert (chn s3 (s_log s5 (EvResolve key))) as K5 by (unfold chn in *; change (kept (s_log s5 (EvResolve key))) with (kept s5); congruence).
    assert (fr s s7) as F7.
    { eapply fr_trans; [exact F3|]. eapply fr_trans; [apply chn_fr, K5|]. eapply fr_trans; [exact E6|].
      eapply cb_holders_f; [|exact E8]. destruct (decide (j = i)) as [Ei|]; [right|by left].
      destruct (F3 W) as (W3 & _). destruct (chn_fr _ _ K5 W3) as (W5 & C5 & _). destruct (E6 W5) as (_ & C6 & _). congruence. }
    destruct th; [|by injection H as <- <-]. destruct (drop_ref s7 e) as [s8| | |] eqn:E9; try done. injection H as <- <-.
    apply drop_ref_k in E9. by eapply chn_fr_r.
  Qed.
  Hint Resolve resolve_async_f : fram.
  Lemma get_f s key u out s' r : ufr u -> get k s key u out = Ok (s', r) -> fr s s'.
  Proof. intros Hu H. unfold get, ret_value in H. oks; fold_chn; walk. Qed.
  Lemma async_finish_f s w e r u s' : ufr u -> async_finish k s w e r u = Ok s' -> fr s s'.
  Proof. intros Hu H. unfold async_finish in H. oks; try (apply Hu in H); fold_chn; walk. Qed.
  Hint Resolve async_finish_f : fram.
  Lemma async_get_f s w key u kp th uc s' r : ufr u -> ufr uc -> async_get k s w key u kp th uc = Ok (s', r) -> fr s s'.
  Proof. intros Hu Huc H. unfold async_get in H. oks; fold_chn; walk. Qed.
  Lemma refresh_f s e u out kp th s' : ufr u -> refresh k s e u out kp th = Ok s' -> fr s s'.
  Proof. intros Hu H. unfold refresh in H. oks; fold_chn; walk. Qed.
  Hint Resolve refresh_f : fram.
  Lemma worker_f items : forall s now s', Forall (fun x => ufr x.1.1) items -> worker k s now items = Ok s' -> fr s s'.
  Proof.
    induction items as [|[[u out] [kp th]] items IH]; simpl; intros s now s' Hu H; [oks; apply fr_refl|].
    inversion_clear Hu as [|? ? Hu1 Hu2]. simpl in Hu1. oks; try apply fr_refl. apply IH in H; [|done]. fold_chn. walk.
  Qed.
  Lemma done_f s s1 j c : fr s s1 -> j <> i -> m_cbs (me s1) !! j = Some c -> fr s (with_me s1 (set_cbs (me s1) (<[j := Cbk (cb_el c) true (cb_own c) (cb_kept c)]> (m_cbs (me s1))))).
  Proof.
    intros F Hn Hc. apply fr_w. intros W. eapply fr_trans; [exact F|]. apply fr_insert; [|done]. destruct (F W) as (W1 & _). by eapply wfc_lt.
  Qed.
  Lemma cb_assign_f s j v us s' r : j <> i -> Forall ufr us -> cb_assign k s j v us = Ok (s', r) -> fr s s'.
  Proof.
    intros Hn Hu H. unfold cb_assign in H. destruct (m_cbs (me s) !! j) as [c|] eqn:Ec; [|oks; apply fr_refl].
    oks; try apply fr_refl.
    - match goal with E : el_assign _ _ _ _ _ = _ |- _ => apply el_assign_f in E; [|done] end.
      fold_chn. apply done_f; [|done|]; [by eapply chn_fr_r|].
      match goal with E : deref ?x = Ok ?c |- ?x = Some ?c => destruct x; [by injection E as ->|done] end.
    - by eapply cb_cancel_f.
  Qed.
  Lemma cb_fail_f s j x us s' r : j <> i -> Forall ufr us -> cb_fail k s j x us = Ok (s', r) -> fr s s'.
  Proof.
    intros Hn Hu H. unfold cb_fail in H. destruct (m_cbs (me s) !! j) as [c|] eqn:Ec; [|oks; apply fr_refl].
    oks; try apply fr_refl.
    - match goal with E : el_fail _ _ _ _ _ = _ |- _ => apply el_fail_f in E; [|done] end.
      fold_chn. apply done_f; [|done|]; [by eapply chn_fr_r|].
      match goal with E : deref ?x = Ok ?c |- ?x = Some ?c => destruct x; [by injection E as ->|done] end.
    - by eapply cb_cancel_f.
  Qed.
  Lemma quiet_f us : forallb quiet_op us = true -> ufr (run_nested k us).
  Proof.
    induction us as [|o us IH]; simpl; intros Hq s s' H; [injection H as ->; apply fr_refl|].
    apply andb_true_iff in Hq as [Hq1 Hq2]. destruct (step k true o s) as [[s1 r]| | |] eqn:E; try done. simpl in H.
    eapply fr_trans; [|exact (IH Hq2 _ _ H)]. rewrite step_eq in E. unfold step_with in E.
    destruct o; try done; unfold ret_value in E; oks; repeat (case_match; simplify_eq); walk; try (by apply chn_fr).
  Qed.
  Lemma nested_f l : Forall (fun o => fine_op true o = true -> touches i o = false -> forall s s' r, step k true o s = Ok (s', r) -> fr s s') l ->
    forallb (fine_op true) l = true -> existsb (touches i) l = false -> ufr (run_nested k l).
  Proof.
    induction 1 as [|o l Ho _ IH]; simpl; intros Hf Ht s s' H; [injection H as ->; apply fr_refl|].
    apply andb_true_iff in Hf as [Hf1 Hf2]. apply orb_false_iff in Ht as [Ht1 Ht2].
    destruct (step k true o s) as [[s1 r]| | |] eqn:E; try done. simpl in H.
    eapply fr_trans; [|exact (IH Hf2 Ht2 _ _ H)]. by eapply Ho.
  Qed.
  Lemma step_f o : forall nested, fine_op nested o = true -> touches i o = false -> o <> ODestroy \/ nested = true ->
    forall s s' r, step k nested o s = Ok (s', r) -> fr s s'.
  Proof.
    induction o as [o IH] using op_ind'. intros nested Hf Ht Hd s s' r H. rewrite step_eq in H. unfold step_with in H.
    assert (forall l, Forall (fun o => forall nested, fine_op nested o = true -> touches i o = false -> o <> ODestroy \/ nested = true ->
      forall s s' r, step k nested o s = Ok (s', r) -> fr s s') l -> forallb (fine_op true) l = true -> existsb (touches i) l = false -> ufr (run_nested k l)) as Hn.
    { intros l Hl Hf' Ht'. apply nested_f; [|done|done]. eapply Forall_impl; [exact Hl|]. simpl. intros o' Ho Hfo Hto. apply Ho; auto. }
    match type of H with (if ?b then _ else _) = _ => destruct b end; [injection H as <- <-; apply fr_refl|].
    destruct o; simpl in Hf, Ht.
    - unfold ret_value in H. oks; repeat (case_match; simplify_eq); walk.
    - oks. apply fr_refl.
    - apply andb_true_iff in Hf as [Hf _]. case_match; [by eapply get_f; [|exact H]; auto..|oks; apply fr_refl].
    - apply andb_true_iff in Hf as [Hf1 Hf2]. apply orb_false_iff in Ht as [Ht1 Ht2]. destruct IH as [IH1 IH2].
      case_match; [oks; apply fr_refl..|]. eapply async_get_f; [| |exact H]; auto.
    - oks; fold_chn; walk.
    - unfold emplace_throw in H. oks; fold_chn; walk.
    - unfold ret_value in H. oks; fold_chn; repeat (case_match; simplify_eq); walk.
    - oks; fold_chn; walk.
    - oks; fold_chn; walk.
    - oks; fold_chn; walk.
    - apply bool_decide_eq_false in Ht. eapply cb_assign_f; [exact Ht| |exact H]. apply Forall_forall. intros u Hu. apply elem_of_list_In, in_map_iff in Hu as (y & <- & Hx).
      apply quiet_f. eapply forallb_forall in Hf; [exact Hf|exact Hx].
    - done.
    - apply bool_decide_eq_false in Ht. eapply cb_fail_f; [exact Ht| |exact H]. apply Forall_forall. intros u Hu. apply elem_of_list_In, in_map_iff in Hu as (y & <- & Hx).
      apply quiet_f. eapply forallb_forall in Hf; [exact Hf|exact Hx].
    - apply bool_decide_eq_false in Ht. destruct (m_cbs (me s) !! cb) as [c|] eqn:Ec; [|oks; apply fr_refl]. oks. by eapply cb_cancel_f.
    - apply bool_decide_eq_false in Ht. destruct (m_cbs (me s) !! cb) as [c|] eqn:Ec; [|oks; apply fr_refl]. oks. eapply cb_holders_f; [|done]. by left.
    - oks. by apply chn_fr.
    - oks. by apply chn_fr.
    - destruct nested; [done|]. simpl in Hf. destruct (k_refresh k); [|oks; apply fr_refl]. oks. eapply worker_f; [|done].
      apply Forall_forall. intros u Hu. apply elem_of_list_In, in_map_iff in Hu as (x & <- & Hx). simpl.
      pose proof (proj1 (forallb_forall _ _) Hf x Hx) as Hf'. simpl in Hf'. rewrite !andb_true_iff in Hf'. destruct Hf' as ((Hf' & _) & _).
      apply Hn; [|done|].
      + eapply Forall_forall in IH; [exact IH|]. by apply elem_of_list_In.
      + destruct (existsb (touches i) x.1.1) eqn:Ex; [|done]. exfalso. rewrite <-not_true_iff_false in Ht. apply Ht. apply existsb_exists. by exists x.
    - destruct nested; [done|]. by destruct Hd.
  Qed.
End frame.
