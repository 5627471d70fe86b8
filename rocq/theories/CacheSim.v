(** A simulation between containers lifts to the whole cache. *)
From Verif Require Import Base BasicHashtable Mapped Cache CompSim Asio.

(** Induction over operations with the hypothesis for nested programs. *)
Section op_ind.
  Context (P : op -> Prop).
  Context (Hbase : forall o,
    match o with
    | OGet _ s _ => Forall P s
    | OAGet _ _ s _ _ i => Forall P s /\ Forall P i
    | OAssign _ _ l | OFail _ _ l => Forall (Forall P) l
    | OTick l => Forall (fun i => Forall P i.1.1) l
    | _ => True
    end -> P o).
  Fixpoint op_ind' (o : op) : P o.
  Proof.
    apply Hbase.
    pose (fl := fix fl (l : list op) : Forall P l :=
      match l with [] => Forall_nil_2 _ | o :: r => Forall_cons_2 _ _ _ (op_ind' o) (fl r) end).
    pose (fll := fix fll (l : list (list op)) : Forall (Forall P) l :=
      match l with [] => Forall_nil_2 _ | o :: r => Forall_cons_2 _ _ _ (fl o) (fll r) end).
    pose (fli := fix fli (l : list (list op * outcome * (bool * bool))) : Forall (fun i => Forall P i.1.1) l :=
      match l with
      | [] => Forall_nil_2 _
      | i :: r => Forall_cons_2 (fun i => Forall P i.1.1) i r
                    (match i as i return Forall P i.1.1 with (x, y, z) => fl x end) (fli r)
      end).
    destruct o; try exact I.
    - apply fl.
    - split; apply fl.
    - apply fll.
    - apply fll.
    - apply fli.
  Defined.
End op_ind.

Local Set Warnings "-fragile-hint-constr".
Local Arguments rsim {_ _} _ _ _ : simpl never.

Section lift.
  Context (k : cfg) (A C : comp) (R : ccs A -> ccs C -> Prop) (HS : comp_sim A C R).

  Notation sta := (@st A).
  Notation stc := (@st C).

  Inductive srel : sta -> stc -> Prop :=
  | SRel a c m : R a c -> srel (St a m) (St c m).
  Inductive srel2 {X} : sta * X -> stc * X -> Prop :=
  | SRel2 a c m x : R a c -> srel2 (St a m, x) (St c m, x).
  Inductive srelo : option sta -> option stc -> Prop :=
  | SRelN : srelo None None
  | SRelS a c m : R a c -> srelo (Some (St a m)) (Some (St c m)).
  Inductive rel2 {X} : ccs A * X -> ccs C * X -> Prop :=
  | Rel2 a c x : R a c -> rel2 (a, x) (c, x).

  Definition urel (u : sta -> res sta) (u' : stc -> res stc) : Prop :=
    forall sa sc, srel sa sc -> rsim srel (u sa) (u' sc).

  Lemma rsim_weaken {X Y} (P Q : X -> Y -> Prop) m m' : (forall x y, P x y -> Q x y) -> rsim P m m' -> rsim Q m m'.
  Proof. intros H. unfold rsim. destruct m; naive_solver. Qed.

  Lemma h_unlink a c s : R a c -> rsim rel2 (c_unlink A a s) (c_unlink C c s).
  Proof.
    intros H. eapply rsim_weaken; [|by apply (sim_unlink _ _ _ HS)].
    intros [? ?] [? ?] [? E]. simpl in *. subst. by constructor.
  Qed.
  Lemma h_qcreate a c s : R a c -> rsim rel2 (c_qcreate A a s) (c_qcreate C c s).
  Proof.
    intros H. eapply rsim_weaken; [|by apply (sim_qcreate _ _ _ HS)].
    intros [? ?] [? ?] [? E]. simpl in *. subst. by constructor.
  Qed.
  Inductive popr : option (ccs A * N) -> option (ccs C * N) -> Prop :=
  | PopN : popr None None
  | PopS a c x : R a c -> popr (Some (a, x)) (Some (c, x)).
  Lemma h_pop a c : R a c -> rsim popr (c_pop A a) (c_pop C c).
  Proof.
    intros H. eapply rsim_weaken; [|by apply (sim_pop _ _ _ HS)].
    intros [[? ?]|] [[? ?]|]; try done; [|constructor]. intros [? E]. simpl in *. subst. by constructor.
  Qed.

  Local Hint Resolve h_unlink h_qcreate h_pop (sim_alloc _ _ _ HS) (sim_free _ _ _ HS) (sim_hashof _ _ _ HS)
    (sim_before_begin _ _ _ HS) (sim_before_end _ _ _ HS) (sim_before_end_all _ _ _ HS) (sim_next _ _ _ HS)
    (sim_link _ _ _ HS) (sim_rehash _ _ _ HS) (sim_qhit _ _ _ HS) (sim_qunlink _ _ _ HS)
    (sim_victims _ _ _ HS) (sim_dlink _ _ _ HS) (sim_dlinked _ _ _ HS) (sim_dunlink _ _ _ HS)
    (sim_dfront _ _ _ HS) : sim.
  Local Hint Constructors srel srel2 srelo rel2 : sim.

  Lemma h_with_cs sa sc a c : srel sa sc -> R a c -> srel (with_cs sa a) (with_cs sc c).
  Proof. intros H ?. inversion H; subst. by constructor. Qed.
  Local Hint Resolve h_with_cs : sim.

  Ltac inv := repeat match goal with
    | H : srel _ _ |- _ => inversion H; clear H; subst
    | H : srel2 _ _ |- _ => inversion H; clear H; subst
    | H : srelo _ _ |- _ => inversion H; clear H; subst
    | H : rel2 _ _ |- _ => inversion H; clear H; subst
    | H : popr _ _ |- _ => inversion H; clear H; subst
    end.
  Ltac scmp := repeat match goal with
    | H : R ?a ?c |- context [c_size C ?c] => rewrite (sim_size _ _ _ HS a c H)
    | H : R ?a ?c |- context [c_bcount C ?c] => rewrite (sim_bcount _ _ _ HS a c H)
    | H : R ?a ?c |- context [c_bucket_for C ?c ?x] => rewrite (sim_bucket_for _ _ _ HS a c x H)
    | H : R ?a ?c |- context [c_before_begin_all C ?c] => rewrite (sim_before_begin_all _ _ _ HS a c H)
    end.
  Ltac sone := cbv beta zeta; match goal with
    | |- rsim _ (rbind ?m _) (rbind ?m _) => apply rsim_eq_bind; intros ?
    | |- rsim _ (rbind (Ok ?a) _) _ => cbn [rbind]
    | |- rsim _ (rbind _ _) (rbind _ _) =>
        eapply rsim_bind; [solve [eauto 6 with sim]|intros ? ? ?; inv; subst; simpl; scmp]
    | |- rsim _ (Ok _) (Ok _) => apply rsim_ok; try solve [constructor; eauto | eauto with sim]
    | |- rsim _ (if ?b then _ else _) (if ?b then _ else _) => destruct b eqn:?
    | |- rsim _ (match ?b with _ => _ end) (match ?b with _ => _ end) => destruct b eqn:?
    | |- rsim _ UB _ => done
    | |- rsim _ Term Term => done
    | |- rsim _ Fuel _ => done
    | |- rsim _ _ _ => solve [eauto 6 with sim]
    end.
  Ltac sgo := repeat sone.
  Ltac sstart := intros; inv; scmp; simpl.

  Lemma h_upd sa sc e f : srel sa sc -> rsim srel (s_upd sa e f) (s_upd sc e f).
  Proof. sstart. unfold s_upd; simpl. sgo. Qed.
  Local Hint Resolve h_upd : sim.
  Lemma h_el sa sc e : srel sa sc -> rsim eq (s_el sa e) (s_el sc e).
  Proof. sstart. unfold s_el; simpl. apply rsim_refl. Qed.
  Local Hint Resolve h_el : sim.
  Lemma h_mark sa sc e : srel sa sc -> rsim srel (mark_expired k sa e) (mark_expired k sc e).
  Proof. intros. by apply h_upd. Qed.
  Lemma h_weaken sa sc e : srel sa sc -> rsim srel (weaken k sa e) (weaken k sc e).
  Proof. intros. by apply h_upd. Qed.
  Lemma h_strengthen sa sc e : srel sa sc -> rsim srel (strengthen k sa e) (strengthen k sc e).
  Proof. sstart. unfold strengthen; simpl. sgo. Qed.
  Lemma h_inc sa sc e : srel sa sc -> rsim srel (inc_ref sa e) (inc_ref sc e).
  Proof. intros. by apply h_upd. Qed.
  Local Hint Resolve h_mark h_weaken h_strengthen h_inc : sim.
  Lemma h_destroy sa sc e el : srel sa sc -> rsim srel (destroy sa e el) (destroy sc e el).
  Proof. sstart. unfold destroy; simpl. sgo. Qed.
  Local Hint Resolve h_destroy : sim.
  Lemma h_drop sa sc e : srel sa sc -> rsim srel (drop_ref sa e) (drop_ref sc e).
  Proof. sstart. unfold drop_ref, s_el; simpl. sgo. Qed.
  Local Hint Resolve h_drop : sim.
  Lemma h_drop_pcb sa sc p : srel sa sc -> rsim srel (drop_pcb sa p) (drop_pcb sc p).
  Proof. sstart. destruct p; simpl; sgo. Qed.
  Local Hint Resolve h_drop_pcb : sim.
  Lemma h_drop_pcbs ps : forall sa sc, srel sa sc -> rsim srel (drop_pcbs sa ps) (drop_pcbs sc ps).
  Proof. induction ps; sstart; simpl; sgo. Qed.
  Local Hint Resolve h_drop_pcbs : sim.
  Lemma h_free_pcbs ps : forall sa sc, srel sa sc -> rsim srel (free_pcbs sa ps) (free_pcbs sc ps).
  Proof. induction ps as [|[]]; sstart; simpl; sgo. Qed.
  Local Hint Resolve h_free_pcbs : sim.
  Lemma h_cancel sa sc e : srel sa sc -> rsim srel (el_cancel sa e) (el_cancel sc e).
  Proof. sstart. unfold el_cancel, s_el; simpl. sgo. Qed.
  Local Hint Resolve h_cancel : sim.
  Lemma h_on_create sa sc e : srel sa sc -> rsim srel (on_create_ k sa e) (on_create_ k sc e).
  Proof. sstart. unfold on_create_, with_cs; simpl. sgo. Qed.
  Lemma h_on_hit sa sc e : srel sa sc -> rsim srel (on_hit_ k sa e) (on_hit_ k sc e).
  Proof.
    sstart. unfold on_hit_, with_cs; simpl. eapply (rsim_bind srel).
    - destruct (has_queue k); sgo.
    - sstart. unfold s_el; simpl. sgo.
  Qed.
  Lemma h_on_unlink sa sc e : srel sa sc -> rsim srel (on_unlink_ k sa e) (on_unlink_ k sc e).
  Proof.
    sstart. unfold on_unlink_, with_cs; simpl. eapply (rsim_bind srel).
    - destruct (has_queue k); sgo.
    - sstart. sgo.
  Qed.
  Lemma h_age sa sc e d : srel sa sc -> rsim srel (on_assign_age k sa e d) (on_assign_age k sc e d).
  Proof. sstart. unfold on_assign_age; simpl. sgo. Qed.
  Lemma h_refr sa sc e d i : srel sa sc -> rsim srel (on_assign_refresh sa e d i) (on_assign_refresh sc e d i).
  Proof. sstart. unfold on_assign_refresh, with_cs; simpl. sgo. Qed.
  Local Hint Resolve h_on_create h_on_hit h_on_unlink h_age h_refr : sim.
  Lemma h_on_assign sa sc e v : srel sa sc -> rsim srel (on_assign_ k sa e v) (on_assign_ k sc e v).
  Proof.
    intros H. unfold on_assign_. eapply (rsim_bind srel); [sgo|].
    intros ? ? H1. eapply (rsim_bind srel); [sgo|].
    intros ? ? H2. sgo.
  Qed.
  Local Hint Resolve h_on_assign : sim.
  Lemma h_dispose sa sc e : srel sa sc -> rsim srel (dispose k sa e) (dispose k sc e).
  Proof. intros. unfold dispose. sgo. Qed.
  Local Hint Resolve h_dispose : sim.

  Definition vrel (v : sta -> N -> res (sta * act)) (v' : stc -> N -> res (stc * act)) : Prop :=
    forall sa sc e, srel sa sc -> rsim srel2 (v sa e) (v' sc e).

  Lemma h_sweep v v' : vrel v v' -> forall fuel sa sc bi be, srel sa sc ->
    rsim srel2 (sweep k fuel v sa bi be) (sweep k fuel v' sc bi be).
  Proof.
    intros Hv. induction fuel as [|f IH]; sstart; simpl; sgo.
  Qed.
  Local Opaque sweep.
  Lemma h_sweep_bucket v v' hash sa sc : vrel v v' -> srel sa sc ->
    rsim srel2 (sweep_bucket k v sa hash) (sweep_bucket k v' sc hash).
  Proof.
    intros Hv. sstart. unfold sweep_bucket; simpl. scmp. sgo. apply h_sweep; [done|by constructor].
  Qed.
  Lemma h_sweep_all v v' sa sc : vrel v v' -> srel sa sc ->
    rsim srel (sweep_all k v sa) (sweep_all k v' sc).
  Proof.
    intros Hv. sstart. unfold sweep_all; simpl. scmp. eapply rsim_bind; [by eauto with sim|].
    intros ? ? <-. eapply rsim_bind; [apply h_sweep; [done|by constructor]|]. sstart. sgo.
  Qed.
  Lemma h_unlink_expired sa sc : srel sa sc -> rsim srel (unlink_expired k sa) (unlink_expired k sc).
  Proof.
    intros H. apply h_sweep_all; [|done]. intros ? ? ? ?. sstart. unfold unlink_expired_visit, s_el; simpl. sgo.
  Qed.
  Local Hint Resolve h_unlink_expired : sim.
  Lemma h_get_ sa sc key incl : srel sa sc -> rsim srel2 (get_ k sa key incl) (get_ k sc key incl).
  Proof.
    intros H. unfold get_. eapply rsim_bind; [apply h_sweep_bucket; [|done]|].
    - intros ? ? ? ?. sstart. unfold get_visit, s_el; simpl. sgo.
    - sstart. sgo.
  Qed.
  Lemma h_find fuel : forall sa sc hash key b e, srel sa sc ->
    rsim eq (find_loop k fuel sa hash key b e) (find_loop k fuel sc hash key b e).
  Proof.
    induction fuel as [|f IH]; sstart; simpl; sgo; unfold s_el; simpl; sgo.
  Qed.
  Local Hint Resolve h_get_ h_find : sim.
  Local Opaque find_loop.
  Lemma h_get_if sa sc key : srel sa sc -> rsim eq (get_if_exists k sa key) (get_if_exists k sc key).
  Proof.
    sstart. unfold get_if_exists; simpl. scmp. unfold sweep_fuel; simpl. sgo.
  Qed.
  Lemma h_count_loop fuel : forall sa sc b, srel sa sc ->
    rsim eq (count_loop k fuel sa b) (count_loop k fuel sc b).
  Proof. induction fuel as [|f IH]; sstart; simpl; unfold s_el; simpl; sgo. Qed.
  Local Hint Resolve h_get_if h_count_loop : sim.
  Local Opaque count_loop.
  Lemma h_count sa sc : srel sa sc -> rsim eq (count k sa) (count k sc).
  Proof. sstart. unfold count, sweep_fuel; simpl. scmp. sgo. Qed.
  Lemma h_expire sa sc key : srel sa sc -> rsim srel (expire k sa key) (expire k sc key).
  Proof.
    intros H. unfold expire. eapply rsim_bind; [apply h_sweep_bucket; [|done]|].
    - intros ? ? ? ?. sstart. unfold expire_visit, s_el; simpl. sgo.
    - sstart. sgo.
  Qed.
  Lemma h_expire_all sa sc : srel sa sc -> rsim srel (expire_all k sa) (expire_all k sc).
  Proof.
    intros H. apply h_sweep_all; [|done]. intros ? ? ? ?. sstart. unfold expire_all_visit, s_el; simpl. sgo.
  Qed.
  Local Hint Resolve h_count h_expire h_expire_all : sim.
  Lemma h_maybe sa sc : srel sa sc -> rsim srel (maybe_rehash k sa) (maybe_rehash k sc).
  Proof.
    sstart. unfold maybe_rehash, with_cs; simpl. scmp. eapply (rsim_bind srel); [sgo|]. sstart. scmp. sgo.
  Qed.
  Local Hint Resolve h_maybe : sim.
  Lemma h_link_ sa sc hash e : srel sa sc -> rsim srel (link k sa hash e) (link k sc hash e).
  Proof. sstart. unfold link, with_cs, s_el; simpl. sgo. Qed.
  Lemma h_reserve sa sc n : srel sa sc -> rsim srel (reserve k sa n) (reserve k sc n).
  Proof.
    sstart. unfold reserve, with_cs; simpl. scmp. eapply (rsim_bind srel); [sgo|]. sstart. scmp. sgo.
  Qed.
  Lemma h_allocate sa sc key m : srel sa sc -> rsim srel2 (allocate sa key m) (allocate sc key m).
  Proof. sstart. unfold allocate; simpl. sgo. Qed.
  Lemma h_victims_ l : forall sa sc, srel sa sc -> rsim srel (expire_victims k sa l) (expire_victims k sc l).
  Proof.
    induction l as [|a l IH]; sstart; simpl; [sgo|]. destruct (rd_el _ a) as [el| | |]; simpl; try done.
    destruct (m_live (el_map el)); (eapply (rsim_bind srel); [destruct (k_weaken k); [apply h_weaken|apply h_mark]; by constructor|]); eauto.
  Qed.
  Local Hint Resolve h_link_ h_reserve h_allocate h_victims_ : sim.
  Lemma h_maintenance sa sc : srel sa sc -> rsim srel (maintenance_ k sa) (maintenance_ k sc).
  Proof. sstart. unfold maintenance_; simpl. scmp. sgo. Qed.
  Local Hint Resolve h_maintenance : sim.
  Lemma h_emplace sa sc key v : srel sa sc -> rsim srel (emplace k sa key v) (emplace k sc key v).
  Proof. sstart. unfold emplace; simpl. sgo. Qed.
  Lemma h_get_or_emplace sa sc key v : srel sa sc -> rsim srel2 (get_or_emplace k sa key v) (get_or_emplace k sc key v).
  Proof. sstart. unfold get_or_emplace; simpl. sgo. Qed.
  Lemma h_refresh_event sa sc n o : srel sa sc -> rsim srel (refresh_event k sa n o) (refresh_event k sc n o).
  Proof.
    sstart. unfold refresh_event, s_el; simpl. sone. eapply (rsim_bind srel); [sgo|]. eauto with sim.
  Qed.
  Local Hint Resolve h_emplace h_get_or_emplace h_refresh_event : sim.
  Lemma h_give sa sc v : srel sa sc -> srel (give k sa v) (give k sc v).
  Proof. sstart. unfold give. destruct (k_pointer k); by constructor. Qed.
  Lemma h_log sa sc v : srel sa sc -> srel (s_log sa v) (s_log sc v).
  Proof. sstart. by constructor. Qed.
  Local Hint Resolve h_give h_log : sim.
  Lemma h_deliver e v cbq : forall sa sc us us', srel sa sc -> Forall2 urel us us' ->
    rsim srel (deliver k sa e v cbq us) (deliver k sc e v cbq us').
  Proof.
    induction cbq as [|[w|n o] r IH]; intros sa sc us us' H Hu; simpl.
    - sgo.
    - eapply rsim_bind; [by eauto with sim|]. intros ? ? <-.
      destruct (_ && _); [done|]. destruct Hu as [|u u' us us' H1 H2]; [by eauto with sim|].
      eapply rsim_bind; [apply H1; by eauto with sim|]. eauto.
    - eapply rsim_bind; [by eauto with sim|]. eauto.
  Qed.
  Lemma h_el_assign sa sc e v us us' : srel sa sc -> Forall2 urel us us' ->
    rsim srelo (el_assign k sa e v us) (el_assign k sc e v us').
  Proof.
    intros H Hu. unfold el_assign. eapply rsim_bind; [by eauto with sim|]. intros el ? <-.
    destruct (el_map el); try by (apply rsim_ok; constructor).
    eapply rsim_bind; [by eauto with sim|]. intros ? ? H1.
    eapply rsim_bind; [by apply h_deliver|]. intros ? ? H2.
    sgo.
  Qed.
  Lemma h_deliver_error e x all cbq : forall sa sc us us', srel sa sc -> Forall2 urel us us' ->
    rsim srel (deliver_error k sa e x all cbq us) (deliver_error k sc e x all cbq us').
  Proof.
    induction cbq as [|[w|n o] r IH]; intros sa sc us us' H Hu; simpl.
    - sgo.
    - destruct Hu as [|u u' us us' H1 H2]; [by eauto with sim|].
      eapply rsim_bind; [apply H1; by eauto with sim|]. intros ? ? H3.
      eapply rsim_bind; [by eauto with sim|]. intros el ? <-.
      destruct (el_map el); try done. case_bool_decide; [|done]. eauto.
    - eapply rsim_bind; [by eauto with sim|]. eauto.
  Qed.
  Lemma h_el_fail sa sc e v us us' : srel sa sc -> Forall2 urel us us' ->
    rsim srel (el_fail k sa e v us) (el_fail k sc e v us').
  Proof.
    intros H Hu. unfold el_fail. eapply rsim_bind; [by eauto with sim|]. intros el ? <-.
    destruct (el_map el); try done.
    eapply rsim_bind; [by apply h_deliver_error|]. intros ? ? H1.
    eapply rsim_bind; [by eauto with sim|]. intros el' ? <-. sgo.
  Qed.
  Lemma h_holds sa sc v : srel sa sc -> holds k sa v = holds k sc v.
  Proof. by sstart. Qed.
  Lemma h_me sa sc : srel sa sc -> me sa = me sc.
  Proof. by sstart. Qed.
  Lemma h_with_me sa sc m : srel sa sc -> srel (with_me sa m) (with_me sc m).
  Proof. sstart. by constructor. Qed.
  Local Hint Resolve h_el_assign h_el_fail h_with_me Forall2_nil_2 : sim.
  Lemma h_sync sa sc hash key u u' out : srel sa sc -> urel u u' ->
    rsim srel2 (resolve_sync k sa hash key u out) (resolve_sync k sc hash key u' out).
  Proof.
    intros H Hu. unfold resolve_sync. eapply rsim_bind; [by eauto with sim|]. intros [s1 e] [s2 e'] H1.
    inversion H1; subst. eapply rsim_bind; [apply Hu; by eauto with sim|]. intros sa' sc' HX.
    assert (Forall2 urel [] []) as HN by constructor.
    eapply (rsim_bind srel).
    - destruct out; [|by eauto with sim|done]. rewrite (h_holds _ _ v HX). destruct (holds k sc' v); [|by eauto with sim].
      eapply rsim_bind; [by eauto with sim|]. intros ? ? H3. inversion H3; subst; sgo.
    - sstart. sgo.
  Qed.
  Lemma h_cb_cancel sa sc i c : srel sa sc -> rsim srel2 (cb_cancel sa i c) (cb_cancel sc i c).
  Proof.
    intros H. unfold cb_cancel. inversion H; subst. destruct (cb_called c); sgo.
  Qed.
  Local Hint Resolve h_sync h_cb_cancel : sim.
  Lemma h_cb_holders sa sc i o kp : srel sa sc -> rsim srel (cb_holders sa i o kp) (cb_holders sc i o kp).
  Proof. sstart. unfold cb_holders, with_me; simpl. sgo. Qed.
  Local Hint Resolve h_cb_holders : sim.
  Lemma h_async sa sc hash key u u' kp th : srel sa sc -> urel u u' ->
    rsim srel2 (resolve_async k sa hash key u kp th) (resolve_async k sc hash key u' kp th).
  Proof.
    intros H Hu. unfold resolve_async. eapply rsim_bind; [by eauto with sim|]. intros [s1 e] [s2 e'] H1.
    inversion H1; subst. simpl. sone. unfold with_me; simpl. sone. sone.
    eapply rsim_bind; [apply Hu; by eauto with sim|]. sstart. sgo.
  Qed.
  Local Hint Resolve h_async : sim.
  Lemma h_cb_assign sa sc i v us us' : srel sa sc -> Forall2 urel us us' ->
    rsim srel2 (cb_assign k sa i v us) (cb_assign k sc i v us').
  Proof.
    intros H Hu. unfold cb_assign. rewrite <-(h_me _ _ H), <-(h_holds _ _ _ H).
    destruct (m_cbs (me sa) !! i) as [c|]; [|inv; sgo].
    destruct (cb_called c); [inv; sgo|]. destruct (m_up _); [|inv; sgo].
    destruct (holds k sa v); [|inv; sgo].
    eapply rsim_bind; [by eauto with sim|]. intros ? ? H2. inversion H2; subst; inv; simpl; unfold with_me; sgo.
  Qed.
  Lemma h_cb_assign_throw sa sc i : srel sa sc -> rsim srel2 (cb_assign_throw sa i) (cb_assign_throw sc i).
  Proof.
    sstart. unfold cb_assign_throw, s_el; simpl. sgo.
  Qed.
  Lemma h_cb_fail sa sc i v us us' : srel sa sc -> Forall2 urel us us' ->
    rsim srel2 (cb_fail k sa i v us) (cb_fail k sc i v us').
  Proof.
    intros H Hu. unfold cb_fail. rewrite <-(h_me _ _ H).
    destruct (m_cbs (me sa) !! i) as [c|]; [|inv; sgo].
    destruct (cb_called c); [inv; sgo|]. destruct (m_up _); [|inv; sgo].
    eapply rsim_bind; [by eauto with sim|]. sstart; simpl; unfold with_me; sgo.
  Qed.
  Lemma h_ret_value sa sc v : srel sa sc -> srel2 (ret_value k sa v) (ret_value k sc v).
  Proof. sstart. unfold ret_value, give. destruct (k_pointer k); by constructor. Qed.
  Local Hint Resolve h_cb_assign h_cb_assign_throw h_cb_fail h_ret_value : sim.
  Lemma h_get sa sc key u u' out : srel sa sc -> urel u u' ->
    rsim srel2 (get k sa key u out) (get k sc key u' out).
  Proof.
    intros H Hu. unfold get. eapply rsim_bind; [by eauto with sim|]. sstart. destruct (k_resolver k).
    - sgo.
    - eapply (rsim_bind srel2).
      + destruct x as [[? ?]|]; [sgo|]. eapply rsim_bind; [by eauto with sim|]. sstart.
        unfold s_el; simpl. sgo.
      + sstart. sgo.
    - sgo.
  Qed.
  Lemma h_finish sa sc w e r u u' : srel sa sc -> urel u u' ->
    rsim srel (async_finish k sa w e r u) (async_finish k sc w e r u').
  Proof.
    intros H Hu. unfold async_finish. destruct r; [inv; sgo| | |inv; sgo]; apply Hu; eauto with sim.
  Qed.
  Local Hint Resolve h_get h_finish : sim.
  Lemma h_async_get sa sc w key u u' kp th uc uc' : srel sa sc -> urel u u' -> urel uc uc' ->
    rsim srel2 (async_get k sa w key u kp th uc) (async_get k sc w key u' kp th uc').
  Proof.
    intros H Hu Huc. unfold async_get. eapply rsim_bind; [by eauto with sim|]. sstart. destruct x as [[? ?]|]; [sgo|].
    eapply rsim_bind; [by eauto with sim|]. sstart. unfold s_el; simpl. sgo.
  Qed.
  Lemma h_refresh sa sc e u u' out kp th : srel sa sc -> urel u u' ->
    rsim srel (refresh k sa e u out kp th) (refresh k sc e u' out kp th).
  Proof.
    intros H Hu. unfold refresh. inversion H; subst. unfold s_el; simpl.
    sone. destruct (_ || _); [sgo|]. sone. sone.
    eapply (rsim_bind srel2).
    - destruct (k_resolver k); [done|by eauto with sim|].
      eapply rsim_bind; [by eauto with sim|]. sstart. sgo.
    - sstart. sone. sone. eapply (rsim_bind srel); [sgo|]. sstart. sgo.
  Qed.
  Lemma h_handler sa sc e u u' out kp th : srel sa sc -> urel u u' ->
    rsim srel (handler k sa e u out kp th) (handler k sc e u' out kp th).
  Proof.
    intros H Hu. unfold handler. rewrite <-(h_me _ _ H). destruct (negb _); [by eauto with sim|]. inversion H; subst. unfold s_el; simpl.
    sone. destruct (_ || _); [sgo|]. sone.
    eapply (rsim_bind srel2).
    - destruct (k_resolver k); [done| |by eauto with sim]. eapply rsim_bind; [by eauto with sim|]. sstart. sgo.
    - sstart. match goal with |- context [match ?x with Some _ => _ | None => _ end] => destruct x end; [|sgo].
      sone. sone. eapply (rsim_bind srel); [sgo|]. sstart. sgo.
  Qed.
  Inductive arel : ast A -> ast C -> Prop :=
  | ARel sa sc q : srel sa sc -> arel (ASt sa q) (ASt sc q).
  Lemma h_run_out aa ac e : arel aa ac -> rsim arel (run_out aa e) (run_out ac e).
  Proof.
    intros [sa sc q H]. unfold run_out. cbn [a_cache a_queued]. inv. simpl. unfold with_cs; simpl. sone.
    eapply rsim_bind; [by eauto with sim|]. intros. apply rsim_ok. by constructor.
  Qed.
  Lemma h_fire aa ac : arel aa ac -> rsim arel (fire aa) (fire ac).
  Proof.
    intros HA. unfold fire. pose proof HA as [sa sc q H]. cbn [a_cache a_queued]. rewrite <-(h_me _ _ H). destruct (negb _); [apply rsim_ok; by constructor|]. inv. simpl.
    sone. unfold s_el; simpl. destruct a' as [e|]; [|apply rsim_ok; by repeat constructor]. sone. case_bool_decide; [|apply rsim_ok; by repeat constructor]. by apply h_run_out.
  Qed.
  Lemma h_expire_timer due e aa ac : arel aa ac -> rsim arel (expire_timer due e aa) (expire_timer due e ac).
  Proof.
    intros HA. unfold expire_timer. pose proof HA as [sa sc q H]. cbn [a_cache a_queued]. rewrite <-(h_me _ _ H). destruct (negb _); [apply rsim_ok; by constructor|]. inv. simpl.
    destruct (m_els m !! e) as [el|]; [|apply rsim_ok; by repeat constructor]. sone. destruct (_ && _); [by apply h_run_out|apply rsim_ok; by repeat constructor].
  Qed.
  Inductive irel : (sta -> res sta) * outcome * (bool * bool) -> (stc -> res stc) * outcome * (bool * bool) -> Prop :=
  | IRel u u' out b : urel u u' -> irel (u, out, b) (u', out, b).
  Lemma h_worker now items items' : Forall2 irel items items' -> forall sa sc, srel sa sc ->
    rsim srel (worker k sa now items) (worker k sc now items').
  Proof.
    induction 1 as [|i i' l l' Hi Hl IH]; sstart; simpl; [sgo|].
    destruct Hi as [u u' out [kp th] Hu]. sone. unfold s_el, with_cs; simpl.
    sone; [|sgo]. sone. sone; [|sgo]. sone.
    eapply rsim_bind; [apply h_refresh; [by constructor|done]|]. eauto.
  Qed.
  Lemma h_destroy_loop fuel : forall sa sc, srel sa sc ->
    rsim srel (destroy_loop k fuel sa) (destroy_loop k fuel sc).
  Proof.
    induction fuel as [|f IH]; sstart; simpl; [done|]. unfold with_cs; simpl. sgo.
  Qed.
  Local Hint Resolve h_async_get h_worker h_destroy_loop : sim.

  (** ** Whole operations *)
  Lemma step_eq (D : comp) nested o (s : @st D) : step k nested o s = step_with k (run_nested k) nested o s.
  Proof. by destruct o. Qed.

  Lemma h_step o : forall nested sa sc, srel sa sc -> rsim srel2 (step k nested o sa) (step k nested o sc).
  Proof.
    induction o as [o IH] using op_ind'. intros nested sa sc H. rewrite !step_eq.
    assert (forall l, Forall (fun o => forall nested sa sc, srel sa sc -> rsim srel2 (step k nested o sa) (step k nested o sc)) l ->
      urel (run_nested k l) (run_nested k l)) as Hrun.
    { clear. induction 1 as [|o l Ho Hl IH]; intros sa sc H; [by apply rsim_ok|].
      simpl. eapply rsim_bind; [by apply Ho|]. sstart. apply IH. by constructor. }
    unfold step_with. rewrite <-(h_me _ _ H). destruct (negb _ && _); [inv; sgo|].
    destruct o.
    - sone. apply rsim_ok. destruct a'; try (by constructor). apply h_ret_value. by constructor.
    - sgo.
    - destruct (k_resolver k); [by eauto with sim..|inv; sgo].
    - destruct IH. destruct (k_resolver k); [inv; sgo..|by eauto with sim].
    - rewrite <-(h_holds _ _ _ H). destruct (holds k sa v); [|inv]; sgo.
    - inv. unfold emplace_throw. sgo.
    - rewrite <-(h_holds _ _ _ H). destruct (holds k sa v); [|inv; sgo]. eapply rsim_bind; [by eauto with sim|].
      sstart. sgo. destruct x; try by constructor. apply h_ret_value. by constructor.
    - sgo.
    - sgo.
    - sgo.
    - apply h_cb_assign; [done|]. induction IH; simpl; constructor; auto.
    - by apply h_cb_assign_throw.
    - apply h_cb_fail; [done|]. induction IH; simpl; constructor; auto.
    - inv. simpl. sgo.
    - inv. simpl. sgo.
    - inv. simpl. sgo.
    - inv. simpl. sgo.
    - destruct nested; [done|]. destruct (k_refresh k); [|inv; sgo].
      eapply rsim_bind; [apply h_worker; [|done]|].
      + induction IH; simpl; constructor; auto. constructor. auto.
      + sstart. sgo.
    - destruct nested; [done|]. inv. unfold with_me. eapply rsim_bind; [apply h_destroy_loop; by constructor|]. sstart. sgo.
  Qed.
  Theorem h_run l : forall sa sc, srel sa sc -> rsim srel (run k l sa) (run k l sc).
  Proof.
    induction l as [|o l IH]; intros sa sc H; simpl; [by apply rsim_ok|].
    eapply rsim_bind; [by apply h_step|]. sstart. apply IH. by constructor.
  Qed.
  Lemma h_init : srel st_init st_init.
  Proof. constructor. apply HS. Qed.

  (** ** Timers on an executor *)
  Lemma h_nested l : urel (run_nested k l) (run_nested k l).
  Proof.
    induction l as [|o l IH]; intros sa sc H; [by apply rsim_ok|].
    simpl. eapply rsim_bind; [by apply h_step|]. sstart. apply IH. by constructor.
  Qed.
  Lemma h_astep o aa ac : arel aa ac -> rsim (fun x y => arel x.1 y.1 /\ x.2 = y.2) (astep k o aa) (astep k o ac).
  Proof.
    intros H. destruct o as [o| |due e|n [[script out] [keep throw]]].
    - destruct H as [sa sc q H].
      assert (rsim (fun x y => arel x.1 y.1 /\ x.2 = y.2) ('(s, r) <- step k false o sa;; Ok (ASt s q, r)) ('(s, r) <- step k false o sc;; Ok (ASt s q, r))) as Hs.
      { eapply rsim_bind; [by apply h_step|]. intros [s1 r1] [s2 r2] H1. inversion H1; subst. apply rsim_ok. split; [|done]. constructor. by constructor. }
      destruct o; try exact Hs. apply rsim_ok. split; [by constructor|done].
    - cbn [astep]. eapply rsim_bind; [by apply h_fire|]. intros a1 a2 H1. by apply rsim_ok.
    - cbn [astep]. eapply rsim_bind; [by apply h_expire_timer|]. intros a1 a2 H1. by apply rsim_ok.
    - cbn [astep]. destruct H as [sa sc q H]. cbn [a_queued a_cache]. destruct (q !! n) as [e|]; [|apply rsim_ok; by repeat constructor].
      eapply rsim_bind; [apply h_handler; [done|apply h_nested]|]. intros s1 s2 H1. apply rsim_ok. by repeat constructor.
  Qed.
  Theorem h_arun l : forall aa ac, arel aa ac -> rsim arel (arun k l aa) (arun k l ac).
  Proof.
    induction l as [|o l IH]; intros aa ac H; cbn [arun]; [by apply rsim_ok|].
    eapply rsim_bind; [by apply h_astep|]. intros [a1 r1] [a2 r2] [H1 _]. by apply IH.
  Qed.
End lift.
