(** The invariant of the list-level cache: definitions and counting lemmas. *)
From Verif Require Import Base AQueue ATable BasicHashtable Mapped Cache CacheAbs.

Notation sta := (@st comp_abs).

(** * Sums over maps, multiplicities *)
Definition msum {A} (f : A -> nat) (m : gmap N A) : nat := map_fold (fun _ x n => f x + n) 0 m.

Lemma msum_empty {A} (f : A -> nat) : msum f ∅ = 0.
Proof. apply map_fold_empty. Qed.
Lemma msum_insert {A} (f : A -> nat) m i x : m !! i = None -> msum f (<[i := x]> m) = f x + msum f m.
Proof.
  intros Hi. unfold msum. rewrite map_fold_insert_L; [done| |done]. intros. lia.
Qed.
Lemma msum_delete {A} (f : A -> nat) m i x : m !! i = Some x -> msum f m = f x + msum f (delete i m).
Proof.
  intros Hi. rewrite <-(insert_delete m i x Hi) at 1. apply msum_insert. apply lookup_delete.
Qed.
Lemma msum_update {A} (f : A -> nat) m i x y : m !! i = Some x -> msum f (<[i := y]> m) + f x = msum f m + f y.
Proof.
  intros Hi. rewrite <-insert_delete_insert, msum_insert by apply lookup_delete.
  rewrite (msum_delete f m i x Hi). lia.
Qed.
Lemma msum_pos {A} (f : A -> nat) m i x : m !! i = Some x -> f x <= msum f m.
Proof. intros Hi. rewrite (msum_delete f m i x Hi). lia. Qed.
Lemma msum_zero {A} (f : A -> nat) m : msum f m = 0 <-> forall i x, m !! i = Some x -> f x = 0.
Proof.
  split.
  - intros H i x Hi. pose proof (msum_pos f m i x Hi). lia.
  - intros H. induction m as [|i x m Hi IH] using map_ind; [apply msum_empty|].
    rewrite msum_insert by done. rewrite (H i x) by apply lookup_insert. rewrite IH; [done|].
    intros j y Hj. apply (H j y). rewrite lookup_insert_ne by congruence. done.
Qed.
Lemma msum_ext {A} (f g : A -> nat) m : (forall i x, m !! i = Some x -> f x = g x) -> msum f m = msum g m.
Proof.
  induction m as [|i x m Hi IH] using map_ind; intros H; [by rewrite !msum_empty|].
  rewrite !msum_insert by done. rewrite (H i x) by apply lookup_insert. rewrite IH; [done|].
  intros j y Hj. apply (H j y). rewrite lookup_insert_ne by congruence. done.
Qed.
Lemma msum_add {A} (f g : A -> nat) m : msum (fun x => f x + g x) m = msum f m + msum g m.
Proof.
  induction m as [|i x m Hi IH] using map_ind; [by rewrite !msum_empty|]. rewrite !msum_insert by done. lia.
Qed.

Definition cnt (e : N) (l : list N) : nat := length (filter (fun x => x = e) l).
Lemma cnt_nil e : cnt e [] = 0.
Proof. done. Qed.
Lemma cnt_cons e x l : cnt e (x :: l) = (if decide (x = e) then 1 else 0) + cnt e l.
Proof. unfold cnt. rewrite filter_cons. by destruct (decide (x = e)). Qed.
Lemma cnt_app e l1 l2 : cnt e (l1 ++ l2) = cnt e l1 + cnt e l2.
Proof. unfold cnt. by rewrite filter_app, app_length. Qed.
Lemma cnt_perm e l1 l2 : l1 ≡ₚ l2 -> cnt e l1 = cnt e l2.
Proof. intros H. unfold cnt. by rewrite H. Qed.
Lemma cnt_zero e l : cnt e l = 0 <-> e ∉ l.
Proof.
  induction l as [|x l IH]; [split; [intros _; apply not_elem_of_nil|done]|].
  rewrite cnt_cons, not_elem_of_cons. destruct (decide (x = e)); [naive_solver lia|]. rewrite <-IH. naive_solver lia.
Qed.
Lemma cnt_pos e l : 0 < cnt e l <-> e ∈ l.
Proof.
  destruct (decide (e ∈ l)) as [H|H].
  - split; [done|]. intros _. destruct (cnt e l) eqn:E; [|lia]. by apply cnt_zero in E.
  - split; [|done]. apply cnt_zero in H. lia.
Qed.
Lemma cnt_nodup e l : NoDup l -> cnt e l <= 1.
Proof.
  induction 1 as [|x l Hx Hnd IH]; [simpl; unfold cnt; simpl; lia|]. rewrite cnt_cons.
  destruct (decide (x = e)) as [->|]; [|lia]. apply cnt_zero in Hx. lia.
Qed.
Lemma cnt_nodup_in e l : NoDup l -> e ∈ l -> cnt e l = 1.
Proof. intros H1 H2. pose proof (cnt_nodup e l H1). apply cnt_pos in H2. lia. Qed.

(** * References held by stored callbacks, waiters *)
Definition pcb_old (p : pcb) : list N := match p with PRefresh _ o => [o] | PWait _ => [] end.
Definition pcb_wait (p : pcb) : list N := match p with PWait w => [w] | PRefresh _ _ => [] end.
Definition olds_of (ps : list pcb) : list N := concat (map pcb_old ps).
Definition waits_of (ps : list pcb) : list N := concat (map pcb_wait ps).
Definition cbq_of (m : mapped) : list pcb := match m with MPend p => p_cbq p | _ => [] end.
Definition el_olds (el : elem) : list N := olds_of (cbq_of (el_map el)).
Definition el_waits (el : elem) : list N := waits_of (cbq_of (el_map el)).
Definition nold (els : gmap N elem) (e : N) : nat := msum (fun el => cnt e (el_olds el)) els.
Definition nwait (els : gmap N elem) (w : N) : nat := msum (fun el => cnt w (el_waits el)) els.
Definition ncbs (cbs : gmap N cbk) (e : N) : nat := msum (fun c => if decide (cb_el c = e) then 1 else 0) cbs.
Definition ev_done (w : N) (v : ev) : nat :=
  match v with EvCall w' _ _ _ | EvDrop w' => if decide (w' = w) then 1 else 0 | EvResolve _ | EvEvict _ => 0 end.
Definition ndone (l : list ev) (w : N) : nat := sum_list_with (ev_done w) l.

(** * Ghost state: what C++ stack frames hold *)
Record gh := Gh {
  g_pins : list N;         (** counted pointers in local variables *)
  g_xs : list N;           (** elements taken out of the table but not yet out of the queues *)
  g_act : list N;          (** resolver callbacks in the middle of being created or completing *)
  g_wait : list N;         (** waiters moved out of their element, not yet notified *)
  g_priv : list N;         (** counted pointers to new pending elements nobody else knows *)
  g_own : list (N * N)     (** resolver callbacks held by [resolve], with their elements *)
}.
Definition g0 : gh := Gh [] [] [] [] [] [].
Definition with_pins (g : gh) l := Gh l (g_xs g) (g_act g) (g_wait g) (g_priv g) (g_own g).
Definition with_xs (g : gh) l := Gh (g_pins g) l (g_act g) (g_wait g) (g_priv g) (g_own g).
Definition with_act (g : gh) l := Gh (g_pins g) (g_xs g) l (g_wait g) (g_priv g) (g_own g).
Definition with_wait (g : gh) l := Gh (g_pins g) (g_xs g) (g_act g) l (g_priv g) (g_own g).
Definition with_priv (g : gh) l := Gh (g_pins g) (g_xs g) (g_act g) (g_wait g) l (g_own g).
Definition with_own (g : gh) l := Gh (g_pins g) (g_xs g) (g_act g) (g_wait g) (g_priv g) l.
Definition pin (e : N) (g : gh) : gh := with_pins g (e :: g_pins g).

Definition LT (g : gh) (a : acs) : list N := g_xs g ++ a_tab a.
Definition is_pend (el : elem) : Prop := el_pending el = true.

Section inv.
  Context (k : cfg).

  (** no deadlines yet, never refreshed *)
  Definition blank (el : elem) : Prop :=
    el_xw el = None /\ el_xs el = None /\ el_rf el = 0%Z /\ el_cn el = None /\ el_rs el = false.
  Record inv (g : gh) (s : sta) : Prop := {
    i_dom e : is_Some (a_hash (cs s) !! e) <-> is_Some (m_els (me s) !! e);
    i_up : m_up (me s) = true -> a_torn (cs s) = None;
    i_nd : NoDup (LT g (cs s));
    i_tab e : e ∈ LT g (cs s) -> is_Some (m_els (me s) !! e);
    i_hash e el : e ∈ LT g (cs s) -> m_els (me s) !! e = Some el ->
      a_hash (cs s) !! e = Some (k_hash k (el_key el));
    i_place b B e el : a_torn (cs s) = None -> a_bs (cs s) !! b = Some B -> e ∈ B ->
      m_els (me s) !! e = Some el -> bidx (length (a_bs (cs s))) (k_hash k (el_key el)) = b;
    i_q : if has_queue k then aq_elems (a_q (cs s)) ≡ₚ LT g (cs s) else a_q (cs s) = ([], []);
    i_bal : aq_balanced (a_q (cs s));
    i_dnd : NoDup (a_dq (cs s));
    i_dq e : e ∈ a_dq (cs s) -> e ∈ LT g (cs s) /\ k_refresh k <> None;
    i_dnp e el : e ∈ a_dq (cs s) -> m_els (me s) !! e = Some el -> ~ is_pend el;
    i_rc e el : m_els (me s) !! e = Some el ->
      el_rc el = cnt e (LT g (cs s)) + ncbs (m_cbs (me s)) e + nold (m_els (me s)) e
                 + cnt e (g_pins g) + cnt e (g_priv g) /\ el_rc el <> 0;
    i_rc0 e : m_els (me s) !! e = None ->
      ncbs (m_cbs (me s)) e + nold (m_els (me s)) e + cnt e (g_pins g) + cnt e (g_priv g) = 0;
    i_ref l el n o : m_els (me s) !! l = Some el -> PRefresh n o ∈ cbq_of (el_map el) ->
      n = l /\ o <> l /\ exists eo, m_els (me s) !! o = Some eo /\ ~ is_pend eo;
    i_out e el : m_els (me s) !! e = Some el -> e ∉ LT g (cs s) -> cbq_of (el_map el) = [];
    i_pin e el : m_els (me s) !! e = Some el -> is_pend el -> m_up (me s) = true ->
      e ∈ LT g (cs s) \/ e ∈ g_priv g;
    i_priv e : e ∈ g_priv g -> e ∉ LT g (cs s) /\
      exists el, m_els (me s) !! e = Some el /\ el_map el = MPend pend_init /\ blank el;
    i_pnd : NoDup (g_priv g);
    i_cb i c : m_cbs (me s) !! i = Some c -> cb_called c = false -> i ∉ g_act g ->
      cb_el c ∉ g_priv g /\ exists el, m_els (me s) !! (cb_el c) = Some el /\ is_pend el;
    i_own i e : (i, e) ∈ g_own g -> exists c, m_cbs (me s) !! i = Some c /\ cb_own c = true /\ cb_el c = e;
    i_held i c : m_cbs (me s) !! i = Some c -> cb_own c = true -> (i, cb_el c) ∈ g_own g;
    i_inj i j c d : m_cbs (me s) !! i = Some c -> m_cbs (me s) !! j = Some d -> cb_el c = cb_el d -> i = j;
    i_nxt e : is_Some (m_els (me s) !! e) -> (e < m_nxt (me s))%N;
    i_ncb i : is_Some (m_cbs (me s) !! i) -> (i < m_ncb (me s))%N;
    i_mode e el : m_els (me s) !! e = Some el ->
      el_map el <> MNone /\ (k_pointer k = false -> forall o, el_map el <> MWeak o)
  }.

  (** all requests of waiter [w] so far: waiting, notified or released *)
  Definition wtot (g : gh) (s : sta) (w : N) : nat :=
    nwait (m_els (me s)) w + ndone (m_log (me s)) w + cnt w (g_wait g).

  (** What every piece of cache code guarantees about the state it leaves; [W] bounds the waiters added. *)
  Record ext (W : list N) (g : gh) (s : sta) (g' : gh) (s' : sta) : Prop := {
    x_nxt : (m_nxt (me s) <= m_nxt (me s'))%N;
    x_ncb : (m_ncb (me s) <= m_ncb (me s'))%N;
    x_up : m_up (me s') = m_up (me s);
    x_steady : (m_steady (me s) <= m_steady (me s'))%Z;
    x_old e : (e < m_nxt (me s))%N -> m_els (me s) !! e = None -> m_els (me s') !! e = None;
    x_el e el el' : m_els (me s) !! e = Some el -> m_els (me s') !! e = Some el' ->
      el_key el' = el_key el /\ (~ is_pend el -> ~ is_pend el');
    x_log : exists l, m_log (me s') = l ++ m_log (me s);
    x_wait w : wtot g s w <= wtot g' s' w <= wtot g s w + cnt w W
  }.
End inv.
