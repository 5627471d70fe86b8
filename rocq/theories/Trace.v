(** The changes cache code makes to the table entries, one elementary change at a time.
    AbsTrace.v and AbsResolve.v show that every operation is a sequence of such changes; the
    properties about what stays in the cache and what does not follow by induction over them. *)
From stdpp Require Import sorting.
From Verif Require Import Base AQueue ATable BasicHashtable Mapped Cache CacheAbs AbsInv AbsPrim AbsOps AbsComp Histories.

(** the entries, without their reference counts *)
Definition tab (s : sta) : list N := concat (a_bs (cs s)).
Definition tv (s : sta) (x : N) : option elem :=
  if decide (x ∈ tab s) then (fun el => with_rc el 0) <$> m_els (me s) !! x else None.
(** the entries with a given hash, in table order *)
Definition hseq (s : sta) (h : N) : list N := filter (fun x => a_hash (cs s) !! x = Some h) (tab s).

(** may still produce a value (unless its time is over) *)
Definition hopeful (m : mapped) : bool :=
  match m with MVal _ | MWeak (Some _) => true | MPend p => negb (p_exp p) | _ => false end.

(** What is known about the other entries when a new one is linked. *)
Inductive how :=
| HClean                 (** nobody else may still produce a value for the key *)
| HRefresh (o l : N)     (** the new entry [l] is about to replace [o], and nobody else has the key *)
| HAny.
(** Kinds of changes, with what the properties want to know about their cause. *)
Inductive kind :=
| KFree                                           (** internal: removal of expired entries, queues, rehash *)
| KEvict (key : Z) (live : bool)                    (** maintenance expires or weakens an entry, which was live before *)
| KTime (δ : drift)                               (** clocks, pointers the user holds *)
| KErase (key : Z)
| KClear
| KHit (key : Z)
| KEnter (key : Z) (cl : how) (o : option Z)      (** a new entry; [o]: its value *)
| KWait (w : N) (sure : bool)                      (** a waiter is added; [sure]: to an entry whose callback is still there *)
| KRefresh (key : Z) (rep : bool)                 (** the refresh worker; [rep]: it replaces the old value *)
| KDone (i : N) (o : option Z) (δ : drift)        (** callback [i] completes with a value or an error *)
| KCancel (i : N)
| KPop (e : N)                                    (** the refresh worker takes an entry off its queue; the timer of an entry runs out *)
| KLet (i : N).                                   (** a resolver that is still running has let go of callback [i] *)

(** the keys of the evicted entries in a log *)
Definition evicted (l : list ev) : list Z := omap (fun v => match v with EvEvict key => Some key | _ => None end) l.
Definition evicting (κ : kind) : Prop := match κ with KEvict _ _ => True | _ => False end.

Section trace.
  Context (k : cfg).
  Notation marked := (marked k).

  (** what [on_assign_] writes into an element *)
  Definition aged (m : mem) (d : Z) (el : elem) : elem :=
    with_exp el (tp_min (el_xw el) (Some (m_wall m + d)%Z))
      (if k_steady k then el_xs el else tp_min (el_xs el) (Some (m_steady m + d)%Z)).
  Definition assigned (m : mem) (value : bool) (el : elem) : elem :=
    let el := match k_max_age k with Some d => if value then aged m d el else el | None => el end in
    let el := match k_err_age k with Some d => if value then el else aged m d el | None => el end in
    match k_refresh k with
    | Some (delay, idle) =>
      if value then
        let el := with_rf el (m_steady m + delay)%Z in
        if bool_decide (idle = 0%Z) then el else with_cn el (tp_min (el_cn el) (Some (m_steady m + idle)%Z))
      else el
    | None => el
    end.
  Definition is_val (m : mapped) : bool := match m with MVal _ => true | _ => false end.
  Definition val_of (m : mapped) : option Z := match m with MVal v => Some v | _ => None end.
  Definition newborn (key : Z) (m : mapped) : elem := Elem key m 0 None None 0 None false.
  Definition born (m : mem) (key : Z) (mp : mapped) : elem :=
    if m_pending mp then newborn key mp else assigned m (is_val mp) (newborn key mp).
  Definition enq (value : bool) (e : N) (dq : list N) : list N :=
    if value && bool_decide (is_Some (k_refresh k)) then dq ++ [e] else dq.

  (** nobody is going to replace it *)
  Definition noref (s : sta) (o : N) : Prop :=
    forall n en q, tv s n = Some en -> el_map en = MPend q -> o ∉ olds_of (p_cbq q).
  (** younger than all entries *)
  Definition newest (s : sta) (e : N) : Prop := noref s e /\ forall h x, x ∈ hseq s h -> (x < e)%N.

  (** entry [e] belongs to a resolver callback that has not been used yet *)
  Definition has_cb (s : sta) (e : N) : Prop := exists i c, m_cbs (me s) !! i = Some c /\ cb_called c = false /\ cb_el c = e.
  (** changes of one entry *)
  Inductive chg (s : sta) (e : N) (el : elem) : kind -> option elem -> Prop :=
  | c_gone : el_expired k (me s) el = true -> el_pending el = false -> chg s e el KFree None
  | c_erase key : k_eq k (el_key el) key = true -> el_pending el = false -> chg s e el (KErase key) None
  | c_clear : el_pending el = false -> chg s e el KClear None
  | c_erasing key : k_eq k (el_key el) key = true -> el_pending el = true -> chg s e el (KErase key) (Some (marked el))
  | c_clearing : el_pending el = true -> chg s e el KClear (Some (marked el))
  | c_evict : k_max_size k <> None -> k_weaken k = false -> chg s e el (KEvict (el_key el) (m_live (el_map el))) (Some (marked el))
  | c_weaken : k_max_size k <> None -> k_weaken k = true ->
      chg s e el (KEvict (el_key el) (m_live (el_map el))) (Some (with_map el (m_weaken (k_pointer k) (el_map el))))
  | c_strengthen : k_max_size k <> None ->
      chg s e el KFree (Some (with_map el (m_strengthen (k_pointer k) (alive (me s)) (el_map el)).1))
  | c_hit key d idle : k_eq k (el_key el) key = true -> k_refresh k = Some (d, idle) -> idle <> 0%Z ->
      m_holds_value (alive (me s)) (el_map el) = true -> el_expired k (me s) el = false ->
      chg s e el (KHit key) (Some (with_cn el (Some (m_steady (me s) + idle)%Z)))
  | c_wait p w b : el_map el = MPend p -> (b = true -> has_cb s e) -> chg s e el (KWait w b) (Some (with_map el (MPend (p_add p (PWait w)))))
  | c_rs : k_refresh k <> None -> el_pending el = false -> chg s e el (KRefresh (el_key el) false) (Some (with_rs el true))
  | c_ref p o : k_refresh k <> None -> el_map el = MPend p -> olds_of (p_cbq p) = [] -> (o < e)%N ->
      (forall eo, tv s o = Some eo -> el_key eo = el_key el /\ el_rs eo = true /\ el_pending eo = false) ->
      noref s o ->
      chg s e el (KRefresh (el_key el) false) (Some (with_map el (MPend (p_add p (PRefresh e o)))))
  | c_min c : k_refresh k <> None -> el_pending el = false -> chg s e el (KRefresh (el_key el) true) (Some (with_cn el (tp_min (el_cn el) c)))
  | c_old : k_refresh k <> None -> el_pending el = false -> chg s e el (KRefresh (el_key el) true) (Some (marked el)).

  Notation tame := (tame k).
  Definition same_key (el : elem) (key : Z) : Prop := k_hash k (el_key el) = k_hash k key /\ k_eq k (el_key el) key = true.
  Definition nohope (s : sta) (key : Z) : Prop :=
    forall x el, tv s x = Some el -> same_key el key -> hopeful (el_map el) = false.

  Definition only (s : sta) (key : Z) (o : N) : Prop :=
    forall x el, tv s x = Some el -> same_key el key -> hopeful (el_map el) = true -> x = o.
  Definition fits (s : sta) (e : N) (key : Z) (cl : how) : Prop :=
    match cl with HClean => nohope s key | HRefresh o l => l = e /\ only s key o | HAny => True end.

  (** changes of the table and of the refresh queue *)
  Inductive body (s s' : sta) : kind -> Prop :=
  | b_same κ : κ = KFree \/ (exists δ, κ = KTime δ) \/ (exists e, κ = KPop e) \/ (exists i, κ = KLet i) -> (forall x, tv s' x = tv s x) -> (forall h, hseq s' h = hseq s h) ->
      a_dq (cs s') = match κ with KPop e => rm e (a_dq (cs s)) | _ => a_dq (cs s) end -> (forall e, κ = KPop e -> e ∈ a_dq (cs s)) -> body s s' κ
  | b_one κ e el o : tv s e = Some el -> chg s e el κ o ->
      tv s' e = o -> (forall x, x <> e -> tv s' x = tv s x) ->
      (forall h, hseq s' h = match o with Some _ => hseq s h | None => rm e (hseq s h) end) ->
      a_dq (cs s') = match o with Some _ => a_dq (cs s) | None => rm e (a_dq (cs s)) end -> body s s' κ
  | b_enter e key cl mp :
      tv s e = None -> (forall h, e ∉ hseq s h) -> e ∉ a_dq (cs s) ->
      match mp with MVal _ => True | MErr _ => k_resolver k = RSync | _ => mp = MPend pend_init /\ k_resolver k = RAsync /\ has_cb s e end ->
      tv s' e = Some (born (me s) key mp) -> (forall x, x <> e -> tv s' x = tv s x) ->
      (forall h, hseq s' h = hseq s h ++ (if decide (k_hash k key = h) then [e] else [])) ->
      a_dq (cs s') = enq (is_val mp) e (a_dq (cs s)) ->
      (k_resolver k = RAsync -> newest s e) ->
      fits s e key cl ->
      body s s' (KEnter key cl (val_of mp))
  | b_done i c e el p o x cn δ :
      m_cbs (me s) !! i = Some c -> cb_called c = false -> cb_el c = e ->
      tv s e = Some el -> el_map el = MPend p -> cn_ok k (olds_of (p_cbq p)) (m_els (me s)) (el_cn el) cn ->
      tv s' e = Some (assigned (me s') (bool_decide (is_Some o))
        (with_map (with_cn el cn) (match o with Some v => settled k p v | None => m_settle_error (k_pointer k) x p end))) ->
      (forall y, y <> e -> tv s' y = (if decide (y ∈ olds_of (p_cbq p)) then marked else id) <$> tv s y) ->
      (forall h, hseq s' h = hseq s h) ->
      a_dq (cs s') = enq (bool_decide (is_Some o)) e (a_dq (cs s)) -> e ∉ a_dq (cs s) ->
      m_log (me s') = calls (default 0%Z o) x (p_cbq p) ++ m_log (me s) ->
      (forall j d, m_cbs (me s) !! j = Some d -> cb_el d = e -> j = i) ->
      (forall c', m_cbs (me s') !! i = Some c' -> cb_called c' = true) ->
      body s s' (KDone i o δ)
  | b_cancel i c e el p :
      m_cbs (me s) !! i = Some c -> cb_called c = false -> cb_el c = e ->
      tv s e = Some el -> el_map el = MPend p ->
      tv s' e = Some (with_map el (MPend (p_cancel p))) -> (forall x, x <> e -> tv s' x = tv s x) ->
      (forall h, hseq s' h = hseq s h) -> a_dq (cs s') = a_dq (cs s) ->
      (forall j d, m_cbs (me s) !! j = Some d -> cb_el d = e -> j = i) ->
      (forall c', m_cbs (me s') !! i = Some c' -> cb_called c' = true) ->
      body s s' (KCancel i).

  Definition has_val (m : mapped) : bool := match m with MVal _ | MWeak (Some _) => true | _ => false end.
  (** facts about the entries that every change keeps (TraceInv.v) *)
  Record J (s : sta) : Prop := {
    j_pc x el : tv s x = Some el -> el_pending el = true -> el_xw el = None /\ el_xs el = None /\ el_cn el = None /\ el_rs el = false;
    j_sync : k_resolver k = RAsync \/ m_cbs (me s) = ∅ /\ forall x el, tv s x = Some el -> el_pending el = false;
    j_rs n en p m o eo : tv s n = Some en -> el_map en = MPend p -> PRefresh m o ∈ p_cbq p -> tv s o = Some eo ->
      el_rs eo = true /\ el_key eo = el_key en /\ el_pending eo = false;
    j_uref n1 n2 e1 e2 p1 p2 o : tv s n1 = Some e1 -> tv s n2 = Some e2 -> el_map e1 = MPend p1 -> el_map e2 = MPend p2 ->
      o ∈ olds_of (p_cbq p1) -> o ∈ olds_of (p_cbq p2) -> n1 = n2;
    j_lt n en p o : tv s n = Some en -> el_map en = MPend p -> o ∈ olds_of (p_cbq p) -> (o < n)%N;
    j_one n en p : tv s n = Some en -> el_map en = MPend p -> (length (olds_of (p_cbq p)) <= 1)%nat;
    j_sorted h : k_resolver k = RAsync -> StronglySorted N.lt (hseq s h);
    j_tame x el : tame -> tv s x = Some el ->
      (forall v, el_map el <> MWeak (Some v)) /\ (k_pointer k = true -> forall p, el_map el = MPend p -> p_weak p = false);
    j_val x el : k_max_age k = None -> tv s x = Some el -> has_val (el_map el) = true -> el_xw el = None /\ el_xs el = None;
    j_cn x el : k_refresh k = None -> tv s x = Some el -> el_cn el = None /\ olds_of (cbq_of (el_map el)) = [];
    j_open x el p : k_resolver k = RAsync -> tv s x = Some el -> el_map el = MPend p -> p_exp p = false -> has_cb s x
  }.

  (** the resolver callbacks *)
  Definition completes (κ : kind) (i : N) : Prop :=
    match κ with KDone j _ _ | KCancel j => j = i | _ => False end.
  Definition cbs_ok (κ : kind) (s s' : sta) : Prop :=
    (m_ncb (me s) <= m_ncb (me s'))%N /\
    (forall i c', m_cbs (me s') !! i = Some c' ->
      (m_ncb (me s) <= i)%N /\ (i < m_ncb (me s'))%N /\ k_resolver k = RAsync /\ m_cbs (me s) !! i = None /\ tv s (cb_el c') = None \/
      exists c, m_cbs (me s) !! i = Some c /\ cb_el c' = cb_el c /\
        (cb_called c' = cb_called c \/ cb_called c' = true /\ completes κ i)) /\
    (forall i c, m_cbs (me s) !! i = Some c -> m_cbs (me s') !! i = None -> cb_called c = true).
  (** a callback stays with its holder; a new one belongs to an entry that has none *)
  Definition keep_ok (κ : kind) (s s' : sta) : Prop :=
    (forall i c c', m_cbs (me s) !! i = Some c -> m_cbs (me s') !! i = Some c' -> cb_kept c = true -> cb_kept c' = true \/ κ = KLet i) /\
    (forall i c' j d, m_cbs (me s') !! i = Some c' -> m_cbs (me s) !! i = None -> m_cbs (me s) !! j = Some d -> cb_el d <> cb_el c').
  Definition drift_of (κ : kind) : drift := match κ with KTime δ | KDone _ _ δ => δ | _ => Still end.

  Record mini (κ : kind) (s s' : sta) : Prop := {
    n_up : m_up (me s') = m_up (me s);
    n_log : exists l, m_log (me s') = l ++ m_log (me s);
    n_clk : clk k (drift_of κ) (me s) (me s');
    n_cbs : cbs_ok κ s s';
    n_body : body s s' κ;
    n_evict : evicted (m_log (me s')) = match κ with KEvict key true => [key] | _ => [] end ++ evicted (m_log (me s));
    n_keep : keep_ok κ s s'
  }.

  Definition path (A : kind -> Prop) : sta -> sta -> Prop := rtc (fun s s' => exists κ, A κ /\ mini κ s s').
  Lemma path_refl A s : path A s s.
  Proof. apply rtc_refl. Qed.
  Lemma path_trans A s1 s2 s3 : path A s1 s2 -> path A s2 s3 -> path A s1 s3.
  Proof. apply rtc_transitive. Qed.
  Lemma path_one (A : kind -> Prop) κ s s' : A κ -> mini κ s s' -> path A s s'.
  Proof. intros H1 H2. apply rtc_once. eauto. Qed.
  Lemma path_weaken (A B : kind -> Prop) s s' : (forall κ, A κ -> B κ) -> path A s s' -> path B s s'.
  Proof. intros H. apply rtc_subrel. intros x y (κ & H1 & H2). eauto. Qed.
  (** what every elementary change keeps *)
  Lemma path_inv (A : kind -> Prop) (P : sta -> Prop) s s' :
    (forall κ s s', A κ -> mini κ s s' -> P s -> P s') -> path A s s' -> P s -> P s'.
  Proof. intros H. induction 1 as [|s1 s2 s3 (κ & H1 & H2) _ IH]; [done|]. intros HP. apply IH. by eapply H. Qed.
End trace.
