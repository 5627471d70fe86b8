(** The calls of the cache as threads (lemmas for PropertiesConcurrent.v). *)
From Verif Require Import Base LinkedList AQueue ATable BasicHashtable LinkedListProofs QueueProofs BasicHashtableProofs ContainersProofs Mapped Cache CachePtr CacheAbs CompSim CacheSim AbsInv AbsPrim AbsPrim2 AbsSweep AbsOps AbsComp Trace AbsTrace TraceInv Delay AbsTraceCb Histories AbsResolve AbsStep AbsLook Effects Observe Transfer Lookups Concurrency Linear Frame.

(** ** Specification (used in PropertiesConcurrent.v) *)
(** Calls that threads may make: those of [locked], and calls on callbacks. *)
Definition concurrent (o : op) : bool :=
  fine_op false o && (locked o || match o with OAssign _ _ _ | OFail _ _ _ | OCancel _ | ODropCb _ => true | _ => false end).
(** A callback that a thread completes or cancels is not touched by the others. *)
Definition apart (ps : list (list op)) : Prop :=
  forall t u l l' o o' i, ps !! t = Some l -> ps !! u = Some l' -> t <> u -> o ∈ l -> o' ∈ l' -> callback_of o = Some i -> touches i o' = false.

Section calls.
  Context (k : cfg) (Hk : fine_cfg k).
  Notation srel := (srel comp_abs comp_ptr crel).
  Notation top := (top k).
  Definition nice (s : cache) : Prop := m_up (me s) = true /\ wfc s /\ exists sa : sta, srel sa s /\ top sa.
  Lemma nice_wfc (sa : sta) (s : cache) : srel sa s -> top sa -> m_up (me s) = true -> nice s.
  Proof using.
    intros S T Hup. split; [done|]. split; [|by exists sa]. rewrite <-(srel_me _ _ S) in Hup. destruct (top_facts k sa T Hup) as (Hi & _ & _).
    intros j Hj. rewrite <-(srel_me _ _ S) in Hj |- *. destruct (m_cbs (me sa) !! j) as [c|] eqn:E; [|done].
    assert (j < m_ncb (me sa))%N; [|lia]. eapply i_ncb; [exact Hi|by rewrite E].
  Qed.
  Lemma nice_after l s : fine l -> after k l s -> m_up (me s) = true -> nice s.
  Proof using Hk. intros Hf Ha Hup. destruct (after_abs k Hk l s Hf Ha) as (sa & _ & S & T & _). by eapply nice_wfc. Qed.
  Lemma nice_step o s : nice s -> fine_op false o = true -> o <> ODestroy -> exists s' r, step k false o s = Ok (s', r) /\ nice s'.
  Proof using Hk.
    intros (Hup & _ & sa & S & T) Hf Hd. rewrite <-(srel_me _ _ S) in Hup.
    destruct (top_step k Hk o sa T Hf) as (sa' & r & E & T' & _ & _ & Hu & _). destruct (Hu Hup Hd) as [Hup' _].
    destruct (step_c k o false sa sa' r s S E) as (s' & E' & S'). exists s', r. split; [done|]. eapply nice_wfc; [done|done|]. by rewrite <-(srel_me _ _ S').
  Qed.

  Lemma all_guarded (bd : op -> prog cache ret) s0 ps sched :
    (forall o, locked o = true -> guarded (bd o)) ->
    (forall o s s' r, locked o = true -> step k false o s = Ok (s', r) -> exec (bd o) s = Ok (s', r)) ->
    nice s0 -> Forall (Forall (fun o => fine_op false o = true /\ locked o = true)) ps ->
    exists c, play bd sched (start s0 ps) = Ok c /\
      (exists lin s, looks_like (step k false) s0 ps c lin s) /\
      (exists sched' c', play bd sched' c = Ok c' /\ finished c').
  Proof using Hk.
    intros Hgu Hex Hs Hps.
    apply (linearizable bd (fun _ => None) (step k false) nice (fun o => fine_op false o = true /\ locked o = true)); try done.
    - intros o s Hn [Hf Hl]. destruct (nice_step o s Hn Hf) as (s' & r & E & Hn'); [by intros ->|]. eauto 6.
    - intros o [_ Hl]. by apply Hgu.
    - by intros t l o V s _ _ (u & l' & o' & _ & _ & _ & ?).
  Qed.

  (** ** Callbacks *)
  Definition eye (o : op) : option (cache -> bool) := option_map (fun i s => called s i) (callback_of o).
  Lemma locked_step o i (s : cache) : callback_of o = Some i -> m_up (me s) = true -> called s i = false -> locked_part k o s = step k false o s.
  Proof using.
    intros Ho Hup Hc. rewrite step_eq. unfold step_with, locked_part. rewrite Hup. simpl. unfold called in Hc.
    destruct o; try done; injection Ho as ->; unfold cb_assign, cb_fail, cb_cancel; destruct (m_cbs (me s) !! i) as [c|]; try done; rewrite Hc, ?Hup; try done.
    simpl. by destruct (el_cancel s (cb_el c)).
  Qed.
  Lemma called_step o i (s : cache) : callback_of o = Some i -> m_up (me s) = true -> called s i = true -> step k false o s = Ok (s, RetBool false).
  Proof using.
    intros Ho Hup Hc. rewrite step_eq. unfold step_with. rewrite Hup. simpl. unfold called in Hc.
    destruct o; try done; injection Ho as ->; unfold cb_assign, cb_fail, cb_cancel; destruct (m_cbs (me s) !! i) as [c|]; try done; by rewrite Hc.
  Qed.
  Lemma hold_exec o (s : cache) : exec (hold k o) s = locked_part k o s.
  Proof using. simpl. by destruct (locked_part k o s) as [[s' r]| | |]. Qed.
  Lemma call_exec o (s : cache) : m_up (me s) = true -> exec (call k o) s = step k false o s.
  Proof using.
    intros Hup. unfold call. destruct (callback_of o) as [i|] eqn:Ho.
    - simpl. destruct (called s i) eqn:Hc.
      + simpl. symmetry. by apply (called_step o i).
      + rewrite <-(locked_step o i s Ho Hup Hc). apply hold_exec.
    - rewrite hold_exec. by destruct o.
  Qed.
  Lemma concurrent_fine o : concurrent o = true -> fine_op false o = true /\ o <> ODestroy.
  Proof using. unfold concurrent. intros [? ?]%andb_true_iff. split; [done|]. by intros ->. Qed.
  Lemma hold_steady o i (s : cache) : nice s -> concurrent o = true -> touches i o = false ->
    (forall s' r, locked_part k o s = Ok (s', r) -> step k false o s = Ok (s', r)) -> steady (fun s => called s i) (hold k o) s.
  Proof using.
    intros (_ & W & _) Ho Ht Hl. simpl. intros s' r E. split; [|done]. apply Hl in E. apply concurrent_fine in Ho as [Hf Hd].
    by destruct (step_f k i o false Hf Ht (or_introl Hd) s s' r E W) as (_ & ? & _).
  Qed.
  Lemma call_steady o i (s : cache) : nice s -> concurrent o = true -> touches i o = false -> steady (fun s => called s i) (call k o) s.
  Proof using.
    intros Hn Ho Ht. unfold call. destruct (callback_of o) as [j|] eqn:Ej.
    - intros s' b E. injection E as <- <-. split; [done|]. destruct (called s j) eqn:Hc; [done|].
      apply hold_steady; [done|done|done|]. intros s' r E. rewrite (locked_step o j s Ej) in E; [done|apply Hn|done].
    - apply hold_steady; [done|done|done|]. intros s' r E. by destruct o.
  Qed.
  Lemma all_calls s0 ps sched : nice s0 -> Forall (Forall (fun o => concurrent o = true)) ps -> apart ps ->
    exists c, play (call k) sched (start s0 ps) = Ok c /\
      (exists lin s, looks_like (step k false) s0 ps c lin s) /\
      (exists sched' c', play (call k) sched' c = Ok c' /\ finished c').
  Proof using Hk.
    intros Hs Hps Hap.
    apply (linearizable (call k) eye (step k false) nice (fun o => concurrent o = true)); try done.
    - intros o s Hn Ho. destruct (concurrent_fine o Ho) as [Hf Hd]. destruct (nice_step o s Hn Hf Hd) as (s' & r & E & Hn'). exists s', r.
      split; [done|]. split; [|done]. rewrite call_exec; [done|apply Hn].
    - intros o Ho. unfold eye, call, peeks. assert (guarded (hold (C := comp_ptr) k o)) as Hg.
      { eexists. split; [reflexivity|]. simpl. split; [lia|done]. }
      destruct (callback_of o) as [i|]; simpl; [|done]. eexists. split; [reflexivity|]. intros []; [left; by eexists|by right].
    - intros t l o V s Hl Ho (u & l' & o' & Hut & Hl' & Ho' & HV) Hn. unfold eye in HV. destruct (callback_of o') as [i|] eqn:Ei; [|done].
      injection HV as <-. apply call_steady; [done| |by eapply (Hap u t l' l o' o)].
      eapply Forall_lookup_1 in Hps; [|exact Hl]. exact (proj1 (Forall_forall _ _) Hps o Ho).
  Qed.
End calls.
