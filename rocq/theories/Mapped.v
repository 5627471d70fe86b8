(** Model of the value state machines: pending lookups, plain mapped values and mapped pointers
    (/repo/include/libhoard/detail/pending.ii, mapped_type.ii).
    Values, errors and keys are integers; 0 is the default-constructed value / error, and the only
    error whose conversion to [bool] is false. *)
From Verif Require Import Base.

(** A callback stored in [pending::cbq_]: a user's completion callback (waiter [w], added by
    hashtable.ii:625-638), or the lambda of refresh_impl_policy.ii:70-74, which captures the raw
    pointer of the new element and a counted pointer to the old one. *)
Inductive pcb := PWait (w : N) | PRefresh (new old : N).
Global Instance pcb_eq_dec : EqDecision pcb.
Proof. solve_decision. Defined.

(** pending.h: [cbq_], [expired_], [weakened_] *)
Record pend := Pend { p_cbq : list pcb; p_exp : bool; p_weak : bool }.
(** pending.ii:8-13 *)
Definition pend_init : pend := Pend [] false false.
(** pending.ii:16-18 [add_callback] *)
Definition p_add (p : pend) (cb : pcb) : pend := Pend (p_cbq p ++ [cb]) (p_exp p) (p_weak p).
(** pending.ii:55-57 [weaken] *)
Definition p_weaken (p : pend) : pend := Pend (p_cbq p) (p_exp p) true.
(** pending.ii:60-64 [strengthen] *)
Definition p_strengthen (p : pend) : pend * bool :=
  if p_exp p then (p, false) else (Pend (p_cbq p) (p_exp p) false, true).
(** pending.ii:73-75 [mark_expired] *)
Definition p_mark_expired (p : pend) : pend := Pend (p_cbq p) true (p_weak p).
(** pending.ii:67-70 [cancel]; the destroyed callbacks are the caller's business *)
Definition p_cancel (p : pend) : pend := Pend [] true (p_weak p).

(** The variant [value_]. mapped_value: 0 [MPend], 1 [MVal], 2 [MExp], 3 [MErr];
    mapped_pointer: 0 [MPend], 1 [MVal] (strong), 2 [MWeak] ([None] is the empty weak pointer),
    3 [MErr] (alternative 4 only exists for weak pointers that are not nothrow default
    constructible). [MNone] is the valueless variant left by a throwing [emplace]. *)
Inductive mapped :=
| MPend (p : pend)
| MVal (v : Z)
| MWeak (o : option Z)
| MErr (x : Z)
| MExp
| MNone.

(** The variant returned by [get]: 0 monostate, 1 value, 2 error, 3 pending pointer. *)
Inductive mres := R0 | RV (v : Z) | RE (x : Z) | RP.

Section mapped.
  (** [ptr]: mapped_pointer instead of mapped_value. [alive v]: a weak pointer to object [v] can
      still be locked. *)
  Context (ptr : bool) (alive : Z -> bool).

  (** mapped_type.ii:89-91, 336-338 [pending] *)
  Definition m_pending (m : mapped) : bool := match m with MPend _ => true | _ => false end.

  (** The state entered by expiring a settled value: 55, 104 (alternative [expired_t]) for values;
      270, 352 (empty weak pointer) for pointers. *)
  Definition m_dead : mapped := if ptr then MWeak None else MExp.

  (** mapped_type.ii:51-62 and 266-292 [weaken] *)
  Definition m_weaken (m : mapped) : mapped :=
    match m with
    | MPend p => MPend (p_weaken p)
    | MVal v => if ptr then MWeak (Some v) else MExp
    | MWeak o => MWeak o
    | MErr _ => m_dead
    | MExp => MExp
    | MNone => if ptr then MNone else MExp
    end.

  (** mapped_type.ii:65-74 and 295-318 [strengthen] *)
  Definition m_strengthen (m : mapped) : mapped * bool :=
    match m with
    | MPend p => let '(p, b) := p_strengthen p in (MPend p, b)
    | MVal v => (MVal v, true)
    | MWeak (Some v) => if alive v then (MVal v, true) else (MWeak (Some v), false)
    | MWeak None => (MWeak None, false)
    | MErr x => (MErr x, true)
    | MExp => (MExp, false)
    | MNone => (MNone, negb ptr)
    end.

  (** mapped_type.ii:77-86 and 321-333 [expired] *)
  Definition m_expired (m : mapped) : bool :=
    match m with
    | MPend p => p_exp p
    | MVal _ | MErr _ => false
    | MWeak (Some v) => negb (alive v)
    | MWeak None => true
    | MExp => true
    | MNone => ptr
    end.

  (** mapped_type.ii:100-109 and 347-356 [mark_expired] *)
  Definition m_mark_expired (m : mapped) : mapped :=
    match m with MPend p => MPend (p_mark_expired p) | _ => m_dead end.

  (** mapped_type.ii:112-119 and 359-373 [holds_error], [holds_value] *)
  Definition m_holds_error (m : mapped) : bool := match m with MErr _ => true | _ => false end.
  Definition m_holds_value (m : mapped) : bool :=
    match m with
    | MVal _ => true
    | MWeak (Some v) => alive v
    | _ => false
    end.

  (** mapped_type.ii:136-163 and 396-431 [get]; [pend] is [include_pending] *)
  Definition m_get (pend : bool) (m : mapped) : mres :=
    match m with
    | MPend _ => if pend then RP else R0
    | MVal v => RV v
    | MWeak (Some v) => if alive v then RV v else R0
    | MErr x => RE x
    | _ => R0
    end.

  (** mapped_type.ii:37 and 232-243: the end of [assign], after the callbacks have run, given the
      flags of the pending object that was moved out. Pointers: [std::get<1>(value_)] in a function
      that is noexcept for nothrow pointers, so [std::terminate] if a callback changed the state. *)
  Definition m_settle (p : pend) (m : mapped) : res mapped :=
    if ptr then
      if p_exp p then Ok (MWeak None)
      else if p_weak p then match m with MVal v => Ok (MWeak (Some v)) | _ => Term end
      else Ok m
    else Ok (if p_exp p || p_weak p then MExp else m).
  (** mapped_type.ii:44-47 and 250-262: the end of [assign_error]; the pending object is still in place *)
  Definition m_settle_error (x : Z) (p : pend) : mapped :=
    if p_exp p || p_weak p then m_dead else MErr x.
End mapped.
