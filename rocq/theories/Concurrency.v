(** Model of several threads that use one cache. thread_safe_policy.ii forwards [lock] and [unlock] to
    one std::recursive_mutex; the members of cache.h:35-92, cache_get.h:25-39 and resolver_policy.ii:103-148
    hold it through a std::lock_guard from the first to the last statement. *)
From Verif Require Import Base Mapped Cache Histories.

(** ** Threads *)
(** What a thread does in a call: accesses to the shared state (one atomic step each, as small as one
    likes; between any two of them other threads may run), [lock] and [unlock]. *)
Inductive prog (S R : Type) : Type :=
| PRet (r : R)                                                   (** the call returns *)
| PAcq (p : prog S R)                                            (** thread_safe_policy.ii:11-13 *)
| PRel (p : prog S R)                                            (** thread_safe_policy.ii:19-21 *)
| PAct {A : Type} (f : S -> res (S * A)) (c : A -> prog S R).
Global Arguments PRet {S R}.
Global Arguments PAcq {S R}.
Global Arguments PRel {S R}.
Global Arguments PAct {S R A}.

(** the call alone *)
Fixpoint exec {S R : Type} (p : prog S R) (s : S) : res (S * R) :=
  match p with
  | PRet r => Ok (s, r)
  | PAcq p | PRel p => exec p s
  | PAct f c => '(s, a) <- f s;; exec (c a) s
  end.

(** Calls and returns, in the order in which they happen: call number [n] of thread [t]. *)
Inductive hev (O R : Type) : Type := HInv (t n : nat) (o : O) | HRes (t n : nat) (r : R).
Global Arguments HInv {O R}.
Global Arguments HRes {O R}.
(** A thread: calls still to be made, the rest of the call it is in, number of calls begun. *)
Record thread (S O R : Type) : Type := Th { t_todo : list O; t_cur : option (prog S R); t_n : nat }.
Global Arguments Th {S O R}.
Global Arguments t_todo {S O R}.
Global Arguments t_cur {S O R}.
Global Arguments t_n {S O R}.
(** The owner of a recursive mutex has locked it one or more times. *)
Record conf (S O R : Type) : Type := Conf { c_sh : S; c_owner : option (nat * nat); c_ths : list (thread S O R); c_hist : list (hev O R) }.
Global Arguments Conf {S O R}.
Global Arguments c_sh {S O R}.
Global Arguments c_owner {S O R}.
Global Arguments c_ths {S O R}.
Global Arguments c_hist {S O R}.

Section machine.
  Context {S O R : Type} (body : O -> prog S R).
  Definition start (s : S) (ps : list (list O)) : conf S O R := Conf s None (map (fun l => Th l None 0) ps) [].
  Definition put (c : conf S O R) (t : nat) (th : thread S O R) : list (thread S O R) := <[t := th]> (c_ths c).
  (** one step of thread [t]; nothing happens if it cannot move *)
  Definition tick (t : nat) (c : conf S O R) : res (conf S O R) :=
    match c_ths c !! t with
    | None => Ok c
    | Some th =>
      match t_cur th with
      | None =>
        match t_todo th with
        | [] => Ok c
        | o :: l => Ok (Conf (c_sh c) (c_owner c) (put c t (Th l (Some (body o)) (1 + t_n th))) (c_hist c ++ [HInv t (t_n th) o]))
        end
      | Some (PRet r) => Ok (Conf (c_sh c) (c_owner c) (put c t (Th (t_todo th) None (t_n th))) (c_hist c ++ [HRes t (t_n th - 1) r]))
      | Some (PAcq p) =>
        let go d := Ok (Conf (c_sh c) (Some (t, d)) (put c t (Th (t_todo th) (Some p) (t_n th))) (c_hist c)) in
        match c_owner c with
        | None => go 1
        | Some (u, d) => if bool_decide (u = t) then go (1 + d) else Ok c
        end
      | Some (PRel p) =>
        match c_owner c with
        | Some (u, d) =>
          if bool_decide (u = t)
          then Ok (Conf (c_sh c) (if bool_decide (d = 1) then None else Some (t, d - 1)) (put c t (Th (t_todo th) (Some p) (t_n th))) (c_hist c))
          else UB  (* [thread.mutex.recursive]: only the owner may unlock *)
        | None => UB
        end
      | Some (PAct f q) =>
        '(s, a) <- f (c_sh c);;
        Ok (Conf s (c_owner c) (put c t (Th (t_todo th) (Some (q a)) (t_n th))) (c_hist c))
      end
    end.
  (** a schedule says which thread makes the next step *)
  Fixpoint play (sched : list nat) (c : conf S O R) : res (conf S O R) :=
    match sched with [] => Ok c | t :: l => c <- tick t c;; play l c end.

  (** ** Specification *)
  Definition finished (c : conf S O R) : Prop := forall t th, c_ths c !! t = Some th -> t_cur th = None /\ t_todo th = [].
  (** The body of a lock_guard: everything happens while the lock is held [d] times, and after the last
      [unlock] the call returns. *)
  Fixpoint crit (d : nat) (p : prog S R) : Prop :=
    match p with
    | PRet _ => d = 0
    | PAcq p => 0 < d /\ crit (1 + d) p
    | PRel p => match d with 0 => False | Datatypes.S d => crit d p end
    | PAct _ c => 0 < d /\ forall a, crit d (c a)
    end.
  Definition guarded (p : prog S R) : Prop := exists q, p = PAcq q /\ crit 1 q.
  Definition before {X : Type} (l : list X) (x y : X) : Prop := exists l1 l2 l3, l = l1 ++ x :: l2 ++ y :: l3.
  (** [lin]: calls [((thread, number), (operation, result))] in an order in which [run1] could have made
      them one after the other, from [s] to [s'] *)
  Inductive in_turn (run1 : O -> S -> res (S * R)) : S -> list (nat * nat * (O * R)) -> S -> Prop :=
  | in_turn_nil s : in_turn run1 s [] s
  | in_turn_snoc s lin s1 i o r s2 : in_turn run1 s lin s1 -> run1 o s1 = Ok (s2, r) -> in_turn run1 s (lin ++ [(i, (o, r))]) s2.
  (** What happened so far looks as if the calls in [lin] had been made one after the other. *)
  Record looks_like (run1 : O -> S -> res (S * R)) (s0 : S) (ps : list (list O)) (c : conf S O R) (lin : list (nat * nat * (O * R))) (s : S) : Prop := {
    (** results, and the state when nobody holds the lock *)
    ll_turn : in_turn run1 s0 lin s;
    ll_state : c_owner c = None -> c_sh c = s;
    (** no call twice; only calls that have begun; all calls that have returned, with their results *)
    ll_once : NoDup (map fst lin);
    ll_begun t n o r : ((t, n), (o, r)) ∈ lin -> (exists l, ps !! t = Some l /\ l !! n = Some o) /\ HInv t n o ∈ c_hist c;
    ll_returned t n r : HRes t n r ∈ c_hist c -> exists o, ((t, n), (o, r)) ∈ lin;
    (** a call that returned before another one began comes first *)
    ll_order t n r t' n' o' : before (c_hist c) (HRes t n r) (HInv t' n' o') -> (t', n') ∈ map fst lin -> before (map fst lin) (t, n) (t', n');
    (** calls of a thread return before the next one begins; in the end all calls have returned *)
    ll_thread t n n' o : HInv t n o ∈ c_hist c -> n' < n -> exists r, before (c_hist c) (HRes t n' r) (HInv t n o);
    ll_all : finished c -> forall t l n o, ps !! t = Some l -> l !! n = Some o -> exists r, HRes t n r ∈ c_hist c
  }.
End machine.

(** ** Calls of the cache *)
(** Operations that hold the lock all the time. [OTick]: a round of the refresh thread
    (refresh_policy.ii:98-123), which holds the lock whenever it does not wait. [OAdvance], [ORelease]:
    the environment. Simplified: time stands still, and the user drops no pointer, during a call. *)
Definition locked (o : op) : bool :=
  match o with
  | OAdvance _ _ | ORelease _ | OGetIf _ | OGet _ _ _ | OAGet _ _ _ _ _ _ | OEmplace _ _ | OEmplaceThrow _ | OGetOrEmplace _ _ | OErase _ | OClear | OTick _ => true
  | _ => false
  end.
(** Operations that look at a callback before they take the lock. *)
Definition callback_of (o : op) : option N :=
  match o with OAssign i _ _ | OFail i _ _ | OCancel i => Some i | _ => None end.
Section callbacks.
  Context {C : comp} (k : cfg).
  Notation st := (@st C).
  (** async_resolver_callback.h:79 *)
  Definition called (s : st) (i : N) : bool := match m_cbs (me s) !! i with Some c => cb_called c | None => false end.
  Definition set_called (s : st) (i : N) (c : cbk) : st :=
    with_me s (set_cbs (me s) (<[i := Cbk (cb_el c) true (cb_own c) (cb_kept c)]> (m_cbs (me s)))).
  (** What the calls do while they hold the lock; [called] is not looked at again. Simplified: the cache
      exists as long as the threads run; [cancel] (async_resolver_callback.h:62-73) sets [called] just
      after the unlock, here just before; the destructor of a callback is one step. *)
  Definition locked_part (o : op) (s : st) : res (st * ret) :=
    match o with
    | OAssign i v us =>  (* async_resolver_callback.h:35-39 *)
      match m_cbs (me s) !! i with
      | None => Ok (s, RetNone)  (* no such callback *)
      | Some c =>
        if holds k s v then
          o <- el_assign k s (cb_el c) v (map (run_nested k) us);;
          match o with
          | None => Ok (s, RetThrew)
          | Some s =>
            s <- on_assign_ k s (cb_el c) true;;
            c <- deref (m_cbs (me s) !! i);;
            Ok (set_called s i c, RetBool true)
          end
        else Ok (s, RetNone)
      end
    | OFail i x us =>  (* async_resolver_callback.h:51-55 *)
      match m_cbs (me s) !! i with
      | None => Ok (s, RetNone)
      | Some c =>
        s <- el_fail k s (cb_el c) x (map (run_nested k) us);;
        s <- on_assign_ k s (cb_el c) false;;
        c <- deref (m_cbs (me s) !! i);;
        Ok (set_called s i c, RetBool true)
      end
    | OCancel i =>  (* async_resolver_callback.h:65-72 *)
      match m_cbs (me s) !! i with
      | None => Ok (s, RetNone)
      | Some c => s <- el_cancel s (cb_el c);; Ok (set_called s i c, RetBool true)
      end
    | _ => step k false o s
    end.
  Definition hold (o : op) : prog st ret := PAcq (PAct (locked_part o) (fun r => PRel (PRet r))).
  (** async_resolver_callback.h:31-33, 47-49, 63-65: [if (called) return false;] without the lock *)
  Definition call (o : op) : prog st ret :=
    match callback_of o with
    | Some i => PAct (fun s => Ok (s, called s i)) (fun b : bool => if b then PRet (RetBool false) else hold o)
    | None => hold o
    end.
End callbacks.
