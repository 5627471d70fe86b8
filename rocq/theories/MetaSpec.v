(** Specification of C36: list operations, dependencies of policies, defaults. *)
From Verif Require Import Base Meta.
Section spec.
  Context {T : Type} `{EqDecision T}.
  (** without the first occurrence of [x] *)
  Fixpoint rm_first (x : T) (l : list T) : list T :=
    match l with [] => [] | y :: l => if decide (x = y) then l else y :: rm_first x l end.
  (** the first occurrences, in order, of what is not in [seen] *)
  Fixpoint firsts (seen l : list T) : list T :=
    match l with [] => [] | y :: l => if decide (y ∈ seen) then firsts seen l else y :: firsts (y :: seen) l end.
  Definition count_of (q : T) (l : list T) : nat := length (filter (fun x => x = q) l).

  Context (P : policies T).
  (** [q] is a direct or indirect dependency of [p] *)
  Inductive needs : T -> T -> Prop :=
  | needs_direct p q : q ∈ po_deps P p -> needs p q
  | needs_trans p q r : q ∈ po_deps P p -> needs q r -> needs p r.
  (** [n] bounds the depth of the dependency chains from [p] *)
  Inductive depth : nat -> T -> Prop :=
  | Depth n p : (forall q, q ∈ po_deps P p -> depth n q) -> depth (S n) p.
  (** the user listed [q], or something the user listed needs it *)
  Definition chosen (us : list T) (q : T) : Prop := q ∈ us \/ exists p, p ∈ us /\ needs p q.
  (** the default policies that go with the user's *)
  Definition defaults (us : list T) (l : list T) : Prop := exists ts al eq ha er,
    l = ts ++ al ++ eq ++ ha ++ er /\
    (ts = [po_safe P] /\ ~ chosen us (po_safe P) /\ ~ chosen us (po_unsafe P) \/ ts = [] /\ (chosen us (po_safe P) \/ chosen us (po_unsafe P))) /\
    (al = [po_dalloc P] /\ (forall p, p ∈ us -> po_alloc P p = false) \/ al = [] /\ exists p, p ∈ us /\ po_alloc P p = true) /\
    (eq = [po_dequal P] /\ (forall p, p ∈ us -> po_equal P p = false) \/ eq = [] /\ exists p, p ∈ us /\ po_equal P p = true) /\
    (ha = [po_dhash P] /\ (forall p, p ∈ us -> po_hash P p = false) \/ ha = [] /\ exists p, p ∈ us /\ po_hash P p = true) /\
    (er = [po_derror P] /\ (forall p, chosen us p -> po_error P p = false) \/ er = [] /\ exists p, chosen us p /\ po_error P p = true).
End spec.
