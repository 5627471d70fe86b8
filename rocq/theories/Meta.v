(** Model of the compile-time composition of policies: /repo/include/libhoard/detail/meta.h
    (type lists), the policy lists of detail/hashtable.h, and the demand of maintenance of
    detail/hashtable.ii. Types are values of an arbitrary type with decidable equality. *)
From Verif Require Import Base.

Section meta.
  Context {T : Type} `{EqDecision T}.

  (** meta.h:14-29; [acc] is the first parameter, [l] the pack *)
  Fixpoint tl_remove_all (acc : list T) (x : T) (l : list T) : list T :=
    match l with
    | [] => acc
    | y :: l => tl_remove_all (if bool_decide (x = y) then acc else acc ++ [y]) x l
    end.
  (** meta.h:32-45 *)
  Fixpoint tl_remove (acc : list T) (x : T) (l : list T) : list T :=
    match l with
    | [] => acc
    | y :: l => if bool_decide (x = y) then acc ++ l else tl_remove (acc ++ [y]) x l
    end.
  (** meta.h:48-61 *)
  Fixpoint tl_distinct (acc l : list T) : list T :=
    match l with
    | [] => acc
    | y :: l => if existsb (fun z => bool_decide (y = z)) acc then tl_distinct acc l else tl_distinct (acc ++ [y]) l
    end.
  (** meta.h:64-74 *)
  Fixpoint tl_extend (acc : list T) (ls : list (list T)) : list T :=
    match ls with [] => acc | l :: ls => tl_extend (acc ++ l) ls end.
  (** meta.h:77-87 *)
  Fixpoint tl_reverse (acc l : list T) : list T :=
    match l with [] => acc | y :: l => tl_reverse (y :: acc) l end.
  (** meta.h:90-103 *)
  Fixpoint tl_filter (acc : list T) (f : T -> bool) (l : list T) : list T :=
    match l with [] => acc | y :: l => tl_filter (if f y then acc ++ [y] else acc) f l end.
  (** meta.h:106-121 for one list to exclude *)
  Fixpoint tl_exclude (acc ex : list T) : list T :=
    match ex with [] => acc | y :: ex => tl_exclude (tl_remove_all [] y acc) ex end.
  (** meta.h:174-176 *)
  Definition tl_has (x : T) (l : list T) : bool := existsb (fun z => bool_decide (x = z)) l.

  (** ** hashtable.h *)
  (** Properties of policy types. The dependency relation of types is well-founded (otherwise the
      template instantiation does not end): [fuel] bounds its depth. *)
  Record policies := Policies {
    po_deps : T -> list T;                                        (** [Policy::dependencies] *)
    po_equal : T -> bool; po_hash : T -> bool; po_alloc : T -> bool; po_error : T -> bool;  (** has_equal, ... *)
    po_safe : T; po_unsafe : T;                                   (** thread_safe_policy, thread_unsafe_policy *)
    po_dequal : T; po_dhash : T; po_dalloc : T; po_derror : T     (** the defaults *)
  }.
  Context (P : policies).
  (** hashtable.h:36-55 [dependent_policies_] *)
  Fixpoint dependent (fuel : nat) (p : T) : list T :=
    match fuel with
    | O => []
    | S f => tl_extend [] [tl_extend [] (map (dependent f) (po_deps P p)); po_deps P p]
    end.
  (** hashtable.h:256 *)
  Definition policy_dependencies (fuel : nat) (us : list T) : list T :=
    tl_distinct [] (tl_exclude (tl_extend [] (map (dependent fuel) us)) us).
  (** hashtable.h:223-281 *)
  Definition all_policies (fuel : nat) (us : list T) : list T :=
    let deps := policy_dependencies fuel us in
    let threads := tl_has (po_safe P) us || tl_has (po_safe P) deps || tl_has (po_unsafe P) us || tl_has (po_unsafe P) deps in
    tl_extend []
      [ if threads then [] else [po_safe P];
        if existsb (po_alloc P) us then [] else [po_dalloc P];
        if existsb (po_equal P) us then [] else [po_dequal P];
        if existsb (po_hash P) us then [] else [po_dhash P];
        if existsb (po_error P) (tl_extend us [deps]) then [] else [po_derror P];
        deps;
        us ].
End meta.
Global Arguments policies _ : clear implicits.

(** hashtable.ii:144-161, 246-252 with meta.h:124-161: each policy's table base in turn; [None]: it has
    no [policy_removal_check_] *)
Fixpoint removal_check (max : nat) (demands : list (option nat)) : nat :=
  match demands with
  | [] => max
  | None :: l => removal_check max l
  | Some d :: l => removal_check (if bool_decide (max < d) then d else max) l
  end.
(** hashtable.ii:898-904: whether [lru_expire_] is called, and with what *)
Definition maintenance_demand (demands : list (option nat)) : option nat :=
  if existsb (fun d => bool_decide (is_Some d)) demands then Some (removal_check 0 demands) else None.
