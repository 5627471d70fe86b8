(** Outcomes of modelled C++ code, identifiers, small helpers. *)
From stdpp Require Export numbers gmap list.

(** Element identity: the address of a [value_type] object. *)
Notation eid := N (only parsing).

(** The outcome of running a piece of C++ code.
    [UB]   - undefined behaviour (null/dangling dereference, read of an uninitialised field, ...)
    [Term] - [std::terminate] is called
    [Fuel] - a modelled loop ran out of fuel (never happens; excluded by the theorems) *)
Inductive res (A : Type) : Type :=
| Ok (a : A)
| UB
| Term
| Fuel.
Global Arguments Ok {A} a.
Global Arguments UB {A}.
Global Arguments Term {A}.
Global Arguments Fuel {A}.

Definition rbind {A B} (m : res A) (f : A -> res B) : res B :=
  match m with
  | Ok a => f a
  | UB => UB
  | Term => Term
  | Fuel => Fuel
  end.
Notation "x <- y ;; z" := (rbind y (fun x => z))
  (at level 100, y at next level, z at level 200, right associativity).
Notation "' p <- y ;; z" := (rbind y (fun x => match x with p => z end))
  (at level 100, p pattern, y at next level, z at level 200, right associativity).

(** Dereference: [None] is a null or dangling pointer. *)
Definition deref {A} (o : option A) : res A :=
  match o with Some a => Ok a | None => UB end.
