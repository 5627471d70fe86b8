(** Specification of the LRU queue on plain lists: (hot elements, cold elements), most recent first. *)
From Verif Require Import Base.

Definition rm (v : N) (l : list N) : list N := filter (fun x => x <> v) l.

(** odd number of elements: the cold half has one more *)
Definition aq_odd (q : list N * list N) : bool := bool_decide (length q.1 < length q.2).

(** The halves are balanced, the cold one being the larger. *)
Definition aq_balanced (q : list N * list N) : Prop :=
  length q.2 = length q.1 \/ length q.2 = S (length q.1).

Definition aq_elems (q : list N * list N) : list N := q.1 ++ q.2.

(** Insert a new element at the front of the cold half; if the number was odd the former first
    cold element becomes hot (and is reported, for strengthening). *)
Definition aq_create (q : list N * list N) (v : N) : (list N * list N) * option N :=
  if aq_odd q then
    match q.2 with
    | c :: cs => ((q.1 ++ [c], v :: cs), Some c)
    | [] => ((q.1, [v]), None)
    end
  else ((q.1, v :: q.2), None).

(** A hit moves the element to the very front; if it was cold, the last hot element becomes cold. *)
Definition aq_hit (q : list N * list N) (v : N) : list N * list N :=
  if bool_decide (v ∈ q.1) then (v :: rm v q.1, q.2)
  else
    match last q.1 with
    | None => ([], v :: rm v q.2)
    | Some x => (v :: removelast q.1, x :: rm v q.2)
    end.

(** Removal, rebalancing the halves. *)
Definition aq_unlink (q : list N * list N) (v : N) : list N * list N :=
  if bool_decide (v ∈ q.1) then
    if aq_odd q then
      match q.2 with
      | c :: cs => (rm v q.1 ++ [c], cs)
      | [] => (rm v q.1, [])
      end
    else (rm v q.1, q.2)
  else
    if aq_odd q then (q.1, rm v q.2)
    else
      match last q.1 with
      | Some x => (removelast q.1, x :: rm v q.2)
      | None => (q.1, rm v q.2)
      end.

(** The [n] coldest cold elements, coldest first. *)
Definition aq_victims (q : list N * list N) (n : nat) : list N := take n (reverse q.2).
