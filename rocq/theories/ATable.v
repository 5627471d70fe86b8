(** Specification of the hash table on plain lists: a table is a list of buckets, each bucket the
    list of its elements in order. *)
From Verif Require Import Base.

(** bucket index of a hash value in a table of [n] buckets *)
Definition bidx (n : nat) (x : N) : nat :=
  match n with O => O | _ => N.to_nat (x mod N.of_nat n) end.

Definition at_elems (Bs : list (list N)) : list N := concat Bs.
Definition at_bucket (Bs : list (list N)) (idx : nat) : list N := default [] (Bs !! idx).

(** append an element to its bucket *)
Definition at_link (Bs : list (list N)) (hash : N) (e : N) : list (list N) :=
  alter (fun B => B ++ [e]) (bidx (length Bs) hash) Bs.
(** remove an element from whatever bucket it is in *)
Definition at_unlink (Bs : list (list N)) (e : N) : list (list N) :=
  map (filter (fun x => x <> e)) Bs.
(** distribute over [n] buckets, keeping relative order *)
Definition at_rehash (hf : N -> N) (n : nat) (Bs : list (list N)) : list (list N) :=
  map (fun b => filter (fun e => bidx n (hf e) = b) (concat Bs)) (seq 0 n).
