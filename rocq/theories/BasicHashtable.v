(** Model of the intrusive hash table
    (/repo/include/libhoard/detail/basic_hashtable.h, basic_hashtable.ii). *)
From Verif Require Import Base.

(** An [element_ptr*]: the address of a table's [head_] ([SHead i], table object [i]) or of the
    [successor_] field of an element ([SSucc e]).  (basic_hashtable.h:112-138) *)
Inductive slot := SHead (i : N) | SSucc (e : N).
Global Instance slot_eq_dec : EqDecision slot.
Proof. solve_decision. Defined.

(** The fields of the elements. Both maps have an entry for every existing element object.
    basic_hashtable.h:119-138: [successor_ = nullptr] and [hash_] ([hash_] is only read after
    [link_] has written it; the model starts it at 0 like the member initialiser). *)
Record eheap := MkEHeap {
  e_succ : gmap N (option N);
  e_hash : gmap N N
}.
Definition eheap_init : eheap := MkEHeap ∅ ∅.
(** construction / destruction of a [basic_hashtable_element] *)
Definition e_alloc (h : eheap) (e : N) : eheap :=
  MkEHeap (<[e := None]> (e_succ h)) (<[e := 0%N]> (e_hash h)).
Definition e_free (h : eheap) (e : N) : eheap :=
  MkEHeap (delete e (e_succ h)) (delete e (e_hash h)).

(** basic_hashtable.h:112-115: [head_], [buckets_], [bucket_count_], [size_].
    [buckets_]/[bucket_count_] are one list here. [t_id] names the table object (the address of its [head_]). *)
Record table := MkTable {
  t_id : N;
  t_head : option N;
  t_buckets : list slot;
  t_size : nat
}.
Definition table_init (i : N) : table := MkTable i None [] 0.

Definition bucket_count (t : table) : nat := length (t_buckets t).

(** [*s] and [*s = v] for an [element_ptr*]; a head of another table object is not accessible. *)
Definition rd_slot (t : table) (h : eheap) (s : slot) : res (option N) :=
  match s with
  | SHead i => if bool_decide (i = t_id t) then Ok (t_head t) else UB
  | SSucc e => deref (e_succ h !! e)
  end.
Definition wr_succ (h : eheap) (e : N) (v : option N) : res eheap :=
  _ <- deref (e_succ h !! e);; Ok (MkEHeap (<[e := v]> (e_succ h)) (e_hash h)).
Definition wr_slot (t : table) (h : eheap) (s : slot) (v : option N) : res (table * eheap) :=
  match s with
  | SHead i => if bool_decide (i = t_id t) then Ok (MkTable (t_id t) v (t_buckets t) (t_size t), h) else UB
  | SSucc e => h <- wr_succ h e v;; Ok (t, h)
  end.

(** basic_hashtable.ii:31-33 [is_hashtable_linked] *)
Definition is_hashtable_linked (h : eheap) (e : N) : res bool :=
  s <- deref (e_succ h !! e);; Ok (bool_decide (is_Some s)).

(** basic_hashtable.ii:35-37 [empty] *)
Definition ht_empty (t : table) : bool := bool_decide (t_head t = None).

(** basic_hashtable.ii:215-221 [bucket_for] *)
Definition bucket_for_hash (t : table) (hash : N) : nat :=
  match bucket_count t with
  | O => O
  | n => N.to_nat (hash mod N.of_nat n)
  end.
Definition bucket_for_elem (t : table) (h : eheap) (e : N) : res nat :=
  x <- deref (e_hash h !! e);; Ok (bucket_for_hash t x).

(** basic_hashtable.ii:106-128 [before_begin()], [before_end()] *)
Definition before_begin_all (t : table) : slot := SHead (t_id t).
Definition before_end_all (t : table) : res slot :=
  match bucket_count t with
  | O => Ok (SHead (t_id t))
  | S n => deref (t_buckets t !! n)
  end.
(** basic_hashtable.ii:154-176 [before_begin(idx)], [before_end(idx)] *)
Definition before_begin (t : table) (idx : nat) : res slot :=
  match idx with
  | O => Ok (SHead (t_id t))
  | S i => deref (t_buckets t !! i)
  end.
Definition before_end (t : table) (idx : nat) : res slot :=
  match bucket_count t with
  | O => Ok (SHead (t_id t))
  | _ => deref (t_buckets t !! idx)
  end.
(** basic_hashtable.ii:240-243 [iterator::operator++]; [None] is the null iterator (= end()). *)
Definition iter_next (t : table) (h : eheap) (s : slot) : res (option slot) :=
  o <- rd_slot t h s;; Ok (match o with None => None | Some e => Some (SSucc e) end).
(** basic_hashtable.ii:251-257 [iterator::operator*]: an iterator to element [e] is [&e->successor_];
    the head is not an element. *)
Definition iter_elem (s : option slot) : res N :=
  match s with Some (SSucc e) => Ok e | _ => UB end.
(** basic_hashtable.ii:130-152 [begin(idx)], [end(idx)] *)
Definition begin_bucket (t : table) (h : eheap) (idx : nat) : res (option slot) :=
  s <- before_begin t idx;; iter_next t h s.
Definition end_bucket (t : table) (h : eheap) (idx : nat) : res (option slot) :=
  s <- before_end t idx;; iter_next t h s.

(** The loop shared by [link_] (185-186), [rehash_] (204-205) and [unlink_] (228-229):
    [for (i = buckets_ + idx; i != e && *i == old; ++i) *i = new;] *)
Fixpoint retarget (old new : slot) (bs : list slot) : list slot :=
  match bs with
  | [] => []
  | b :: r => if bool_decide (b = old) then new :: retarget old new r else bs
  end.
Definition retarget_from (idx : nat) (old new : slot) (bs : list slot) : list slot :=
  take idx bs ++ retarget old new (drop idx bs).

Definition with_buckets (t : table) (bs : list slot) : table :=
  MkTable (t_id t) (t_head t) bs (t_size t).
Definition with_size (t : table) (n : nat) : table :=
  MkTable (t_id t) (t_head t) (t_buckets t) n.

(** basic_hashtable.ii:182-186 = 201-205: append [elem] at the end of bucket [idx] *)
Definition append_bucket (t : table) (h : eheap) (idx : nat) (elem : N) : res (table * eheap * slot) :=
  bucket_last <- deref (t_buckets t !! idx);;
  o <- rd_slot t h bucket_last;;
  h <- wr_succ h elem o;;
  '(t, h) <- wr_slot t h bucket_last (Some elem);;
  Ok (with_buckets t (retarget_from idx bucket_last (SSucc elem) (t_buckets t)), h, bucket_last).

(** basic_hashtable.ii:178-190 [link_]; the returned iterator is the predecessor slot *)
Definition ht_link_ (t : table) (h : eheap) (hash : N) (elem : N) : res (table * eheap * slot) :=
  let bucket_idx := bucket_for_hash t hash in
  _ <- deref (e_hash h !! elem);;
  let h := MkEHeap (e_succ h) (<[elem := hash]> (e_hash h)) in
  '(t, h, s) <- append_bucket t h bucket_idx elem;;
  Ok (with_size t (S (t_size t)), h, s).

(** basic_hashtable.ii:197-206, the loop of [rehash_] *)
Fixpoint rehash_loop (fuel : nat) (t : table) (h : eheap) (pending : option N) : res (table * eheap) :=
  match pending with
  | None => Ok (t, h)
  | Some elem =>
    match fuel with
    | O => Fuel
    | S f =>
      nxt <- deref (e_succ h !! elem);;
      idx <- bucket_for_elem t h elem;;
      '(t, h, _) <- append_bucket t h idx elem;;
      rehash_loop f t h nxt
    end
  end.
(** basic_hashtable.ii:192-209 and 417-427 [rehash_] (allocation always succeeds in the model) *)
Definition ht_rehash (t : table) (h : eheap) (n : nat) : res (table * eheap) :=
  let t' := MkTable (t_id t) None (replicate n (SHead (t_id t))) (t_size t) in
  rehash_loop (size (e_succ h)) t' h (t_head t).

(** basic_hashtable.ii:223-233 [unlink_] (73-75 [unlink]) *)
Definition ht_unlink (t : table) (h : eheap) (pred : slot) : res (table * eheap * N) :=
  o <- rd_slot t h pred;;
  e <- deref o;;
  idx <- bucket_for_elem t h e;;
  s <- deref (e_succ h !! e);;
  h <- wr_succ h e None;;
  '(t, h) <- wr_slot t h pred s;;
  let t := with_buckets t (retarget_from idx (SSucc e) pred (t_buckets t)) in
  Ok (with_size t (Nat.pred (t_size t)), h, e).

(** basic_hashtable.ii:51-55 [clear] *)
Definition ht_clear (t : table) : table :=
  MkTable (t_id t) None (replicate (bucket_count t) (SHead (t_id t))) 0.

(** basic_hashtable.ii:61-62, one iteration of [clear_and_dispose] (the disposer is nothrow, 59):
    pop the first element. *)
Definition ht_pop (t : table) (h : eheap) : res (option (table * eheap * N)) :=
  match t_head t with
  | None => Ok None
  | Some e =>
    s <- deref (e_succ h !! e);;
    h <- wr_succ h e None;;
    Ok (Some (MkTable (t_id t) s (t_buckets t) (t_size t), h, e))
  end.

(** basic_hashtable.ii:19-29 move constructor: new table object [i]; returns (new, source) *)
Definition ht_move (i : N) (y : table) : table * table :=
  (MkTable i (t_head y)
     (map (fun s => if bool_decide (s = SHead (t_id y)) then SHead i else s) (t_buckets y))
     (t_size y),
   table_init (t_id y)).

(** basic_hashtable.h:215 [initial_size] *)
Definition initial_size : nat := 4.

(** basic_hashtable.ii:402-415: the growth decision and the new bucket count.
    [over n b] stands for [float(n) / float(b) > max_load_factor()]; see LoadFactor.v. *)
Section load.
  Context (over : nat -> nat -> bool) (max_bucket_count : nat).
  Definition must_grow (t : table) : bool :=
    bool_decide (bucket_count t = 0) ||
    (over (t_size t + 1) (bucket_count t) && bool_decide (bucket_count t < max_bucket_count)).
  Definition grow_size (t : table) : nat :=
    if bool_decide (bucket_count t = 0) then initial_size
    else if bool_decide (max_bucket_count / 2 < bucket_count t) then max_bucket_count
    else 2 * bucket_count t.
  (** 411-414 *)
  Definition ht_maybe_grow (t : table) (h : eheap) : res (table * eheap) :=
    if must_grow t then ht_rehash t h (grow_size t) else Ok (t, h).
  (** 378-382 [link] without a before-rehash function *)
  Definition ht_link (t : table) (h : eheap) (hash : N) (elem : N) : res (table * eheap * slot) :=
    '(t, h) <- ht_maybe_grow t h;;
    ht_link_ t h hash elem.
  (** 384-400 [reserve]; [req n] stands for [size_t(ceil(float(n) / max_load_factor()))]. With a
      before-rehash function the computation is repeated on unchanged inputs (389-398), so the
      decision is the same; running that function is the caller's business (Cache.v). *)
  Context (req : nat -> nat).
  Definition reserve_count (n : nat) : nat := Nat.min (req n) max_bucket_count.
  Definition ht_reserve (t : table) (h : eheap) (n : nat) : res (table * eheap) :=
    if bool_decide (bucket_count t < reserve_count n) then ht_rehash t h (reserve_count n) else Ok (t, h).
End load.

(** The search loops of the callers ([before_i] in hashtable.ii:520-560, 664-685): advance the
    predecessor iterator from [s] until the element after it is [e]. *)
Fixpoint ht_find_pred (fuel : nat) (t : table) (h : eheap) (s : slot) (e : N) : res slot :=
  match fuel with
  | O => Fuel
  | S f =>
    o <- rd_slot t h s;;
    x <- deref o;;
    if bool_decide (x = e) then Ok s else ht_find_pred f t h (SSucc x) e
  end.

(** Iteration over the chain from slot [s] (begin()..end(), basic_hashtable.ii:82-104). *)
Fixpoint ht_walk (fuel : nat) (t : table) (h : eheap) (s : option N) : res (list N) :=
  match s with
  | None => Ok []
  | Some e =>
    match fuel with
    | O => Fuel
    | S f => n <- deref (e_succ h !! e);; r <- ht_walk f t h n;; Ok (e :: r)
    end
  end.
Definition ht_elements (t : table) (h : eheap) : res (list N) :=
  ht_walk (size (e_succ h)) t h (t_head t).

(** Iteration over bucket [idx] (begin(idx)..end(idx)). *)
Fixpoint ht_walk_range (fuel : nat) (t : table) (h : eheap) (b e : option slot) : res (list N) :=
  if bool_decide (b = e) then Ok []
  else
    match fuel with
    | O => Fuel
    | S f =>
      x <- iter_elem b;;
      n <- iter_next t h (SSucc x);;
      r <- ht_walk_range f t h n e;;
      Ok (x :: r)
    end.
Definition ht_bucket_elements (t : table) (h : eheap) (idx : nat) : res (list N) :=
  b <- begin_bucket t h idx;;
  e <- end_bucket t h idx;;
  ht_walk_range (S (size (e_succ h))) t h b e.
