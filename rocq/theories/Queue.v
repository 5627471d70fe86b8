(** Model of the two-zone LRU queue
    (/repo/include/libhoard/detail/queue.h, queue.ii). *)
From Verif Require Import Base LinkedList.

(** queue.h: [basic_queue]: [linked_list<value_base, basic_queue> q_], [iterator midpoint_],
    [bool odd_sized_]; [value_base::hot_] is a per-element flag that the constructor leaves
    uninitialised ([None] here). *)
Record queue := MkQueue {
  q_links : gmap (N + N) link;
  q_hot : gmap N (option bool);
  q_mid : N + N;
  q_odd : bool
}.

(** The queue's own list head is list object 0. *)
Definition qhead : N := 0%N.

(** queue.h: default member initialisers [midpoint_ = q_.begin()], [odd_sized_ = false] *)
Definition queue_init : queue :=
  MkQueue (list_init qhead ∅) ∅ (HeadL qhead) false.

(** Construction of the [value_base] of a new element: link null, [hot_] uninitialised. *)
Definition q_alloc (q : queue) (e : N) : queue :=
  MkQueue (<[ElemL e := link_null]> (q_links q)) (<[e := None]> (q_hot q)) (q_mid q) (q_odd q).
(** Destruction of the element. *)
Definition q_free (q : queue) (e : N) : queue :=
  MkQueue (delete (ElemL e) (q_links q)) (delete e (q_hot q)) (q_mid q) (q_odd q).

Definition with_links (q : queue) (h : gmap (N + N) link) : queue :=
  MkQueue h (q_hot q) (q_mid q) (q_odd q).
Definition with_mid (q : queue) (m : N + N) : queue :=
  MkQueue (q_links q) (q_hot q) m (q_odd q).
Definition with_odd (q : queue) (b : bool) : queue :=
  MkQueue (q_links q) (q_hot q) (q_mid q) b.

(** [iter->hot_]: the head is not a [value_base], so reading it is UB; so is an uninitialised flag. *)
Definition get_hot (q : queue) (l : N + N) : res bool :=
  match l with
  | inl _ => UB
  | inr e => o <- deref (q_hot q !! e);; deref o
  end.
Definition set_hot (q : queue) (l : N + N) (b : bool) : res queue :=
  match l with
  | inl _ => UB
  | inr e => _ <- deref (q_hot q !! e);; Ok (MkQueue (q_links q) (<[e := Some b]> (q_hot q)) (q_mid q) (q_odd q))
  end.
(** [&*midpoint_] as element *)
Definition elem_of_loc (l : N + N) : res N :=
  match l with inl _ => UB | inr e => Ok e end.

(** queue.ii:11-22 [on_create_]. The second component is the element passed to [strengthen]. *)
Definition on_create (q : queue) (v : N) : res (queue * option N) :=
  q <- set_hot q (ElemL v) false;;
  if q_odd q then
    q <- set_hot q (q_mid q) true;;
    m <- elem_of_loc (q_mid q);;
    '(h, it) <- link_after (q_links q) (q_mid q) (ElemL v);;
    Ok (with_odd (with_mid (with_links q h) it) false, Some m)
  else
    '(h, it) <- link_before (q_links q) (q_mid q) (ElemL v);;
    Ok (with_odd (with_mid (with_links q h) it) true, None).

(** queue.ii:25-28 and 40-43: unlink [v], moving the midpoint to its successor if it is [v]. *)
Definition q_unlink (q : queue) (v : N) : res queue :=
  '(h, it) <- unlink (q_links q) (ElemL v);;
  Ok (with_mid (with_links q h) (if bool_decide (q_mid q = ElemL v) then it else q_mid q)).

(** queue.ii:24-37 [on_hit_]; [v] itself is then passed to [strengthen]. *)
Definition on_hit (q : queue) (v : N) : res queue :=
  q <- q_unlink q v;;
  h <- link_front qhead (q_links q) (ElemL v);;
  let q := with_links q h in
  vh <- get_hot q (ElemL v);;
  if vh then Ok q
  else
    q <- set_hot q (ElemL v) true;;
    m <- prev (q_links q) (q_mid q);;
    let q := with_mid q m in
    set_hot q m false.

(** queue.ii:39-60 [on_unlink_] *)
Definition on_unlink (q : queue) (v : N) : res queue :=
  q <- q_unlink q v;;
  vh <- get_hot q (ElemL v);;
  q <- (if vh : bool then
         if q_odd q then
           m' <- next (q_links q) (q_mid q);;
           q1 <- set_hot q (q_mid q) true;;
           Ok (with_mid q1 m')
         else Ok q
       else
         if q_odd q then Ok q
         else
           m <- prev (q_links q) (q_mid q);;
           set_hot (with_mid q m) m false);;
  Ok (with_odd q (negb (q_odd q))).

(** queue.ii:95-110 [lru_expire_]: the elements on which [weaken()]/[mark_expired()] is called, in
    call order. (These calls do not touch the queue, so collecting them first is equivalent.) *)
Fixpoint lru_loop (q : queue) (count : nat) (iter : N + N) : res (list N) :=
  match count with
  | O => Ok []
  | S c =>
    b <- begin qhead (q_links q);;
    if bool_decide (iter = b) then Ok []
    else
      iter <- prev (q_links q) iter;;
      h <- get_hot q iter;;
      if h : bool then Ok []
      else
        e <- elem_of_loc iter;;
        r <- lru_loop q c iter;;
        Ok (e :: r)
  end.
Definition lru_expire (q : queue) (count : nat) : res (list N) :=
  lru_loop q count (end_ qhead).
