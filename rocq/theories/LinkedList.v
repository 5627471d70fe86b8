(** Model of the intrusive circular doubly linked list
    (/repo/include/libhoard/detail/linked_list.h, linked_list.ii). *)
From Verif Require Import Base.

(** Address of a [basic_linked_list::link]: [inl i] is the [head_] member of list object [i],
    [inr e] is the link base class of element [e].  (linked_list.h: class link, member head_) *)
Notation loc := (N + N)%type (only parsing).
Notation HeadL i := (@inl N N i).
Notation ElemL e := (@inr N N e).

(** linked_list.h: [link* succ_], [link* pred_], both default [nullptr]. *)
Record link := Link { l_succ : option loc; l_pred : option loc }.

(** linked_list.ii:8 default constructor; also 10-14: copying/moving an element never copies links. *)
Definition link_null : link := Link None None.

(** All links of one list family. *)
Notation lheap := (gmap (N + N) link) (only parsing).

(** [ptr->field] access: UB when the object does not exist. *)
Definition rd (h : lheap) (l : loc) : res link := deref (h !! l).
Definition set_succ (h : lheap) (l : loc) (s : option loc) : res lheap :=
  k <- rd h l;; Ok (<[l := Link s (l_pred k)]> h).
Definition set_pred (h : lheap) (l : loc) (p : option loc) : res lheap :=
  k <- rd h l;; Ok (<[l := Link (l_succ k) p]> h).

(** linked_list.ii:31-33 [link::is_linked] *)
Definition is_linked (h : lheap) (l : loc) : res bool :=
  k <- rd h l;; Ok (bool_decide (is_Some (l_succ k))).

(** linked_list.ii:36-38 constructor of list [i]: [head_(&head_, &head_)] *)
Definition list_init (i : N) (h : lheap) : lheap :=
  <[HeadL i := Link (Some (HeadL i)) (Some (HeadL i))]> h.

(** linked_list.ii:114-118 [link_] (order of the four writes as in the code) *)
Definition link_ (h : lheap) (predecessor elem successor : loc) : res lheap :=
  h1 <- set_pred h elem (Some predecessor);;
  h2 <- set_succ h1 elem (Some successor);;
  h3 <- set_pred h2 successor (Some elem);;
  set_succ h3 predecessor (Some elem).

(** linked_list.ii:46-49 *)
Definition link_front (i : N) (h : lheap) (elem : loc) : res lheap :=
  hd <- rd h (HeadL i);;
  s <- deref (l_succ hd);;
  link_ h (HeadL i) elem s.

(** linked_list.ii:51-54 *)
Definition link_back (i : N) (h : lheap) (elem : loc) : res lheap :=
  hd <- rd h (HeadL i);;
  p <- deref (l_pred hd);;
  link_ h p elem (HeadL i).

(** linked_list.ii:56-59; returns the iterator to [elem] *)
Definition link_after (h : lheap) (pos elem : loc) : res (lheap * loc) :=
  k <- rd h pos;;
  s <- deref (l_succ k);;
  h' <- link_ h pos elem s;;
  Ok (h', elem).

(** linked_list.ii:61-64 *)
Definition link_before (h : lheap) (pos elem : loc) : res (lheap * loc) :=
  k <- rd h pos;;
  p <- deref (l_pred k);;
  h' <- link_ h p elem pos;;
  Ok (h', elem).

(** linked_list.ii:66-76; returns the iterator to the successor *)
Definition unlink (h : lheap) (elem : loc) : res (lheap * loc) :=
  k <- rd h elem;;
  predecessor <- deref (l_pred k);;
  successor <- deref (l_succ k);;
  h1 <- set_succ h predecessor (Some successor);;
  h2 <- set_pred h1 successor (Some predecessor);;
  h3 <- set_pred h2 elem None;;
  h4 <- set_succ h3 elem None;;
  Ok (h4, successor).

(** linked_list.ii:78-80 *)
Definition empty (i : N) (h : lheap) : res bool :=
  hd <- rd h (HeadL i);;
  Ok (bool_decide (l_succ hd = Some (HeadL i))).

(** linked_list.ii:90-92 [begin] *)
Definition begin (i : N) (h : lheap) : res loc :=
  hd <- rd h (HeadL i);; deref (l_succ hd).

(** linked_list.ii:94-96 [end] *)
Definition end_ (i : N) : loc := HeadL i.

(** linked_list.ii:125-128 and 136-139 iterator [++] and [--] *)
Definition next (h : lheap) (l : loc) : res loc := k <- rd h l;; deref (l_succ k).
Definition prev (h : lheap) (l : loc) : res loc := k <- rd h l;; deref (l_pred k).

(** linked_list.ii:40-44 move constructor: the new list object is [i], the source [j].
    [std::exchange(y.head_.pred_, &y.head_)], [std::exchange(y.head_.succ_, &y.head_)], then
    [head_.pred_->succ_ = head_.succ_->pred_ = &head_] (right operand first). *)
Definition list_move (i j : N) (h : lheap) : res lheap :=
  y <- rd h (HeadL j);;
  let h1 := <[HeadL j := Link (Some (HeadL j)) (Some (HeadL j))]> h in
  let h2 := <[HeadL i := Link (l_succ y) (l_pred y)]> h1 in
  s <- deref (l_succ y);;
  h3 <- set_pred h2 s (Some (HeadL i));;
  hd <- rd h3 (HeadL i);;
  p <- deref (l_pred hd);;
  set_succ h3 p (Some (HeadL i)).

(** Range-for over the list: [for (auto& x : list)], forwards from [begin()] to [end()];
    [fuel] bounds the number of steps. *)
Fixpoint walk (fuel : nat) (i : N) (h : lheap) (l : loc) : res (list N) :=
  match fuel with
  | O => Fuel
  | S f =>
    match l with
    | inl j => if bool_decide (j = i) then Ok [] else UB
    | inr e => n <- next h l;; r <- walk f i h n;; Ok (e :: r)
    end
  end.
Definition elements (i : N) (h : lheap) : res (list N) :=
  b <- begin i h;; walk (S (size h)) i h b.

(** Backwards walk, from [--end()] to [begin()]. *)
Fixpoint walk_back (fuel : nat) (i : N) (h : lheap) (l : loc) : res (list N) :=
  match fuel with
  | O => Fuel
  | S f =>
    match l with
    | inl j => if bool_decide (j = i) then Ok [] else UB
    | inr e => n <- prev h l;; r <- walk_back f i h n;; Ok (e :: r)
    end
  end.
Definition elements_back (i : N) (h : lheap) : res (list N) :=
  b <- prev h (end_ i);; walk_back (S (size h)) i h b.
