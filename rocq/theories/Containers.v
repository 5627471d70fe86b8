(** Histories of container operations (what client code may do with the intrusive containers)
    and their specifications on plain sequences and sets. *)
From Verif Require Import Base LinkedList Queue BasicHashtable ATable.

(** * Lists *)
(** Client operations on a family of [linked_list] objects and elements. A position is an element
    or [None] for [end()] of list [i]. *)
Inductive lop :=
| LNewList (i : N)              (** construct an empty list object *)
| LNewElem (e : N)              (** construct an element *)
| LFreeElem (e : N)             (** destroy an element *)
| LFront (i e : N)              (** link_front *)
| LBack (i e : N)               (** link_back *)
| LAfter (i : N) (p : option N) (e : N)   (** link_after *)
| LBefore (i : N) (p : option N) (e : N)  (** link_before *)
| LUnlink (i e : N)             (** unlink, from list [i] *)
| LMove (i j : N).              (** move-construct list [i] from list [j] *)

Definition lpos (i : N) (p : option N) : N + N :=
  match p with None => inl i | Some x => inr x end.

(** the code: the functions of LinkedList.v *)
Definition lstep (h : gmap (N + N) link) (o : lop) : res (gmap (N + N) link) :=
  match o with
  | LNewList i => Ok (list_init i h)
  | LNewElem e => Ok (<[inr e := link_null]> h)
  | LFreeElem e => Ok (delete (inr e) h)
  | LFront i e => link_front i h (inr e)
  | LBack i e => link_back i h (inr e)
  | LAfter i p e => '(h, _) <- link_after h (lpos i p) (inr e);; Ok h
  | LBefore i p e => '(h, _) <- link_before h (lpos i p) (inr e);; Ok h
  | LUnlink i e => '(h, _) <- unlink h (inr e);; Ok h
  | LMove i j => list_move i j h
  end.
Fixpoint lrun (h : gmap (N + N) link) (os : list lop) : res (gmap (N + N) link) :=
  match os with [] => Ok h | o :: r => h <- lstep h o;; lrun h r end.

(** the specification: which elements exist, and the sequence of each list *)
Record lspec := LSpec { ls_elems : gset N; ls_lists : gmap N (list N) }.
Definition lspec_init : lspec := LSpec ∅ ∅.
Fixpoint ins_after (x e : N) (l : list N) : list N :=
  match l with
  | [] => []
  | y :: r => if bool_decide (y = x) then y :: e :: r else y :: ins_after x e r
  end.
Fixpoint ins_before (x e : N) (l : list N) : list N :=
  match l with
  | [] => []
  | y :: r => if bool_decide (y = x) then e :: y :: r else y :: ins_before x e r
  end.
Definition lfree (s : lspec) (e : N) : Prop :=
  forall i L, ls_lists s !! i = Some L -> e ∉ L.
Global Instance lfree_dec s e : Decision (lfree s e).
Proof.
  refine (cast_if (decide (map_Forall (fun (_ : N) (L : list N) => e ∉ L) (ls_lists s)))); done.
Defined.
Definition pos_in (p : option N) (L : list N) : Prop := match p with None => True | Some x => x ∈ L end.
Global Instance pos_in_dec p L : Decision (pos_in p L).
Proof. destruct p; simpl; apply _. Defined.
(** [Some] exactly when the call is legal: elements to link exist and are in no list, positions are
    in the list, a destroyed element is in no list; a move needs a new list object and a source that
    is NOT EMPTY (see C02). *)
Definition lsem (s : lspec) (o : lop) : option lspec :=
  let put i L := LSpec (ls_elems s) (<[i := L]> (ls_lists s)) in
  match o with
  | LNewList i => match ls_lists s !! i with None => Some (put i []) | Some _ => None end
  | LNewElem e => if bool_decide (e ∈ ls_elems s) then None else Some (LSpec ({[e]} ∪ ls_elems s) (ls_lists s))
  | LFreeElem e => if bool_decide (e ∈ ls_elems s /\ lfree s e) then Some (LSpec (ls_elems s ∖ {[e]}) (ls_lists s)) else None
  | LFront i e =>
    L ← ls_lists s !! i; if bool_decide (e ∈ ls_elems s /\ lfree s e) then Some (put i (e :: L)) else None
  | LBack i e =>
    L ← ls_lists s !! i; if bool_decide (e ∈ ls_elems s /\ lfree s e) then Some (put i (L ++ [e])) else None
  | LAfter i p e =>
    L ← ls_lists s !! i;
    if bool_decide (e ∈ ls_elems s /\ lfree s e /\ pos_in p L)
    then Some (put i (match p with None => e :: L | Some x => ins_after x e L end)) else None
  | LBefore i p e =>
    L ← ls_lists s !! i;
    if bool_decide (e ∈ ls_elems s /\ lfree s e /\ pos_in p L)
    then Some (put i (match p with None => L ++ [e] | Some x => ins_before x e L end)) else None
  | LUnlink i e =>
    L ← ls_lists s !! i; if bool_decide (e ∈ L) then Some (put i (filter (fun x => x <> e) L)) else None
  | LMove i j =>
    L ← ls_lists s !! j;
    match ls_lists s !! i with
    | Some _ => None
    | None => match L with [] => None | _ => Some (LSpec (ls_elems s) (<[i := L]> (<[j := []]> (ls_lists s)))) end
    end
  end.
Fixpoint lsem_run (s : lspec) (os : list lop) : option lspec :=
  match os with [] => Some s | o :: r => s ← lsem s o; lsem_run s r end.

(** * Queue *)
Inductive qop :=
| QCreate (e : N)   (** a new element is constructed and [on_create_] runs *)
| QHit (e : N)      (** [on_hit_] *)
| QRemove (e : N).  (** [on_unlink_] runs and the element is destroyed *)
Definition qstep (q : queue) (o : qop) : res queue :=
  match o with
  | QCreate e => '(q, _) <- on_create (q_alloc q e) e;; Ok q
  | QHit e => on_hit q e
  | QRemove e => q <- on_unlink q e;; Ok (q_free q e)
  end.
Fixpoint qrun (q : queue) (os : list qop) : res queue :=
  match os with [] => Ok q | o :: r => q <- qstep q o;; qrun q r end.
(** the elements that must be queued *)
Definition qsem (s : gset N) (o : qop) : option (gset N) :=
  match o with
  | QCreate e => if bool_decide (e ∈ s) then None else Some ({[e]} ∪ s)
  | QHit e => if bool_decide (e ∈ s) then Some s else None
  | QRemove e => if bool_decide (e ∈ s) then Some (s ∖ {[e]}) else None
  end.
Fixpoint qsem_run (s : gset N) (os : list qop) : option (gset N) :=
  match os with [] => Some s | o :: r => s ← qsem s o; qsem_run s r end.

(** * Hash table *)
Inductive hop :=
| HNew (e : N)           (** construct an element *)
| HFree (e : N)          (** destroy an unlinked element *)
| HLink (hash e : N)     (** [link] *)
| HUnlink (e : N)        (** search the predecessor and [unlink] *)
| HReserve (n : nat)     (** [reserve] *)
| HMove (i : N)          (** move-construct table object [i] and go on with it *)
| HClear.                (** [clear] *)
Section hist.
  Context (over : nat -> nat -> bool) (mbc : nat) (req : nat -> nat).
  Definition hstep (th : table * eheap) (o : hop) : res (table * eheap) :=
    let '(t, h) := th in
    match o with
    | HNew e => Ok (t, e_alloc h e)
    | HFree e => Ok (t, e_free h e)
    | HLink x e => '(t, h, _) <- ht_link over mbc t h x e;; Ok (t, h)
    | HUnlink e =>
      s <- ht_find_pred (S (size (e_succ h))) t h (before_begin_all t) e;;
      '(t, h, _) <- ht_unlink t h s;; Ok (t, h)
    | HReserve n => ht_reserve mbc req t h n
    | HMove i => Ok ((ht_move i t).1, h)
    | HClear => Ok (ht_clear t, h)
    end.
  Fixpoint hrun (th : table * eheap) (os : list hop) : res (table * eheap) :=
    match os with [] => Ok th | o :: r => th <- hstep th o;; hrun th r end.
End hist.
(** existing elements, and for each linked one its hash *)
Record hspec := HSpec { hs_elems : gset N; hs_linked : gmap N N }.
Definition hspec_init : hspec := HSpec ∅ ∅.
Definition hsem (s : hspec) (o : hop) : option hspec :=
  match o with
  | HNew e => if bool_decide (e ∈ hs_elems s) then None else Some (HSpec ({[e]} ∪ hs_elems s) (hs_linked s))
  | HFree e => if bool_decide (e ∈ hs_elems s /\ hs_linked s !! e = None) then Some (HSpec (hs_elems s ∖ {[e]}) (hs_linked s)) else None
  | HLink x e => if bool_decide (e ∈ hs_elems s /\ hs_linked s !! e = None) then Some (HSpec (hs_elems s) (<[e := x]> (hs_linked s))) else None
  | HUnlink e => match hs_linked s !! e with Some _ => Some (HSpec (hs_elems s) (delete e (hs_linked s))) | None => None end
  | HReserve _ | HMove _ => Some s
  | HClear => Some (HSpec (hs_elems s) ∅)
  end.
Fixpoint hsem_run (s : hspec) (os : list hop) : option hspec :=
  match os with [] => Some s | o :: r => s ← hsem s o; hsem_run s r end.
