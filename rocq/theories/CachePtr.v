(** The model of the library: Cache.v over the pointer-level containers. *)
From Verif Require Import Base LinkedList Queue BasicHashtable Cache.

(** The hash table object (table 0) and its elements' [basic_hashtable_element] parts; the recency queue
    and its elements' [queue_policy::value_base] parts; the links of the delay queue (list 0). *)
Record pcs := Pcs {
  p_t : table;
  p_h : eheap;
  p_q : queue;
  p_d : gmap (N + N) LinkedList.link
}.
Definition p_set_th (c : pcs) (t : table) (h : eheap) : pcs := Pcs t h (p_q c) (p_d c).
Definition p_set_q (c : pcs) (q : queue) : pcs := Pcs (p_t c) (p_h c) q (p_d c).
Definition p_set_d (c : pcs) d : pcs := Pcs (p_t c) (p_h c) (p_q c) d.

Definition comp_ptr : comp := {|
  ccs := pcs;
  c_init := Pcs (table_init 0) eheap_init queue_init (list_init 0 ∅);
  c_alloc := fun c e =>
    Ok (Pcs (p_t c) (e_alloc (p_h c) e) (q_alloc (p_q c) e) (<[ElemL e := link_null]> (p_d c)));
  c_free := fun c e =>
    Ok (Pcs (p_t c) (e_free (p_h c) e) (q_free (p_q c) e) (delete (ElemL e) (p_d c)));
  c_size := fun c => t_size (p_t c);
  c_bcount := fun c => bucket_count (p_t c);
  c_hashof := fun c e => deref (e_hash (p_h c) !! e);
  c_bucket_for := fun c x => bucket_for_hash (p_t c) x;
  c_before_begin := fun c i => before_begin (p_t c) i;
  c_before_end := fun c i => before_end (p_t c) i;
  c_before_begin_all := fun c => before_begin_all (p_t c);
  c_before_end_all := fun c => before_end_all (p_t c);
  c_next := fun c s => rd_slot (p_t c) (p_h c) s;
  c_unlink := fun c s =>
    '(t, h, e) <- ht_unlink (p_t c) (p_h c) s;; Ok (p_set_th c t h, e);
  c_link := fun c x e =>
    '(t, h, _) <- ht_link_ (p_t c) (p_h c) x e;; Ok (p_set_th c t h);
  c_rehash := fun c n =>
    '(t, h) <- ht_rehash (p_t c) (p_h c) n;; Ok (p_set_th c t h);
  c_pop := fun c =>
    o <- ht_pop (p_t c) (p_h c);;
    Ok (match o with Some (t, h, e) => Some (p_set_th c t h, e) | None => None end);
  c_qcreate := fun c e => '(q, o) <- on_create (p_q c) e;; Ok (p_set_q c q, o);
  c_qhit := fun c e => q <- on_hit (p_q c) e;; Ok (p_set_q c q);
  c_qunlink := fun c e => q <- on_unlink (p_q c) e;; Ok (p_set_q c q);
  c_victims := fun c n => lru_expire (p_q c) n;
  c_dlink := fun c e => d <- link_back 0 (p_d c) (ElemL e);; Ok (p_set_d c d);
  c_dlinked := fun c e => is_linked (p_d c) (ElemL e);
  c_dunlink := fun c e => '(d, _) <- unlink (p_d c) (ElemL e);; Ok (p_set_d c d);
  c_dfront := fun c =>
    (* [empty()], [front()] *)
    l <- begin 0 (p_d c);; Ok (match l with inl _ => None | inr e => Some e end)
|}.
