(** Cache.v over lists instead of pointers (a proof device: CacheSim.v shows that the pointer-level
    model behaves the same). Every misuse of a container is [UB]. *)
From Verif Require Import Base AQueue ATable BasicHashtable Cache.

Record acs := Acs {
  a_hash : gmap N N;           (** the existing elements and their hash fields *)
  a_bs : list (list N);        (** buckets *)
  a_torn : option (list N);    (** while the table is being destroyed: the elements left *)
  a_q : list N * list N;       (** recency queue *)
  a_dq : list N                (** delay queue *)
}.
Definition a_tab (c : acs) : list N := default (concat (a_bs c)) (a_torn c).

(** the prefix ending at a position of the iteration order, and the rest *)
Definition a_split (L : list N) (s : slot) : option (list N * list N) :=
  match s with
  | SHead i => if bool_decide (i = 0%N) then Some ([], L) else None
  | SSucc e =>
    match list_find (fun x => x = e) L with
    | Some (n, _) => Some (take (S n) L, drop (S n) L)
    | None => None
    end
  end.
Definition l_slot (L : list N) : slot := match last L with Some e => SSucc e | None => SHead 0 end.

Definition a_set_bs (c : acs) x := Acs (a_hash c) x (a_torn c) (a_q c) (a_dq c).
Definition a_set_q (c : acs) x := Acs (a_hash c) (a_bs c) (a_torn c) x (a_dq c).
Definition a_set_dq (c : acs) x := Acs (a_hash c) (a_bs c) (a_torn c) (a_q c) x.
Definition need {A} (P : Prop) `{Decision P} (m : res A) : res A := if decide P then m else UB.

Definition comp_abs : comp := {|
  ccs := acs;
  c_init := Acs ∅ [] None ([], []) [];
  c_alloc := fun c e => need (a_hash c !! e = None)
    (Ok (Acs (<[e := 0%N]> (a_hash c)) (a_bs c) (a_torn c) (a_q c) (a_dq c)));
  c_free := fun c e => need (e ∉ a_tab c /\ e ∉ aq_elems (a_q c) /\ e ∉ a_dq c)
    (Ok (Acs (delete e (a_hash c)) (a_bs c) (a_torn c) (a_q c) (a_dq c)));
  c_size := fun c => length (concat (a_bs c));
  c_bcount := fun c => length (a_bs c);
  c_hashof := fun c e => deref (a_hash c !! e);
  c_bucket_for := fun c x => bidx (length (a_bs c)) x;
  c_before_begin := fun c i => need (a_torn c = None /\ i <= length (a_bs c))
    (Ok (l_slot (concat (take i (a_bs c)))));
  c_before_end := fun c i => need (a_torn c = None /\ (a_bs c = [] \/ i < length (a_bs c)))
    (Ok (l_slot (concat (take (S i) (a_bs c)))));
  c_before_begin_all := fun c => SHead 0;
  c_before_end_all := fun c => need (a_torn c = None) (Ok (l_slot (concat (a_bs c))));
  c_next := fun c s => need (a_torn c = None)
    (match a_split (concat (a_bs c)) s with Some (_, r) => Ok (head r) | None => UB end);
  c_unlink := fun c s => need (a_torn c = None)
    (match a_split (concat (a_bs c)) s with
     | Some (_, e :: _) => Ok (a_set_bs c (at_unlink (a_bs c) e), e)
     | _ => UB
     end);
  c_link := fun c x e => need (a_torn c = None /\ a_bs c <> [] /\ is_Some (a_hash c !! e) /\ e ∉ concat (a_bs c))
    (Ok (Acs (<[e := x]> (a_hash c)) (at_link (a_bs c) x e) (a_torn c) (a_q c) (a_dq c)));
  c_rehash := fun c n => need (a_torn c = None /\ n <> 0)
    (Ok (a_set_bs c (at_rehash (fun e => default 0%N (a_hash c !! e)) n (a_bs c))));
  c_pop := fun c =>
    Ok (match a_tab c with
        | [] => None
        | e :: r => Some (Acs (a_hash c) (a_bs c) (Some r) (a_q c) (a_dq c), e)
        end);
  c_qcreate := fun c e => need (e ∉ aq_elems (a_q c) /\ is_Some (a_hash c !! e))
    (Ok (a_set_q c (aq_create (a_q c) e).1, (aq_create (a_q c) e).2));
  c_qhit := fun c e => need (e ∈ aq_elems (a_q c)) (Ok (a_set_q c (aq_hit (a_q c) e)));
  c_qunlink := fun c e => need (e ∈ aq_elems (a_q c)) (Ok (a_set_q c (aq_unlink (a_q c) e)));
  c_victims := fun c n => Ok (aq_victims (a_q c) n);
  c_dlink := fun c e => need (e ∉ a_dq c /\ is_Some (a_hash c !! e)) (Ok (a_set_dq c (a_dq c ++ [e])));
  c_dlinked := fun c e => need (is_Some (a_hash c !! e)) (Ok (bool_decide (e ∈ a_dq c)));
  c_dunlink := fun c e => need (e ∈ a_dq c) (Ok (a_set_dq c (rm e (a_dq c))));
  c_dfront := fun c => Ok (head (a_dq c))
|}.
