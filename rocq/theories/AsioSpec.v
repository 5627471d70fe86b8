(** What the properties of PropertiesAsio.v mention that needs the observers of Observe.v. *)
From Verif Require Import Base Mapped Cache CachePtr Observe Asio.

(** Every handler runs while the value its timer was for is still in the hashtable (the value has not been
    erased, replaced or evicted between the expiry of the timer and the run of the handler). *)
Definition in_place (k : cfg) (l : list aop) : Prop :=
  forall l1 n item l2 (a : ast comp_ptr) e, l = l1 ++ AHandle n item :: l2 -> arun k l1 a_init = Ok a ->
    a_queued a !! n = Some e -> m_up (me (a_cache a)) = true -> e ∈ table_entries (a_cache a).
