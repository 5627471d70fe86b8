(** Calls during which the user's equality function throws. Cache.v takes the equality for a function that
    always answers; here each call comes with the pairs of keys for which the comparison throws instead.
    Not modelled: [get_if_exists] (a [const] function that changes nothing before or after a comparison) and
    comparisons made by calls out of a resolver or callback, which return. A hash function that throws does so
    before the table is touched. *)
From Verif Require Import Base Mapped Cache.

Section throwing.
  Context {C : comp} (k : cfg).
  Notation st := (@st C).

  (** [std::invoke(this->equal, ht_key, keys...)] (hashtable.ii:505-511, 692-698, 770-780), called for every
      element with the right hash (hashtable.ii:537, 667), throws for the element [e]: the loop is left at
      once. [Stop R0] stands for the exception; the loops themselves never stop with [R0]. *)
  Definition comparing (bad : Z -> Z -> bool) (key : Z) (visit : st -> N -> res (st * act)) (s : st) (e : N) : res (st * act) :=
    h <- c_hashof C (cs s) e;;
    el <- s_el s e;;
    if bool_decide (h = k_hash k key) && bad (el_key el) key then Ok (s, Stop R0) else visit s e.
  (** the part of a call up to the exception, if one is thrown (second component) *)
  Definition lookup_until (bad : Z -> Z -> bool) (s : st) (key : Z) (incl : bool) : res (st * bool) :=
    '(s, r) <- sweep_bucket k (comparing bad key (get_visit k (k_hash k key) key incl)) s (k_hash k key);;
    Ok (s, match r with Some (_, R0) => true | _ => false end).
  Definition expire_until (bad : Z -> Z -> bool) (s : st) (key : Z) : res (st * bool) :=
    '(s, r) <- sweep_bucket k (comparing bad key (expire_visit k (k_hash k key) key)) s (k_hash k key);;
    Ok (s, match r with Some (_, R0) => true | _ => false end).

  (** A call; the answer [None] means that it ends with the exception of the comparison. The lookups and
      [emplace] pass it on to the caller; [erase] is [noexcept] (cache.h:57): [std::terminate]. Without an
      exception the call is the one of Cache.v. *)
  Definition call (bad : Z -> Z -> bool) (o : op) (s : st) : res (st * option ret) :=
    let rest := '(s, r) <- step k false o s;; Ok (s, Some r) in
    let passes r := '(s, threw) <- r;; if (threw : bool) then Ok (s, None) else rest in
    if negb (m_up (me s)) then rest else
    match o with
    | OGet key _ _ => match k_resolver k with RAsync => rest | _ => passes (lookup_until bad s key false) end
    | OAGet _ key _ _ _ _ => match k_resolver k with RAsync => passes (lookup_until bad s key true) | _ => rest end
    | OGetOrEmplace key v => if holds k s v then passes (lookup_until bad s key true) else rest
    | OEmplace key v => if holds k s v then passes (expire_until bad s key) else rest
    | OEmplaceThrow key => passes (expire_until bad s key)
    | OErase key => '(_, threw) <- expire_until bad s key;; if (threw : bool) then Term else rest
    | _ => rest
    end.
  Fixpoint run_calls (l : list ((Z -> Z -> bool) * op)) (s : st) : res st :=
    match l with
    | [] => Ok s
    | (bad, o) :: l => '(s, _) <- call bad o s;; run_calls l s
    end.
End throwing.
