(** Which histories the theorems are about. *)
From Verif Require Import Base Mapped Cache.

(** What a completion callback does in these histories: look up, count, let time pass, release
    pointers. (Callbacks that change the cache while they run can cause undefined behaviour, see
    PropertiesRefuted.v.) *)
Definition quiet_op (o : op) : bool :=
  match o with OGetIf _ | OCount | OAdvance _ _ | ORelease _ => true | _ => false end.
(** The constructor of a value that a resolver produced does not throw. *)
Definition no_ctor_throw (r : outcome) : bool := match r with RCtor => false | _ => true end.

(** - completion callbacks are quiet;
    - no constructor of a value throws while a lookup completes;
    - an async resolver does not throw when the refresh worker calls it;
    - resolvers may call everything, except that neither the worker nor the destructor runs inside. *)
Fixpoint fine_op (nested : bool) (o : op) {struct o} : bool :=
  let fine := forallb (fine_op true) in
  match o with
  | OGet _ script out => fine script && no_ctor_throw out
  | OAGet _ _ script _ _ imm => fine script && fine imm
  | OAssign _ _ scripts | OFail _ _ scripts => forallb (forallb quiet_op) scripts
  | OAssignThrow _ => false
  | OTick items => negb nested && forallb (fun i => fine i.1.1 && no_ctor_throw i.1.2 && negb i.2.2) items
  | ODestroy => negb nested
  | _ => true
  end.
Definition fine (l : list op) : Prop := forallb (fine_op false) l = true.

(** A refresh policy needs a resolver (refresh_policy.h does not compile otherwise). *)
Definition fine_cfg (k : cfg) : Prop := k_refresh k <> None -> k_resolver k <> RNone.

(** Upper bound for the requests (waiters) a history makes: all [async_get]s in it. *)
Fixpoint op_waiters (o : op) : list N :=
  let ws := fun l => concat (map op_waiters l) in
  match o with
  | OGet _ script _ => ws script
  | OAGet w _ script _ _ imm => w :: ws script ++ ws imm
  | OTick items => concat (map (fun i => ws i.1.1) items)
  | _ => []
  end.
Definition waiters (l : list op) : list N := concat (map op_waiters l).

(** ** What some properties assume or mention *)
(** The equality policy is an equivalence and the hash function is compatible with it. *)
Definition eq_ok (k : cfg) : Prop :=
  (forall a, k_eq k a a = true) /\ (forall a b, k_eq k a b = true -> k_eq k b a = true) /\
  (forall a b c, k_eq k a b = true -> k_eq k b c = true -> k_eq k a c = true) /\
  (forall a b, k_eq k a b = true -> k_hash k a = k_hash k b).
(** Configurations that never keep weak pointers to values: not pointers with both the weaken and the
    max_size policy. *)
Definition tame (k : cfg) : Prop := k_pointer k = false \/ k_weaken k = false \/ k_max_size k = None.
(** May the operation (or a program that a resolver runs in it) add a key of [P] to the cache? The
    refresh worker and completions do not: they replace or complete what is there. *)
Fixpoint enters (P : Z -> bool) (o : op) : bool :=
  match o with
  | OGet key script _ => P key || existsb (enters P) script
  | OAGet _ key script _ _ imm => P key || existsb (enters P) script || existsb (enters P) imm
  | OEmplace key _ | OGetOrEmplace key _ => P key
  | OTick items => existsb (fun i => existsb (enters P) i.1.1) items
  | _ => false
  end.
(** May the operation (or a program that a resolver runs in it) cancel a lookup or let go of a
    callback? *)
Fixpoint discards (o : op) : bool :=
  match o with
  | OCancel _ | ODropCb _ => true
  | OGet _ script _ => existsb discards script
  | OAGet _ _ script _ _ imm => existsb discards script || existsb discards imm
  | OTick items => existsb (fun i => existsb discards i.1.1) items
  | _ => false
  end.
(** May an [async_get] in the operation be left waiting by its resolver: the resolver returns without
    having kept its callback, or it may have cancelled it? *)
Fixpoint forgets (o : op) : bool :=
  match o with
  | OAGet _ _ script keep throw imm =>
    negb (throw || (keep && negb (existsb discards script))) || existsb forgets script || existsb forgets imm
  | OGet _ script _ => existsb forgets script
  | OTick items => existsb (fun i => existsb forgets i.1.1) items
  | _ => false
  end.
(** Does the operation remove [key]? *)
Definition removes (k : cfg) (key : Z) (o : op) : bool :=
  match o with OErase key' => k_eq k key' key | OClear => true | _ => false end.

(** C11: what the cache would hold if it were a map. *)
Section contents.
  Context (k : cfg).
  Definition map_op (o : op) (m : Z -> option Z) : Z -> option Z :=
    let put key v := fun key' => if k_eq k key key' then Some v else m key' in
    match o with
    | OEmplace key v => put key v
    | OGetOrEmplace key v => match m key with Some _ => m | None => put key v end
    | OErase key | OEmplaceThrow key => fun key' => if k_eq k key key' then None else m key'
    | OClear => fun _ => None
    | _ => m
    end.
  Definition contents (l : list op) : Z -> option Z := foldl (fun m o => map_op o m) (fun _ => None) l.
End contents.
(** Does the operation (or a program that a resolver runs in it) call [emplace] or [get_or_emplace]? *)
Fixpoint inserts (o : op) : bool :=
  match o with
  | OEmplace _ _ | OGetOrEmplace _ _ => true
  | OGet _ script _ => existsb inserts script
  | OAGet _ _ script _ _ imm => existsb inserts script || existsb inserts imm
  | OTick items => existsb (fun x => existsb inserts x.1.1) items
  | _ => false
  end.
(** Does the operation (or a program that a resolver runs in it) complete, cancel or drop callback [i]? *)
Fixpoint touches (i : N) (o : op) : bool :=
  match o with
  | OAssign j _ _ | OAssignThrow j | OFail j _ _ | OCancel j | ODropCb j => bool_decide (j = i)
  | OGet _ script _ => existsb (touches i) script
  | OAGet _ _ script _ _ imm => existsb (touches i) script || existsb (touches i) imm
  | OTick items => existsb (fun x => existsb (touches i) x.1.1) items
  | _ => false
  end.
(** Does the operation (or a program that a resolver runs in it) remove or replace [key]? *)
Fixpoint spoils (k : cfg) (key : Z) (o : op) : bool :=
  match o with
  | OErase key' | OEmplace key' _ | OEmplaceThrow key' => k_eq k key' key
  | OClear => true
  | OGet _ script _ => existsb (spoils k key) script
  | OAGet _ _ script _ _ imm => existsb (spoils k key) script || existsb (spoils k key) imm
  | OTick items => existsb (fun x => existsb (spoils k key) x.1.1) items
  | _ => false
  end.
(** Durations of the policies make sense. *)
Definition ages_ok (k : cfg) : Prop :=
  (forall d, k_max_age k = Some d -> (0 < d)%Z) /\ (forall d i, k_refresh k = Some (d, i) -> (0 <= i)%Z).

(** C17: may the operation (or a program that a resolver runs in it) give the value [v] to [key]? The
    callbacks outstanding before the operation were made for the keys [ko]; callbacks made during the
    operation (number [n] and above; they can only complete inside) may belong to any key. The refresh
    worker assigns to keys that the cache has. *)
Fixpoint supplies (k : cfg) (ko : N -> option Z) (n : N) (nested : bool) (key v : Z) (o : op) : bool :=
  let sub := existsb (supplies k ko n true key v) in
  match o with
  | OEmplace key' v' | OGetOrEmplace key' v' => k_eq k key' key && bool_decide (v' = v)
  | OGet key' script out => k_eq k key' key && match out with ROk v' => bool_decide (v' = v) | _ => false end || sub script
  | OAGet _ _ script _ _ imm => sub script || sub imm
  | OAssign i v' _ =>
    bool_decide (v' = v) && match ko i with Some key' => k_eq k key' key | None => nested && bool_decide (n <= i)%N end
  | OTick items => existsb (fun x => match x.1.2 with ROk v' => bool_decide (v' = v) | _ => false end || sub x.1.1) items
  | _ => false
  end.
(** Does the operation (or a program that runs in it) set the wall clock back? *)
Fixpoint sets_back (o : op) : bool :=
  match o with
  | OAdvance dw _ => bool_decide (dw < 0)%Z
  | OGet _ script _ => existsb sets_back script
  | OAGet _ _ script _ _ imm => existsb sets_back script || existsb sets_back imm
  | OAssign _ _ us | OFail _ _ us => existsb (existsb sets_back) us
  | OTick items => existsb (fun x => existsb sets_back x.1.1) items
  | _ => false
  end.
(** The synchronous resolver does not itself put the key that is being looked up into the cache, and
    the one called by the refresh worker does not add anything (without sync resolver: always true). *)
Fixpoint plain_op (k : cfg) (o : op) : bool :=
  match k_resolver k with
  | RSync =>
    match o with
    | OGet key script _ => negb (existsb (enters (fun key' => k_eq k key' key)) script) && forallb (plain_op k) script
    | OAGet _ _ script _ _ imm => forallb (plain_op k) script && forallb (plain_op k) imm
    | OTick items => forallb (fun x => negb (existsb (enters (fun _ => true)) x.1.1)) items
    | _ => true
    end
  | _ => true
  end.
(** C39: does the operation (or a program that a resolver runs in it) look up [key] in a way that counts
    as use of the value ([get_if_exists] does not)? *)
Fixpoint asks (k : cfg) (key : Z) (o : op) : bool :=
  match o with
  | OGet key' script _ => k_eq k key' key || existsb (asks k key) script
  | OAGet _ key' script _ _ imm => k_eq k key' key || existsb (asks k key) script || existsb (asks k key) imm
  | OGetOrEmplace key' _ => k_eq k key' key
  | OTick items => existsb (fun x => existsb (asks k key) x.1.1) items
  | _ => false
  end.
(** Is the operation itself such a lookup? (A cache has [get] or [async_get], not both.) *)
Definition uses (k : cfg) (key : Z) (o : op) : bool :=
  match o with
  | OGet key' _ _ => match k_resolver k with RAsync => false | _ => k_eq k key' key end
  | OAGet _ key' _ _ _ _ => match k_resolver k with RAsync => k_eq k key' key | _ => false end
  | OGetOrEmplace key' _ => k_eq k key' key
  | _ => false
  end.
(** C50: the key that the operation looks up or inserts, if it is one of the operations that can move
    an entry ahead of others in the queue of the max_size policy of a cache without resolver. *)
Definition raises (o : op) : option Z :=
  match o with OGet key _ _ | OEmplace key _ | OGetOrEmplace key _ => Some key | _ => None end.

(** The operation, and the programs it runs, neither move the clocks nor drop pointers. *)
Fixpoint timeless (o : op) : bool :=
  match o with
  | OAdvance _ _ | ORelease _ => false
  | OGet _ script _ => forallb timeless script
  | OAGet _ _ script _ _ imm => forallb timeless script && forallb timeless imm
  | OAssign _ _ us | OFail _ _ us => forallb (forallb timeless) us
  | OTick items => forallb (fun x => forallb timeless x.1.1) items
  | _ => true
  end.
