(** Model of refcount_ptr (/repo/include/libhoard/detail/refcount.ii) and the specification of C09. *)
From Verif Require Import Base.

(** Programs over handles. Handles and objects are numbers; [RNew h o] names the new object. Raw
    pointers that own a reference ([release]) stay with the program until it adopts them. *)
Inductive rop :=
| RNew (h o : N)          (** refcount_ptr h = allocate_refcount(...) *)
| RNull (h : N)           (** refcount_ptr h(nullptr) *)
| RCopy (h h' : N)        (** refcount_ptr h(h') *)
| RMove (h h' : N)        (** refcount_ptr h(std::move(h')) *)
| RAssign (h h' : N)      (** h = h' *)
| RMoveAssign (h h' : N)  (** h = std::move(h') *)
| RNil (h : N)            (** h = nullptr *)
| RReset (h : N)          (** h.reset() *)
| RResetTo (h o : N)      (** h.reset(o), [o] an object with an owner *)
| RAdopt (h o : N)        (** h.adopt(o), [o] a raw pointer that owns a reference *)
| RRelease (h : N)        (** h.release() *)
| RDtor (h : N).          (** ~refcount_ptr *)

(** * The code *)
Record rst := Rst {
  r_ptr : gmap N (option N);    (** live handles, [ptr_] *)
  r_cnt : gmap N nat;           (** live objects, their count *)
  r_dead : list N               (** destructor calls, newest first *)
}.
Definition rst_init : rst := Rst ∅ ∅ [].

(** refcount.ii:6-8; UB on a destroyed object *)
Definition r_inc (s : rst) (o : N) : res rst :=
  n <- deref (r_cnt s !! o);; Ok (Rst (r_ptr s) (<[o := S n]> (r_cnt s)) (r_dead s)).
Definition r_inc_opt (s : rst) (p : option N) : res rst :=
  match p with Some o => r_inc s o | None => Ok s end.
(** refcount.ii:201-202, 212-214 destroy, deallocate *)
Definition r_destroy (s : rst) (o : N) : res rst :=
  _ <- deref (r_cnt s !! o);; Ok (Rst (r_ptr s) (delete o (r_cnt s)) (o :: r_dead s)).
(** refcount.ii:196-207 [reset()] of a handle whose [ptr_] is [p]; the second result is [ptr_] after
    it. A count of 0 wraps around. *)
Definition r_reset (s : rst) (p : option N) : res (rst * option N) :=
  match p with
  | None => Ok (s, None)
  | Some o =>
    n <- deref (r_cnt s !! o);;
    match n with
    | 1 => s <- r_destroy s o;; Ok (s, None)
    | 0 => UB
    | S n => Ok (Rst (r_ptr s) (<[o := n]> (r_cnt s)) (r_dead s), Some o)
    end
  end.
Definition r_get (s : rst) (h : N) : res (option N) := deref (r_ptr s !! h).
Definition r_set (s : rst) (h : N) (p : option N) : rst := Rst (<[h := p]> (r_ptr s)) (r_cnt s) (r_dead s).

Definition rstep (s : rst) (o : rop) : res rst :=
  match o with
  | RNew h x => Ok (Rst (<[h := Some x]> (r_ptr s)) (<[x := 1]> (r_cnt s)) (r_dead s))  (* 15-37 *)
  | RNull h => Ok (r_set s h None)  (* 65-73 *)
  | RCopy h h' => p <- r_get s h';; r_inc_opt (r_set s h p) p  (* 76-81 *)
  | RMove h h' => p <- r_get s h';; Ok (r_set (r_set s h p) h' None)  (* 84-87 *)
  | RAssign h h' =>  (* 111-127; [orig] is destroyed last *)
    p <- r_get s h;;
    p' <- r_get s h';;
    if bool_decide (h = h') then Ok s
    else
      s <- r_inc_opt (r_set s h p') p';;
      '(s, _) <- r_reset s p;;
      Ok s
  | RMoveAssign h h' =>  (* 130-145 *)
    p <- r_get s h;;
    p' <- r_get s h';;
    if bool_decide (h = h') then Ok s
    else
      '(s, _) <- r_reset (r_set (r_set s h p') h' None) p;;
      Ok s
  | RNil h | RReset h =>  (* 148-151, 196-207 *)
    p <- r_get s h;;
    '(s, p) <- r_reset s p;;
    Ok (r_set s h p)
  | RResetTo h x =>  (* 210-216 *)
    p <- r_get s h;;
    s <- r_inc s x;;
    let s := r_set s h (Some x) in
    match p with Some y => r_destroy s y | None => Ok s end
  | RAdopt h x =>  (* 154-168 *)
    p <- r_get s h;;
    '(s, _) <- r_reset (r_set s h (Some x)) p;;
    Ok s
  | RRelease h => _ <- r_get s h;; Ok (r_set s h None)  (* 191-193 *)
  | RDtor h =>  (* 90-92 *)
    p <- r_get s h;;
    '(s, _) <- r_reset s p;;
    Ok (Rst (delete h (r_ptr s)) (r_cnt s) (r_dead s))
  end.
Fixpoint rrun (s : rst) (l : list rop) : res rst :=
  match l with [] => Ok s | o :: l => s <- rstep s o;; rrun s l end.

(** * The specification: who owns what *)
Record rspec := Rspec {
  rs_ptr : gmap N (option N);   (** handles *)
  rs_raw : list N;              (** released pointers *)
  rs_all : list N               (** objects created *)
}.
Definition rspec_init : rspec := Rspec ∅ [] [].
(** number of owners of an object *)
Definition rs_held (m : gmap N (option N)) (o : N) : nat :=
  size (filter (fun p : N * option N => p.2 = Some o) m).
Definition owners (s : rspec) (o : N) : nat :=
  rs_held (rs_ptr s) o + length (filter (fun x => x = o) (rs_raw s)).
Definition owned (s : rspec) (o : N) : Prop := owners s o <> 0.
Fixpoint rm_one (o : N) (l : list N) : list N :=
  match l with [] => [] | x :: l => if decide (x = o) then l else x :: rm_one o l end.

(** What the program means; [None]: not a correct use of handles. [loose] admits the uses for which
    the code goes wrong: [reset()] and [= nullptr] on one of several owners, [reset(p)] on a handle
    that is not null. *)
Definition rsem (loose : bool) (s : rspec) (o : rop) : option rspec :=
  let set h p := Rspec (<[h := p]> (rs_ptr s)) (rs_raw s) (rs_all s) in
  match o with
  | RNew h x =>
    if decide (rs_ptr s !! h = None /\ x ∉ rs_all s)
    then Some (Rspec (<[h := Some x]> (rs_ptr s)) (rs_raw s) (x :: rs_all s)) else None
  | RNull h => if decide (rs_ptr s !! h = None) then Some (set h None) else None
  | RCopy h h' =>
    match rs_ptr s !! h', rs_ptr s !! h with Some p, None => Some (set h p) | _, _ => None end
  | RMove h h' =>
    match rs_ptr s !! h', rs_ptr s !! h with
    | Some p, None => Some (Rspec (<[h' := None]> (<[h := p]> (rs_ptr s))) (rs_raw s) (rs_all s))
    | _, _ => None
    end
  | RAssign h h' =>
    match rs_ptr s !! h', rs_ptr s !! h with Some p, Some _ => Some (set h p) | _, _ => None end
  | RMoveAssign h h' =>
    match rs_ptr s !! h', rs_ptr s !! h with
    | Some p, Some _ =>
      if decide (h = h') then Some s
      else Some (Rspec (<[h' := None]> (<[h := p]> (rs_ptr s))) (rs_raw s) (rs_all s))
    | _, _ => None
    end
  | RNil h | RReset h =>
    match rs_ptr s !! h with
    | Some (Some x) => if loose || bool_decide (owners s x = 1) then Some (set h None) else None
    | Some None => Some s
    | None => None
    end
  | RResetTo h x =>
    match rs_ptr s !! h with
    | Some None => if decide (owned s x) then Some (set h (Some x)) else None
    | Some (Some _) => if loose then if decide (owned s x) then Some (set h (Some x)) else None else None
    | None => None
    end
  | RAdopt h x =>
    match rs_ptr s !! h with
    | Some _ => if decide (x ∈ rs_raw s) then Some (Rspec (<[h := Some x]> (rs_ptr s)) (rm_one x (rs_raw s)) (rs_all s)) else None
    | None => None
    end
  | RRelease h =>
    match rs_ptr s !! h with
    | Some (Some x) => Some (Rspec (<[h := None]> (rs_ptr s)) (x :: rs_raw s) (rs_all s))
    | Some None => Some s
    | None => None
    end
  | RDtor h =>
    match rs_ptr s !! h with
    | Some _ => Some (Rspec (delete h (rs_ptr s)) (rs_raw s) (rs_all s))
    | None => None
    end
  end.
Fixpoint rsem_run (loose : bool) (s : rspec) (l : list rop) : option rspec :=
  match l with
  | [] => Some s
  | o :: l => match rsem loose s o with Some s => rsem_run loose s l | None => None end
  end.
