(** The floating point arithmetic of the growth decisions of /repo/include/libhoard/detail/basic_hashtable.ii
    (384-415) and of [load_factor()] (47-49).

    [float] is IEEE binary32 with rounding to nearest even; [b32 x] is the value nearest to the real
    number [x]. Overflow is not modelled: table sizes and bucket counts are below 2^64, far from
    the largest float (about 2^128). [mlf] is [max_load_factor_], fixed by the constructor
    (basic_hashtable.ii:326-329; 1.0 unless given, basic_hashtable.h:237). The setter
    [max_load_factor(float)] (355-376) does not compile when used: its call of [rehash_] with two
    arguments is hidden by the private one-argument [rehash_] of the same class. *)
From Coq Require Import Reals.
From Flocq Require Import Core.
From Verif Require Import Base BasicHashtable Containers.
Local Open Scope R_scope.

Definition b32 (x : R) : R := round radix2 (FLT_exp (-149) 24) ZnearestE x.
(** a value of type [float] *)
Definition is_float (x : R) : Prop := b32 x = x.
(** [float(n)] *)
Definition f32 (n : nat) : R := b32 (INR n).
(** 47-49 [load_factor()] of a table with [n] elements and [b] buckets *)
Definition load_factor (n b : nat) : R :=
  match n with O => 0 | _ => b32 (f32 n / f32 b) end.
Section limit.
  Context (mlf : R).
  (** 403, 409 and 411: [float(n) / float(b) > max_load_factor()]; with no buckets the quotient is infinite. *)
  Definition over32 (n b : nat) : bool :=
    match b with O => true | _ => if Rlt_dec mlf (b32 (f32 n / f32 b)) then true else false end.
  (** 389 [size_t(ceil(float(n) / max_load_factor()))] *)
  Definition req32 (n : nat) : nat := Z.to_nat (Zceil (b32 (f32 n / mlf))).
End limit.

(** Specification of C35: a history that keeps the table at [n] elements or fewer and reserves nothing. *)
Fixpoint stays (n : nat) (s : hspec) (l : list hop) : Prop :=
  (size (hs_linked s) <= n)%nat /\
  match l with
  | [] => True
  | HReserve _ :: _ => False
  | o :: l => match hsem s o with Some s => stays n s l | None => False end
  end.
