(** Property theorems about the load factor and [reserve]: C34, C35. Model: LoadFactor.v over BasicHashtable.v.
    These use the real numbers of the standard library and their axioms. *)
From Coq Require Import Reals Lra.
From Flocq Require Import Core.
From Verif Require Import Base BasicHashtable Containers LoadFactor LoadFactorProofs.

(** ** C34 *)
(** Full statement wanted: for every positive limit. Missing: limits below 1/4, see the refutation. The
    default limit is 1. *)
Theorem C34_load_factor_partial : forall mlf mbc, 0 < mbc -> is_float mlf -> (/ 4 <= mlf)%R ->
  forall os s, hsem_run hspec_init os = Some s ->
  exists t h, hrun (over32 mlf) mbc (req32 mlf) (table_init 0, eheap_init) os = Ok (t, h) /\ t_size t = size (hs_linked s) /\
    ((load_factor (t_size t) (bucket_count t) <= mlf)%R \/ mbc <= bucket_count t).
Proof. exact load_histories. Qed.
Print Assumptions C34_load_factor_partial.
Example C34_example : is_float 1 /\ (/ 4 <= 1)%R /\
  exists s, hsem_run hspec_init [HNew 1; HLink 5 1; HNew 2; HLink 5 2; HReserve 9; HUnlink 1; HMove 3; HLink 7 1]%N = Some s /\ size (hs_linked s) = 2.
Proof.
  split; [apply b32_F, (F_nat 1); lia|]. split; [lra|]. eexists; split; [vm_compute; reflexivity|]. by vm_compute.
Qed.
(** The first link makes 4 buckets whatever the limit is. *)
Theorem C34_small_limit_refuted : exists mlf t h, is_float mlf /\ (0 < mlf)%R /\
  hrun (over32 mlf) 1000 (req32 mlf) (table_init 0, eheap_init) [HNew 1; HLink 0 1]%N = Ok (t, h) /\
  (mlf < load_factor (t_size t) (bucket_count t))%R /\ bucket_count t < 1000.
Proof. exact small_limit. Qed.
Print Assumptions C34_small_limit_refuted.

(** ** C35 *)
(** Full statement wanted: for every limit. Proved for the powers of two, among them the default 1; for
    other limits rounding breaks it, see the refutation. *)
Theorem C35_reserve_partial : forall mlf mbc, 0 < mbc -> forall z, (-100 <= z <= 100)%Z -> mlf = bpow radix2 z ->
  forall os s n l, hsem_run hspec_init os = Some s -> stays n s l ->
  exists t0 h0 t1 h1 t2 h2, hrun (over32 mlf) mbc (req32 mlf) (table_init 0, eheap_init) os = Ok (t0, h0) /\
    hstep (over32 mlf) mbc (req32 mlf) (t0, h0) (HReserve n) = Ok (t1, h1) /\ bucket_count t0 <= bucket_count t1 /\
    hrun (over32 mlf) mbc (req32 mlf) (t1, h1) l = Ok (t2, h2) /\ bucket_count t2 = bucket_count t1.
Proof. exact reserve_histories. Qed.
Print Assumptions C35_reserve_partial.
Example C35_example : 1%R = bpow radix2 0 /\ exists s, hsem_run hspec_init [HNew 1; HLink 5 1; HNew 2]%N = Some s /\
  stays 3 s [HLink 5 2; HNew 3; HLink 9 3; HUnlink 2; HLink 2 2]%N.
Proof.
  split; [done|]. eexists; split; [vm_compute; reflexivity|]. vm_compute. repeat (split; [lia|]). done.
Qed.
(** The worry in the comment at basic_hashtable.ii:386 is justified: with this limit [reserve(1)] makes 33
    buckets, and linking one element still rehashes. *)
Theorem C35_rounding_refuted : exists mlf t0 h0 t1 h1, is_float mlf /\ (0 < mlf)%R /\
  hrun (over32 mlf) 1000 (req32 mlf) (table_init 0, eheap_init) [HNew 1; HReserve 1]%N = Ok (t0, h0) /\
  hrun (over32 mlf) 1000 (req32 mlf) (t0, h0) [HLink 0 1]%N = Ok (t1, h1) /\ t_size t1 = 1 /\
  bucket_count t0 = 33 /\ bucket_count t1 = 66.
Proof. exact rounded_reserve. Qed.
Print Assumptions C35_rounding_refuted.
