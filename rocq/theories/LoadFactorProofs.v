(** Facts about the rounding in the growth decisions, and the load factor of all reachable tables. *)
From Coq Require Import Reals Lra Psatz.
From Flocq Require Import Core Mult_error.
From Verif Require Import Base BasicHashtable ATable Containers BasicHashtableProofs ContainersProofs LoadFactor.
Local Open Scope R_scope.

Local Notation fexp := (FLT_exp (-149) 24).
Local Notation F := (generic_format radix2 fexp).
#[local] Instance prec24 : Prec_gt_0 24 := eq_refl.

Lemma b32_mono x y : x <= y -> b32 x <= b32 y.
Proof. apply round_le; typeclasses eauto. Qed.
Lemma b32_F x : F x -> b32 x = x.
Proof. apply round_generic; typeclasses eauto. Qed.
Lemma F_b32 x : F (b32 x).
Proof. apply generic_format_round; typeclasses eauto. Qed.
Lemma float_F x : is_float x <-> F x.
Proof. split; [intros <-; apply F_b32|apply b32_F]. Qed.
Lemma F_pow e : (-149 <= e)%Z -> F (bpow radix2 e).
Proof. intros. apply generic_format_bpow. unfold FLT_exp. lia. Qed.
Lemma F_int m e : (Z.abs m < 2 ^ 24)%Z -> (-149 <= e)%Z -> F (IZR m * bpow radix2 e).
Proof. intros Hm He. apply generic_format_FLT. exists (Float radix2 m e); [done|done|done]. Qed.
Lemma F_nat n : (n < 1000)%nat -> F (INR n).
Proof.
  intros Hn. rewrite INR_IZR_INZ. replace (IZR (Z.of_nat n)) with (IZR (Z.of_nat n) * bpow radix2 0) by (simpl; lra).
  apply F_int; lia.
Qed.

Lemma f32_mono n m : (n <= m)%nat -> f32 n <= f32 m.
Proof. intros. apply b32_mono, le_INR. lia. Qed.
Lemma f32_0 : f32 0 = 0.
Proof. apply b32_F, (F_nat 0). lia. Qed.
Lemma f32_1 : f32 1 = 1.
Proof. apply b32_F, (F_nat 1). lia. Qed.
Lemma f32_small n : (n < 1000)%nat -> f32 n = INR n.
Proof. intros. by apply b32_F, F_nat. Qed.
Lemma f32_pos n : (0 < n)%nat -> 1 <= f32 n.
Proof. intros. rewrite <-f32_1. by apply f32_mono. Qed.
Lemma f32_nonneg n : 0 <= f32 n.
Proof. rewrite <-f32_0. apply f32_mono. lia. Qed.

(** doubling is exact *)
Lemma b32_double x : 1 <= x -> b32 (x * 2) = b32 x * 2.
Proof.
  intros Hx. unfold b32. rewrite !round_FLT_FLX.
  2,3: rewrite Rabs_pos_eq by lra; simpl; apply Rle_trans with (IZR 1); [|simpl; lra];
       match goal with |- ?a <= _ => change a with (/ IZR (Z.pow_pos 2 126)) end;
       rewrite <-Rinv_1; apply Rinv_le; [lra|]; apply IZR_le; vm_compute; done.
  unfold round, scaled_mantissa, F2R, cexp, FLX_exp. simpl Fnum; simpl Fexp.
  assert (mag radix2 (x * 2) = (mag radix2 x + 1)%Z :> Z) as ->.
  { change 2 with (bpow radix2 1). apply mag_mult_bpow. lra. }
  replace (mag radix2 x + 1 - 24)%Z with (mag radix2 x - 24 + 1)%Z by lia.
  rewrite bpow_plus. replace (- (mag radix2 x - 24 + 1))%Z with (- (mag radix2 x - 24) + -1)%Z by lia. rewrite bpow_plus.
  change (bpow radix2 1) with 2. change (bpow radix2 (-1)) with (/ 2).
  replace (x * 2 * (bpow radix2 (- (mag radix2 x - 24)) * / 2)) with (x * bpow radix2 (- (mag radix2 x - 24))) by field.
  ring.
Qed.
Lemma f32_double n : (0 < n)%nat -> f32 (2 * n) = f32 n * 2.
Proof.
  intros Hn. unfold f32. rewrite mult_INR. change (INR 2) with 2. rewrite Rmult_comm. apply b32_double.
  change 1 with (INR 1). apply le_INR. lia.
Qed.

(** quotients *)
Definition quo (n b : nat) : R := b32 (f32 n / f32 b).
Lemma quo_mono n m b : (0 < b)%nat -> (n <= m)%nat -> quo n b <= quo m b.
Proof.
  intros Hb Hn. apply b32_mono. apply Rmult_le_compat_r; [|by apply f32_mono].
  apply Rlt_le, Rinv_0_lt_compat. pose proof (f32_pos b Hb). lra.
Qed.
Lemma quo_anti n b c : (0 < b)%nat -> (b <= c)%nat -> quo n c <= quo n b.
Proof.
  intros Hb Hc. apply b32_mono. apply Rmult_le_compat_l; [apply f32_nonneg|].
  apply Rinv_le; [pose proof (f32_pos b Hb); lra|by apply f32_mono].
Qed.
Lemma quo_double n b : (0 < n)%nat -> (0 < b)%nat -> quo (2 * n) (2 * b) = quo n b.
Proof.
  intros Hn Hb. unfold quo. f_equal. rewrite !f32_double by done. pose proof (f32_pos b Hb). field. lra.
Qed.
Lemma load_quo n b : (0 < b)%nat -> load_factor n b = quo n b.
Proof.
  intros Hb. destruct n; [|done]. simpl. unfold quo. rewrite f32_0. unfold Rdiv. rewrite Rmult_0_l.
  symmetry. apply b32_F, generic_format_0.
Qed.
Lemma quo_0 b : (0 < b)%nat -> quo 0 b = 0.
Proof. intros Hb. by rewrite <-load_quo. Qed.
Lemma quo_1_4 b : (4 <= b)%nat -> quo 1 b <= / 4.
Proof.
  intros Hb. apply Rle_trans with (quo 1 4); [apply quo_anti; lia|]. unfold quo. rewrite (f32_small 4), f32_1 by lia.
  replace (1 / INR 4) with (bpow radix2 (-2)) by (simpl; lra). rewrite b32_F by (apply F_pow; lia). simpl. lra.
Qed.

(** floats in a binade *)
Lemma fmt_int x e : F x -> (-100 <= e)%Z -> bpow radix2 (e - 1) <= x < bpow radix2 e -> exists m, x = IZR m * bpow radix2 (e - 24).
Proof.
  intros Hx He [H1 H2]. exists (Ztrunc (scaled_mantissa radix2 fexp x)). rewrite Hx at 1. unfold F2R. simpl Fnum; simpl Fexp. f_equal.
  unfold cexp. assert (mag radix2 x = e :> Z) as ->.
  { apply mag_unique. rewrite Rabs_pos_eq; [done|]. pose proof (bpow_ge_0 radix2 (e - 1)). lra. }
  f_equal. unfold FLT_exp. lia.
Qed.
Lemma b32_err x e : (-100 <= e)%Z -> bpow radix2 (e - 1) <= x < bpow radix2 e -> x <= b32 x + bpow radix2 (e - 25).
Proof.
  intros He [H1 H2]. pose proof (error_le_half_ulp radix2 fexp (fun z => negb (Z.even z)) x) as H.
  assert (0 < x) as Hx by (pose proof (bpow_gt_0 radix2 (e - 1)); lra).
  rewrite ulp_neq_0 in H by lra. unfold cexp in H. assert (mag radix2 x = e :> Z) as Hm by (apply mag_unique; rewrite Rabs_pos_eq; [done|lra]).
  rewrite Hm in H. replace (fexp e) with (e - 25 + 1)%Z in H by (unfold FLT_exp; lia). rewrite bpow_plus in H. change (bpow radix2 1) with 2 in H.
  fold (b32 x) in H. apply Rabs_le_inv in H. lra.
Qed.

(** a table that [reserve] made with fewer than 4 buckets has room for one element *)
Lemma inv_anti x y : 0 < x -> x <= y -> / y <= / x.
Proof. intros. by apply Rinv_le. Qed.
Lemma small_reserve mlf b : F mlf -> / 4 <= mlf -> (0 < b < 4)%nat -> b32 (/ mlf) <= INR b -> quo 1 b <= mlf.
Proof.
  intros Hf Hm Hb Hq. apply Rnot_lt_le. intros Hlt.
  assert (0 < mlf) as Hp by lra.
  assert (forall y, F y -> mlf < quo 1 b -> / INR b <= y -> mlf < y) as Hy.
  { intros y Fy H H'. apply Rlt_le_trans with (1 := H). rewrite <-(b32_F y Fy). apply b32_mono.
    rewrite f32_1, f32_small by lia. unfold Rdiv. by rewrite Rmult_1_l. }
  assert (b = 1 \/ b = 2 \/ b = 3)%nat as [-> | [-> | ->]] by lia.
  - assert (mlf < 1) as H1. { apply Hy; [apply (F_nat 1); lia|done|simpl; lra]. }
    assert (mlf <= 1 - bpow radix2 (-24)) as H2.
    { destruct (Rle_lt_dec (/ 2) mlf) as [Hh|Hh]; [|simpl; lra].
      destruct (fmt_int mlf 0 Hf) as [z' E']; [lia|simpl; lra|]. simpl in E'. rewrite E' in H1 |- *. simpl.
      assert (IZR z' < IZR 16777216) as Hzz by lra. apply lt_IZR in Hzz. assert (z' <= 16777215)%Z as Hzz' by lia. apply IZR_le in Hzz'. lra. }
    simpl in Hq, H2. assert (/ mlf >= / (1 - / 16777216)) as Hi. { apply Rle_ge, inv_anti; lra. }
    assert (/ mlf < 2) as Hi2.
    { apply Rnot_le_lt. intros H. apply (b32_mono 2) in H. rewrite b32_F in H by (apply (F_nat 2); lia). simpl in Hq. lra. }
    pose proof (b32_err (/ mlf) 1 ltac:(lia)) as He. simpl in He. lra.
  - assert (mlf < / 2) as H1. { apply Hy; [change (/ 2) with (bpow radix2 (-1)); apply F_pow; lia|done|simpl; lra]. }
    assert (mlf <= / 2 - bpow radix2 (-25)) as H2.
    { destruct (fmt_int mlf (-1) Hf) as [z' E']; [lia|simpl; lra|]. simpl in E'. rewrite E' in H1 |- *. simpl.
      assert (IZR z' < IZR 16777216) as Hzz by lra. apply lt_IZR in Hzz. assert (z' <= 16777215)%Z as Hzz' by lia. apply IZR_le in Hzz'. lra. }
    simpl in Hq, H2. assert (/ mlf >= / (/ 2 - / 33554432)) as Hi. { apply Rle_ge, inv_anti; lra. }
    assert (/ mlf < 4) as Hi2.
    { apply Rnot_le_lt. intros H. apply (b32_mono 4) in H. rewrite b32_F in H by (replace 4 with (INR 4) by (simpl; lra); apply (F_nat 4); lia). simpl in Hq. lra. }
    pose proof (b32_err (/ mlf) 2 ltac:(lia)) as He. simpl in He. lra.
  - assert (mlf < IZR 11184811 * bpow radix2 (-25)) as H1. { apply Hy; [apply F_int; lia|done|simpl; lra]. }
    assert (mlf <= IZR 11184810 * bpow radix2 (-25)) as H2.
    { simpl in H1. destruct (fmt_int mlf (-1) Hf) as [z' E']; [lia|simpl; lra|]. simpl in E'. rewrite E' in H1 |- *. simpl.
      assert (IZR z' < IZR 11184811) as Hzz by lra. apply lt_IZR in Hzz. assert (z' <= 11184810)%Z as Hzz' by lia. apply IZR_le in Hzz'. lra. }
    simpl in Hq, H2. assert (/ mlf >= / (11184810 * / 33554432)) as Hi. { apply Rle_ge, inv_anti; lra. }
    assert (/ mlf < 4) as Hi2.
    { apply Rnot_le_lt. intros H. apply (b32_mono 4) in H. rewrite b32_F in H by (replace 4 with (INR 4) by (simpl; lra); apply (F_nat 4); lia). simpl in Hq. lra. }
    pose proof (b32_err (/ mlf) 2 ltac:(lia)) as He. simpl in He. lra.
Qed.
Lemma b32_err2 x e : (-100 <= e)%Z -> bpow radix2 (e - 1) <= x < bpow radix2 e -> x - bpow radix2 (e - 25) <= b32 x <= x + bpow radix2 (e - 25).
Proof.
  intros He [H1 H2]. pose proof (error_le_half_ulp radix2 fexp (fun z => negb (Z.even z)) x) as H.
  assert (0 < x) as Hx by (pose proof (bpow_gt_0 radix2 (e - 1)); lra).
  rewrite ulp_neq_0 in H by lra. unfold cexp in H. assert (mag radix2 x = e :> Z) as Hm by (apply mag_unique; rewrite Rabs_pos_eq; [done|lra]).
  rewrite Hm in H. replace (fexp e) with (e - 25 + 1)%Z in H by (unfold FLT_exp; lia). rewrite bpow_plus in H. change (bpow radix2 1) with 2 in H.
  fold (b32 x) in H. apply Rabs_le_inv in H. lra.
Qed.

Lemma over_quo mlf n b : (0 < b)%nat -> over32 mlf n b = true <-> mlf < quo n b.
Proof. intros Hb. destruct b; [lia|]. unfold over32. fold (quo n (S b)). destruct (Rlt_dec _ _); naive_solver. Qed.
Lemma over_quo_false mlf n b : (0 < b)%nat -> over32 mlf n b = false <-> quo n b <= mlf.
Proof. intros Hb. pose proof (over_quo mlf n b Hb). destruct (over32 mlf n b); split; try done; [|intros _; apply Rnot_lt_le; naive_solver]. intros. exfalso. apply (Rlt_not_le (quo n b) mlf); naive_solver. Qed.

Lemma ceil_INR x : 0 <= x -> x <= INR (Z.to_nat (Zceil x)).
Proof.
  intros Hx. rewrite INR_IZR_INZ, Z2Nat.id; [apply Zceil_ub|]. apply le_IZR. apply Rle_trans with (1 := Hx), Zceil_ub.
Qed.
Lemma quot_nonneg mlf n : 0 < mlf -> 0 <= b32 (f32 n / mlf).
Proof.
  intros. rewrite <-f32_0. unfold f32 at 1. apply b32_mono. simpl. unfold Rdiv. apply Rmult_le_pos; [apply f32_nonneg|]. apply Rlt_le. by apply Rinv_0_lt_compat.
Qed.
Lemma req_room mlf n : F mlf -> / 4 <= mlf -> (0 < req32 mlf n)%nat -> quo 1 (req32 mlf n) <= mlf.
Proof.
  intros Hf Hm Hr. assert (0 < mlf) as Hp by lra.
  destruct (decide (4 <= req32 mlf n)%nat) as [H4|H4]; [pose proof (quo_1_4 _ H4); lra|].
  apply small_reserve; [done..|lia|]. unfold req32 in *. apply Rle_trans with (b32 (f32 n / mlf)); [|apply ceil_INR; by apply quot_nonneg].
  apply b32_mono. unfold Rdiv. rewrite <-(Rmult_1_l (/ mlf)) at 1. apply Rmult_le_compat_r; [apply Rlt_le; by apply Rinv_0_lt_compat|].
  apply f32_pos. destruct n; [|lia]. exfalso. rewrite f32_0 in Hr. unfold Rdiv in Hr. rewrite Rmult_0_l in Hr.
  unfold b32 in Hr. rewrite round_0 in Hr by typeclasses eauto. rewrite Zceil_IZR in Hr. simpl in Hr. lia.
Qed.

(** * Tables *)
Local Open Scope nat_scope.
Lemma hinv_size t h s Bs : hinv t h s Bs -> t_size t = size (hs_linked s) /\ bucket_count t = length Bs.
Proof.
  intros Hi. destruct (hi_rep _ _ _ _ Hi) as [H0 Hs]. split; [|by apply tr_count with h]. rewrite Hs.
  rewrite <-size_dom. assert (dom (hs_linked s) = list_to_set (concat Bs) :> gset N) as ->.
  { apply set_eq. intros e. rewrite elem_of_dom, elem_of_list_to_set. symmetry. apply (hi_in _ _ _ _ Hi). }
  symmetry. apply size_list_to_set, (tr_nodup _ _ _ H0).
Qed.
Section load.
  Context (mlf : R) (mbc : nat) (Hmbc : 0 < mbc).
  Local Notation over := (over32 mlf).
  Local Notation req := (req32 mlf).
  Definition grown_count (n b : nat) : nat :=
    if bool_decide (b = 0) || (over (n + 1) b && bool_decide (b < mbc))
    then (if bool_decide (b = 0) then initial_size else if bool_decide (mbc / 2 < b) then mbc else 2 * b) else b.
  Definition next_count (n b : nat) (o : hop) : nat :=
    match o with
    | HLink _ _ => grown_count n b
    | HReserve m => if bool_decide (b < Nat.min (req m) mbc) then Nat.min (req m) mbc else b
    | _ => b
    end.
  Lemma hstep_count t h s Bs o s' : hinv t h s Bs -> hsem s o = Some s' ->
    exists t' h' Bs', hstep over mbc req (t, h) o = Ok (t', h') /\ hinv t' h' s' Bs' /\
      bucket_count t' = next_count (t_size t) (bucket_count t) o.
  Proof.
    intros Hi Hs. destruct (hstep_ok over mbc req Hmbc t h s Bs o s' Hi Hs) as (t' & h' & E & Hi' & _).
    eexists t', h', _. split; [done|]. split; [done|]. destruct (hinv_size _ _ _ _ Hi') as [_ ->].
    destruct (hinv_size _ _ _ _ Hi) as [_ Hb].
    destruct o; simpl; [done|done| | | |done|by rewrite replicate_length].
    - rewrite at_link_length. unfold grown, grown_count, must_grow, grow_size. rewrite Hb. destruct (_ || _); [by rewrite at_rehash_length|done].
    - by rewrite at_unlink_length.
    - unfold reserve_count. rewrite Hb. case_bool_decide; [by rewrite at_rehash_length|done].
  Qed.
  (** sizes change by at most one *)
  Lemma hsem_size s o s' : hsem s o = Some s' ->
    match o with HLink _ _ => size (hs_linked s') = size (hs_linked s) + 1 | _ => size (hs_linked s') <= size (hs_linked s) end.
  Proof.
    destruct o; simpl; repeat case_match; try done; intros [= <-]; simpl; try lia.
    - case_bool_decide as Hb; [|done]. rewrite map_size_insert_None; [lia|]. naive_solver.
    - rewrite map_size_delete. destruct (hs_linked s !! _); unfold Datatypes.id; lia.
    - rewrite map_size_empty. lia.
  Qed.

  Section c34.
    Context (Hf : is_float mlf) (Hm : (/ 4 <= mlf)%R).
    Definition within (n b : nat) : Prop :=
      n = 0 /\ b = 0 \/ mbc <= b \/ 0 < b /\ (quo n b <= mlf)%R /\ (quo 1 b <= mlf)%R.
    Lemma within_less n m b : within n b -> m <= n -> within m b.
    Proof.
      intros [[-> ->]|[H|(Hb & H1 & H2)]] Hmn; [left; lia|by right; left|]. right; right. split; [done|]. split; [|done].
      by apply Rle_trans with (2 := H1), quo_mono.
    Qed.
    Lemma within_link n b : within n b -> within (n + 1) (grown_count n b).
    Proof.
      intros Hw. unfold grown_count, initial_size. case_bool_decide as Hb; simpl.
      - subst b. destruct Hw as [[-> _]|[H|(Hb & _)]]; [|lia|lia]. right; right. split; [lia|]. pose proof (quo_1_4 4 ltac:(lia)).
        split; simpl; lra.
      - destruct Hw as [[_ ?]|[H|(Hb' & H1 & H2)]]; [done| |].
        + rewrite (bool_decide_eq_false_2 (b < mbc)) by lia. rewrite andb_false_r. by right; left.
        + destruct (over (n + 1) b) eqn:Eo; simpl.
          * apply over_quo in Eo; [|done]. case_bool_decide; [|right; left; lia].
            case_bool_decide; [right; left; lia|]. right; right. split; [lia|]. split.
            -- destruct n as [|n]; [exfalso; simpl in Eo; lra|]. apply Rle_trans with (2 := H1). rewrite <-(quo_double (S n) b) by lia.
               apply quo_mono; lia.
            -- apply Rle_trans with (2 := H2). apply quo_anti; lia.
          * apply over_quo_false in Eo; [|done]. by right; right.
    Qed.
    Lemma within_reserve n b m : within n b -> within n (if bool_decide (b < Nat.min (req m) mbc) then Nat.min (req m) mbc else b).
    Proof.
      intros Hw. case_bool_decide as Hlt; [|done]. destruct (decide (mbc <= req m)); [right; left; lia|].
      rewrite Nat.min_l in * by lia. right; right. split; [lia|].
      assert (quo 1 (req m) <= mlf)%R as H1 by (apply req_room; [by apply float_F|done|lia]). split; [|done].
      destruct Hw as [[-> ->]|[H|(Hb & H2 & _)]]; [rewrite quo_0 by done; lra|lia|].
      apply Rle_trans with (2 := H2). apply quo_anti; lia.
    Qed.
    Lemma within_step t h s Bs o s' : hinv t h s Bs -> within (t_size t) (bucket_count t) -> hsem s o = Some s' ->
      exists t' h' Bs', hstep over mbc req (t, h) o = Ok (t', h') /\ hinv t' h' s' Bs' /\ within (t_size t') (bucket_count t').
    Proof.
      intros Hi Hw Hs. destruct (hstep_count t h s Bs o s' Hi Hs) as (t' & h' & Bs' & E & Hi' & Hc).
      exists t', h', Bs'. split; [done|]. split; [done|]. rewrite Hc. clear Hc.
      destruct (hinv_size _ _ _ _ Hi') as [-> _]. destruct (hinv_size _ _ _ _ Hi) as [Hn _]. rewrite Hn in *.
      pose proof (hsem_size s o s' Hs) as Hz. destruct o; simpl; try by eapply within_less.
      - rewrite Hz. by apply within_link.
      - eapply within_less; [|done]. by apply within_reserve.
    Qed.
    Lemma load_histories os s : hsem_run hspec_init os = Some s ->
      exists t h, hrun over mbc req (table_init 0, eheap_init) os = Ok (t, h) /\ t_size t = size (hs_linked s) /\
        ((load_factor (t_size t) (bucket_count t) <= mlf)%R \/ mbc <= bucket_count t).
    Proof.
      assert (forall t h s0 Bs, hinv t h s0 Bs -> within (t_size t) (bucket_count t) -> hsem_run s0 os = Some s ->
        exists t' h', hrun over mbc req (t, h) os = Ok (t', h') /\ t_size t' = size (hs_linked s) /\ within (t_size t') (bucket_count t')) as H.
      { induction os as [|o os IH]; intros t h s0 Bs Hi Hw Hs; simpl in Hs.
        - injection Hs as <-. exists t, h. split; [done|]. split; [by eapply hinv_size|done].
        - destruct (hsem s0 o) as [s1|] eqn:E; simpl in Hs; [|done].
          destruct (within_step _ _ _ _ _ _ Hi Hw E) as (t1 & h1 & Bs1 & E1 & Hi1 & Hw1). cbn [hrun]. rewrite E1. cbn [rbind]. eauto. }
      intros Hs. destruct (H _ _ _ _ (hinv_init 0) (or_introl (conj eq_refl eq_refl)) Hs) as (t & h & E & Hz & Hw).
      exists t, h. split; [done|]. split; [done|]. destruct Hw as [[-> _]|[Hb|(Hb & Hq & _)]]; [left; simpl; lra|by right|left].
      by rewrite load_quo.
    Qed.
  End c34.

  Section c35.
    Context (z : Z) (Hz : (-100 <= z <= 100)%Z) (Hmlf : mlf = bpow radix2 z).
    Lemma req_exact n k b : k <= n -> 0 < b -> Nat.min (req n) mbc <= b -> over k b = false \/ mbc <= b.
    Proof.
      intros Hk Hb Hr. destruct (decide (mbc <= b)); [by right|]. left. apply over_quo_false; [done|].
      apply Rle_trans with (quo n b); [by apply quo_mono|].
      assert (0 < mlf)%R as Hp by (rewrite Hmlf; apply bpow_gt_0).
      assert (f32 n / mlf <= f32 b)%R as Hle.
      { assert (F (f32 n / mlf)%R) as Hx.
        { unfold Rdiv. rewrite Hmlf, <-bpow_opp. destruct (decide (n = 0)) as [->|Hn0]; [rewrite f32_0, Rmult_0_l; apply generic_format_0|].
          apply mult_bpow_exact_FLT; [apply F_b32|]. pose proof (mag_ge_bpow radix2 (f32 n) 1) as Hg.
          pose proof (f32_pos n ltac:(lia)). rewrite Rabs_pos_eq in Hg by lra. simpl in Hg. specialize (Hg ltac:(lra)). lia. }
        rewrite <-(b32_F _ Hx). rewrite <-(b32_F (b32 (f32 n / mlf))) by apply F_b32.
        apply b32_mono. apply Rle_trans with (INR (req n)); [apply ceil_INR; by apply quot_nonneg|]. apply le_INR. lia. }
      unfold quo. rewrite <-(b32_F mlf) by (rewrite Hmlf; apply F_pow; lia). apply b32_mono.
      pose proof (f32_pos b Hb) as H1. apply Rmult_le_reg_r with (f32 b); [lra|]. unfold Rdiv. rewrite Rmult_assoc, Rinv_l, Rmult_1_r by lra.
      apply Rmult_le_reg_r with (/ mlf)%R; [by apply Rinv_0_lt_compat|]. replace (mlf * f32 b * / mlf)%R with (f32 b) by (field; lra). done.
    Qed.
    Lemma stays_run n l : forall t h s Bs, hinv t h s Bs -> stays n s l -> Nat.min (req n) mbc <= bucket_count t -> (n = 0 \/ 0 < bucket_count t) ->
      exists t' h', hrun over mbc req (t, h) l = Ok (t', h') /\ bucket_count t' = bucket_count t.
    Proof.
      induction l as [|o l IH]; intros t h s Bs Hi [Hn Hl] Hr Hb; [by exists t, h|].
      destruct (hsem s o) as [s'|] eqn:E; [|by destruct o].
      destruct (hstep_count t h s Bs o s' Hi E) as (t' & h' & Bs' & E' & Hi' & Hc).
      assert (stays n s' l /\ forall m, o <> HReserve m) as [Hs' Hno] by (by destruct o).
      assert (bucket_count t' = bucket_count t) as Hc'.
      { rewrite Hc. destruct o; simpl; try done. unfold grown_count. destruct (hinv_size _ _ _ _ Hi) as [-> _].
        pose proof (hsem_size s _ s' E) as Hz'. simpl in Hz'. assert (size (hs_linked s') <= n) as Hle by (destruct l; apply Hs').
        assert (0 < bucket_count t) as Hb' by lia.
        rewrite (bool_decide_eq_false_2 (bucket_count t = 0)) by lia. simpl.
        destruct (req_exact n (size (hs_linked s) + 1) (bucket_count t)) as [-> | H]; [lia|done|done|done|].
        rewrite (bool_decide_eq_false_2 (bucket_count t < mbc)) by lia. by rewrite andb_false_r. }
      cbn [hrun]. rewrite E'. cbn [rbind]. destruct (IH t' h' s' Bs' Hi' Hs') as (t2 & h2 & E2 & H2); [by rewrite Hc'..|].
      exists t2, h2. split; [done|]. by rewrite H2.
    Qed.
    Lemma req_pos n : 0 < n -> 0 < req n.
    Proof.
      intros Hn. unfold req32. assert (0 < mlf)%R as Hp by (rewrite Hmlf; apply bpow_gt_0).
      assert (0 < b32 (f32 n / mlf))%R as H0.
      { apply Rlt_le_trans with (bpow radix2 (-z)); [apply bpow_gt_0|]. rewrite <-(b32_F (bpow radix2 (-z))) by (apply F_pow; lia).
        apply b32_mono. unfold Rdiv. rewrite Hmlf, <-bpow_opp. rewrite <-(Rmult_1_l (bpow radix2 (-z))) at 1.
        apply Rmult_le_compat_r; [apply bpow_ge_0|by apply f32_pos]. }
      pose proof (ceil_INR _ (Rlt_le _ _ H0)) as H1. apply INR_lt. simpl. lra.
    Qed.
    Lemma reserve_histories os s n l : hsem_run hspec_init os = Some s -> stays n s l ->
      exists t0 h0 t1 h1 t2 h2, hrun over mbc req (table_init 0, eheap_init) os = Ok (t0, h0) /\
        hstep over mbc req (t0, h0) (HReserve n) = Ok (t1, h1) /\ bucket_count t0 <= bucket_count t1 /\
        hrun over mbc req (t1, h1) l = Ok (t2, h2) /\ bucket_count t2 = bucket_count t1.
    Proof.
      intros Hs Hl. destruct (hrun_ok over mbc req Hmbc os _ _ _ _ _ (hinv_init 0) Hs) as (t0 & h0 & Bs & E0 & Hi & _).
      destruct (hstep_count t0 h0 s Bs (HReserve n) s Hi eq_refl) as (t1 & h1 & Bs1 & E1 & Hi1 & Hc1). simpl in Hc1.
      assert (bucket_count t0 <= bucket_count t1 /\ Nat.min (req n) mbc <= bucket_count t1) as [H0 H1] by (rewrite Hc1; case_bool_decide; lia).
      destruct (stays_run n l t1 h1 s Bs1 Hi1 Hl H1) as (t2 & h2 & E2 & H2).
      { destruct (decide (n = 0)); [by left|]. right. pose proof (req_pos n ltac:(lia)). lia. }
      by exists t0, h0, t1, h1, t2, h2.
    Qed.
  End c35.
End load.

(** * Limits for which the properties fail *)
Lemma small_limit : exists mlf t h, is_float mlf /\ (0 < mlf)%R /\
  hrun (over32 mlf) 1000 (req32 mlf) (table_init 0, eheap_init) [HNew 1; HLink 0 1]%N = Ok (t, h) /\
  (mlf < load_factor (t_size t) (bucket_count t))%R /\ bucket_count t < 1000.
Proof.
  exists (bpow radix2 (-3)). eexists _, _. split; [apply b32_F, F_pow; lia|]. split; [apply bpow_gt_0|]. split; [vm_compute; reflexivity|].
  unfold bucket_count. cbn [t_size t_buckets length]. split; [|lia]. rewrite load_quo by lia. unfold quo. rewrite f32_1, (f32_small 4) by lia.
  replace (1 / INR 4)%R with (bpow radix2 (-2)) by (simpl; lra). rewrite b32_F by (apply F_pow; lia). apply bpow_lt. lia.
Qed.
Lemma rounded_reserve : exists mlf t0 h0 t1 h1, is_float mlf /\ (0 < mlf)%R /\
  hrun (over32 mlf) 1000 (req32 mlf) (table_init 0, eheap_init) [HNew 1; HReserve 1]%N = Ok (t0, h0) /\
  hrun (over32 mlf) 1000 (req32 mlf) (t0, h0) [HLink 0 1]%N = Ok (t1, h1) /\ t_size t1 = 1 /\
  bucket_count t0 = 33 /\ bucket_count t1 = 66.
Proof.
  set (mlf := (IZR 16268815 * bpow radix2 (-29))%R).
  assert (req32 mlf 1 = 33) as Hr.
  { unfold req32. rewrite f32_1. set (x := (1 / mlf)%R). assert (33 < x < 33 + / 524288)%R as [H1 H2].
    { unfold x, mlf. simpl. split; lra. }
    assert (b32 x = 33)%R as ->; [|by rewrite (Zceil_IZR 33)].
    apply Rle_antisym.
    - destruct (b32_err2 x 6) as [_ H]; [lia|simpl; lra|]. simpl in H.
      destruct (fmt_int (b32 x) 6 (F_b32 x)) as [m Em]; [lia| |].
      { split; [|simpl in *; lra]. apply Rle_trans with (b32 (bpow radix2 (6 - 1))); [rewrite b32_F by (apply F_pow; lia); lra|].
        apply b32_mono. simpl. lra. }
      rewrite Em in H |- *. simpl in *. assert (IZR m < IZR 8650753)%R as Hm by lra. apply lt_IZR in Hm.
      assert (m <= 8650752)%Z as Hm' by lia. apply IZR_le in Hm'. lra.
    - rewrite <-(b32_F 33) at 1; [apply b32_mono; lra|]. replace 33%R with (INR 33) by (simpl; lra). apply F_nat. lia. }
  assert (over32 mlf 1 33 = true) as Ho.
  { apply over_quo; [lia|]. unfold quo. rewrite f32_1, f32_small by lia. replace (INR 33) with 33%R by (simpl; lra).
    destruct (b32_err2 (1 / 33) (-5)) as [H _]; [lia|simpl; lra|]. simpl in H. unfold mlf. simpl. lra. }
  assert (0 < mlf)%R as Hp by (unfold mlf; simpl; lra).
  destruct (hstep_count mlf 1000 ltac:(lia) _ _ _ _ (HNew 1) _ (hinv_init 0) eq_refl) as (ta & ha & Ba & Ea & Ia & Ca).
  destruct (hinv_size _ _ _ _ Ia) as [Sa _].
  destruct (hstep_count mlf 1000 ltac:(lia) _ _ _ _ (HReserve 1) _ Ia eq_refl) as (tb & hb & Bb & Eb & Ib & Cb).
  destruct (hinv_size _ _ _ _ Ib) as [Sb _].
  destruct (hstep_count mlf 1000 ltac:(lia) _ _ _ _ (HLink 0 1) (HSpec ({[1%N]} ∪ hs_elems hspec_init) (<[1%N := 0%N]> (hs_linked hspec_init))) Ib
    ltac:(unfold hsem; rewrite bool_decide_eq_true_2; [reflexivity|split; [simpl; set_solver|reflexivity]]))  as (tc & hc & Bc & Ec & Ic & Cc).
  destruct (hinv_size _ _ _ _ Ic) as [Sc _].
  cbn [next_count] in Ca, Cb, Cc. rewrite Hr, Ca in Cb. change (bucket_count (table_init 0)) with 0 in Cb. rewrite bool_decide_eq_true_2 in Cb by lia.
  change (33 `min` 1000) with 33 in Cb.
  exists mlf, tb, hb, tc, hc. split; [apply b32_F, F_int; lia|]. split; [done|].
  split; [cbn [hrun]; rewrite Ea; cbn [rbind]; rewrite Eb; done|]. split; [cbn [hrun]; rewrite Ec; done|]. split; [done|]. split; [done|].
  rewrite Cc, Cb, Sb. unfold grown_count. change (size (hs_linked _)) with 0. simpl Nat.add. rewrite Ho. done.
Qed.
