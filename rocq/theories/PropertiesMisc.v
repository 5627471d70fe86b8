(** Property theorems about handles, compile-time composition and maintenance: C09, C36, C40.
    Models: Refcount.v, Meta.v, Queue.v. Specifications: Refcount.v ([rsem], [owned]), MetaSpec.v. *)
From Verif Require Import Base LinkedList Queue Containers Refcount RefcountProofs Meta MetaSpec MetaProofs.

(** ** C09 *)
(** Full statement wanted: for [rsem_run true], that is with [reset()] and [= nullptr] on any handle
    and [reset(p)] on any handle. The code is wrong there, see the refutations. Everywhere else:
    no use of a destroyed object, an object is alive exactly while somebody owns it, and the objects
    destroyed are those without owner, each once. *)
Theorem C09_handles_partial : forall l p, rsem_run false rspec_init l = Some p ->
  exists s, rrun rst_init l = Ok s /\
    (forall o, is_Some (r_cnt s !! o) <-> owned p o) /\
    NoDup (r_dead s) /\ (forall o, o ∈ r_dead s <-> o ∈ rs_all p /\ ~ owned p o).
Proof. exact handles_count. Qed.
Print Assumptions C09_handles_partial.
Definition handle_history : list rop :=
  [RNew 0 10; RCopy 1 0; RNew 2 20; RMove 3 2; RAssign 1 3; RMoveAssign 0 1; RNull 5; RCopy 4 0; RRelease 4; RAdopt 5 20;
   RDtor 0; RReset 2; RNil 1; RAssign 3 5; RResetTo 1 20; RAssign 5 2; RDtor 3; RReset 1]%N.
Example C09_example : exists p, rsem_run false rspec_init handle_history = Some p /\ rs_all p = [20; 10]%N /\ owners p 20 = 0.
Proof. eexists; split; [vm_compute; reflexivity|]. by vm_compute. Qed.
Example C09_example_run : (exists s, rrun rst_init handle_history = Ok s /\ r_dead s = [20; 10]%N) /\
  (exists s, rrun rst_init (take 16 handle_history) = Ok s /\ r_dead s = [10]%N).
Proof. split; eexists; (split; [vm_compute; reflexivity|]); by vm_compute. Qed.

(** Handle 0 gives up its share by [reset()]; object 10 is still owned by handle 1, but is destroyed
    with handle 0, and handle 1 then works on freed memory. Likewise for [= nullptr]. *)
Theorem C09_reset_refuted : exists l p s, rsem_run true rspec_init l = Some p /\ rrun rst_init l = Ok s /\
  owned p 10 /\ r_dead s = [10%N] /\ rrun rst_init (l ++ [RDtor 1%N]) = UB.
Proof.
  exists [RNew 0 10; RCopy 1 0; RReset 0; RDtor 0]%N. eexists _, _. split; [vm_compute; reflexivity|]. split; [vm_compute; reflexivity|].
  by vm_compute.
Qed.
Print Assumptions C09_reset_refuted.
Theorem C09_assign_null_refuted : exists l p s, rsem_run true rspec_init l = Some p /\ rrun rst_init l = Ok s /\
  owned p 10 /\ r_dead s = [10%N] /\ rrun rst_init (l ++ [RDtor 1%N]) = UB.
Proof.
  exists [RNew 0 10; RCopy 1 0; RNil 0; RDtor 0]%N. eexists _, _. split; [vm_compute; reflexivity|]. split; [vm_compute; reflexivity|].
  by vm_compute.
Qed.
Print Assumptions C09_assign_null_refuted.
(** [reset(p)] destroys the old object whoever else owns it. *)
Theorem C09_reset_to_refuted : exists l p s, rsem_run true rspec_init l = Some p /\ rrun rst_init l = Ok s /\
  owned p 10 /\ r_dead s = [10%N] /\ rrun rst_init (l ++ [RDtor 1%N]) = UB.
Proof.
  exists [RNew 0 10; RCopy 1 0; RNew 2 20; RResetTo 0 20]%N. eexists _, _. split; [vm_compute; reflexivity|]. split; [vm_compute; reflexivity|].
  by vm_compute.
Qed.
Print Assumptions C09_reset_to_refuted.

(** ** C36 *)
Theorem C36_type_lists : forall T (H : EqDecision T) (x : T) f (l acc ex : list T) ls,
  tl_remove_all [] x l = filter (fun y => x <> y) l /\
  tl_remove [] x l = rm_first x l /\
  tl_distinct [] l = firsts [] l /\
  tl_extend acc ls = acc ++ concat ls /\
  tl_reverse [] l = rev l /\
  tl_filter [] f l = List.filter f l /\
  tl_exclude l ex = filter (fun y => y ∉ ex) l /\
  (tl_has x l = true <-> x ∈ l).
Proof. exact @type_lists. Qed.
Print Assumptions C36_type_lists.
Theorem C36_first_occurrences : forall T (H : EqDecision T) (l : list T),
  NoDup (firsts [] l) /\ sublist (firsts [] l) l /\ forall x, x ∈ firsts [] l <-> x ∈ l.
Proof. exact @first_occurrences. Qed.
Print Assumptions C36_first_occurrences.
(** The list ends with the user's policies as given; before them each dependency that the user did
    not list, once; before them the defaults, one threading policy among them unless chosen. *)
Theorem C36_all_policies : forall T (H : EqDecision T) (P : policies T) n us, (forall p, p ∈ us -> depth P n p) ->
  exists dfl deps, all_policies P n us = dfl ++ deps ++ us /\ defaults P us dfl /\
    NoDup deps /\ (forall q, q ∈ deps <-> q ∉ us /\ exists p, p ∈ us /\ needs P p q).
Proof. exact @all_policies_spec. Qed.
Print Assumptions C36_all_policies.
Theorem C36_explicit_dependency : forall T (H : EqDecision T) (P : policies T) n us d, (forall p, p ∈ us -> depth P n p) ->
  d ∉ us -> (exists p, p ∈ us /\ needs P p d) ->
  exists dfl deps dfl' deps', all_policies P n us = dfl ++ deps ++ us /\ all_policies P n (d :: us) = dfl' ++ deps' ++ d :: us /\
    count_of d (deps ++ us) = 1 /\ count_of d (deps' ++ d :: us) = 1 /\
    (forall q, q ∈ deps' ++ d :: us <-> q ∈ deps ++ us).
Proof. exact @explicit_dependency. Qed.
Print Assumptions C36_explicit_dependency.
(** Full statement wanted: for every dependency [q]. Missing: the default allocator, equality and hash
    policies, see the refutation. *)
Theorem C36_once_partial : forall T (H : EqDecision T) (P : policies T) n us q,
  (forall p, p ∈ us -> depth P n p) -> po_error P (po_derror P) = true ->
  q ∉ us -> (exists p, p ∈ us /\ needs P p q) -> q ∉ [po_dalloc P; po_dequal P; po_dhash P] ->
  count_of q (all_policies P n us) = 1.
Proof. exact @policy_counts. Qed.
Print Assumptions C36_once_partial.

(** Policies 1 needs 2 and 3, 2 needs 4, 3 needs 4 and 10; 10, 11 threading; 20-23 the defaults; 5 has a hash. *)
Definition some_policies : policies N := Policies
  (fun p => if decide (p = 1) then [2; 3] else if decide (p = 2) then [4] else if decide (p = 3) then [4; 10] else [])%N
  (fun p => bool_decide (p = 20%N)) (fun p => bool_decide (p ∈ [5; 21]%N)) (fun p => bool_decide (p = 22%N))
  (fun p => bool_decide (p = 23%N)) 10%N 11%N 20%N 21%N 22%N 23%N.
Example C36_example :
  all_policies some_policies 5 [5; 1]%N = [22; 20; 23; 4; 10; 2; 3; 5; 1]%N /\
  all_policies some_policies 5 [3; 5; 1]%N = [22; 20; 23; 4; 10; 2; 3; 5; 1]%N /\
  all_policies some_policies 5 [6]%N = [10; 22; 20; 21; 23; 6]%N /\
  all_policies some_policies 5 [11]%N = [22; 20; 21; 23; 11]%N.
Proof. by vm_compute. Qed.
Example C36_example_depth : forall p, p ∈ [5; 1]%N -> depth some_policies 5 p.
Proof.
  intros p [->|[->|[]%elem_of_nil]%elem_of_cons]%elem_of_cons; constructor; simpl; intros q Hq;
    repeat (apply elem_of_cons in Hq as [->|Hq]; [constructor; simpl; intros q Hq|]); try (by apply elem_of_nil in Hq);
    repeat (apply elem_of_cons in Hq as [->|Hq]; [constructor; simpl; intros q Hq|]); try (by apply elem_of_nil in Hq).
Qed.
(** The defaults for allocator, equality and hash look only at the user's policies: a policy that
    depends on the standard hash policy gets it twice. *)
Theorem C36_dependency_twice_refuted : exists (P : policies N) us q, (forall p, p ∈ us -> depth P 2 p) /\
  q ∉ us /\ (exists p, p ∈ us /\ needs P p q) /\ count_of q (all_policies P 2 us) = 2.
Proof.
  exists (Policies (fun p => if decide (p = 1) then [21] else [])%N (fun _ => false) (fun p => bool_decide (p = 21%N))
    (fun _ => false) (fun _ => false) 10%N 11%N 20%N 21%N 22%N 23%N), [1]%N, 21%N.
  split.
  - intros p ->%elem_of_list_singleton. constructor. simpl. intros q ->%elem_of_list_singleton. constructor. simpl. intros q ?%elem_of_nil. done.
  - split; [by rewrite elem_of_list_singleton|]. split; [exists 1%N; split; [by left|by constructor; left]|]. by vm_compute.
Qed.
Print Assumptions C36_dependency_twice_refuted.

(** ** C40 *)
(** Full statement wanted: [length dropped = Nat.min n (length (hot ++ cold))]. The demand passed on is
    the largest of the policies' demands, but only elements of the cold half are dropped. *)
Theorem C40_maintenance_partial : forall ds n os s, maintenance_demand ds = Some n -> qsem_run ∅ os = Some s ->
  (forall d, Some d ∈ ds -> d <= n) /\ Some n ∈ ds /\
  exists q hot cold, qrun queue_init os = Ok q /\ elements 0 (q_links q) = Ok (hot ++ cold) /\
    (length cold = length hot \/ length cold = S (length hot)) /\
    exists dropped, lru_expire q n = Ok dropped /\ length dropped = Nat.min n (length cold).
Proof. exact demand_max. Qed.
Print Assumptions C40_maintenance_partial.
Example C40_example : maintenance_demand [None; Some 1; Some 3; None; Some 2] = Some 3 /\
  is_Some (qsem_run ∅ [QCreate 1; QCreate 2; QHit 1; QCreate 3]%N).
Proof. split; [done|]. by eexists. Qed.
Theorem C40_maintenance_refuted : exists ds n os q L dropped, maintenance_demand ds = Some n /\ qrun queue_init os = Ok q /\
  elements 0 (q_links q) = Ok L /\ n <= length L /\ lru_expire q n = Ok dropped /\ length dropped < n.
Proof.
  exists [Some 2], 2, [QCreate 1; QCreate 2]%N. eexists _, _, _. split; [done|]. split; [vm_compute; reflexivity|].
  split; [vm_compute; reflexivity|]. split; [simpl; lia|]. split; [vm_compute; reflexivity|]. simpl. lia.
Qed.
Print Assumptions C40_maintenance_refuted.
