(** Property theorems about the intrusive containers: C01-C08.
    Models: LinkedList.v, Queue.v, BasicHashtable.v. Specifications: Containers.v (sequences, sets),
    AQueue.v ([aq_step], order inside the queue), ATable.v ([bidx]). *)
From Verif Require Import Base LinkedList Queue BasicHashtable ATable AQueue Containers.
From Verif Require Import LinkedListProofs ContainersProofs.

(** ** C01 *)
(** Every legal history of list operations runs without undefined behaviour and leaves every list
    object holding exactly its specified sequence, readable in both directions; an element is linked
    exactly when some list holds it. *)
Theorem C01_list_is_sequence : forall os s, lsem_run lspec_init os = Some s ->
  exists h, lrun ∅ os = Ok h /\
    (forall i L, ls_lists s !! i = Some L ->
       elements i h = Ok L /\ elements_back i h = Ok (reverse L) /\ empty i h = Ok (bool_decide (L = []))) /\
    (forall e, e ∈ ls_elems s -> is_linked h (ElemL e) = Ok (bool_decide (~ lfree s e))).
Proof. exact list_histories. Qed.
Print Assumptions C01_list_is_sequence.

Definition list_history : list lop :=
  [LNewList 0; LNewList 1; LNewElem 7; LNewElem 8; LNewElem 9; LNewElem 10;
   LFront 0 7; LBack 0 8; LAfter 0 (Some 7) 9; LBefore 1 None 10; LUnlink 0 8; LFront 1 8;
   LMove 2 0]%N.
Example C01_example : exists s, lsem_run lspec_init list_history = Some s /\
  ls_lists s !! 2%N = Some [7; 9]%N /\ ls_lists s !! 0%N = Some [] /\ ls_lists s !! 1%N = Some [8; 10]%N.
Proof. eexists; split; [vm_compute; reflexivity|]. vm_compute. done. Qed.

(** ** C02 *)
(** Full statement wanted: for EVERY source list. It holds exactly for non-empty sources; see the refutation. *)
Theorem C02_list_move_partial : forall os s i j L,
  lsem_run lspec_init os = Some s -> ls_lists s !! j = Some L -> L <> [] -> ls_lists s !! i = None ->
  exists h h', lrun ∅ os = Ok h /\ list_move i j h = Ok h' /\
    elements i h' = Ok L /\ elements_back i h' = Ok (reverse L) /\
    elements j h' = Ok [] /\ empty j h' = Ok true /\
    (forall k M, k <> j -> ls_lists s !! k = Some M -> elements k h' = Ok M) /\
    (forall e, e ∈ ls_elems s -> is_linked h' (ElemL e) = is_linked h (ElemL e)).
Proof. exact list_move_histories. Qed.
Print Assumptions C02_list_move_partial.

(** Moving from any empty list breaks both list objects: neither is empty any more and iterating
    either of them runs into the other object's head. *)
Theorem C02_list_move_refuted : forall os s i j,
  lsem_run lspec_init os = Some s -> ls_lists s !! j = Some [] -> ls_lists s !! i = None ->
  exists h h', lrun ∅ os = Ok h /\ list_move i j h = Ok h' /\
    elements i h' = UB /\ elements j h' = UB /\ empty i h' = Ok false /\ empty j h' = Ok false.
Proof. exact list_move_empty_histories. Qed.
Print Assumptions C02_list_move_refuted.

Example C02_example : exists s, lsem_run lspec_init [LNewList 0; LNewElem 4; LNewList 3; LBack 3 4]%N = Some s /\
  ls_lists s !! 3%N = Some [4]%N /\ ls_lists s !! 0%N = Some [] /\ ls_lists s !! 5%N = None.
Proof. eexists; split; [vm_compute; reflexivity|]. vm_compute. done. Qed.

(** ** C03 *)
(** For every load-factor rule [over], maximal bucket count and reserve rule. *)
Theorem C03_table_histories : forall over mbc req os s,
  0 < mbc -> hsem_run hspec_init os = Some s ->
  exists t h L, hrun over mbc req (table_init 0, eheap_init) os = Ok (t, h) /\
    ht_elements t h = Ok L /\ NoDup L /\ (forall e, e ∈ L <-> is_Some (hs_linked s !! e)) /\
    t_size t = size (hs_linked s) /\
    (forall i, i < bucket_count t ->
       ht_bucket_elements t h i =
         Ok (filter (fun e => bidx (bucket_count t) (default 0%N (hs_linked s !! e)) = i) L)).
Proof. exact table_histories. Qed.
Print Assumptions C03_table_histories.

(** Order: a linked element becomes the last one of its bucket, and whenever the table is
    redistributed (growth during [link], [reserve]) elements that share a bucket afterwards keep the
    order in which the iteration visited them before. [reserve] never shrinks the table. *)
Theorem C03_table_order : forall over mbc req os s,
  0 < mbc -> hsem_run hspec_init os = Some s ->
  exists t h L, hrun over mbc req (table_init 0, eheap_init) os = Ok (t, h) /\ ht_elements t h = Ok L /\
    (forall x e, e ∈ hs_elems s -> hs_linked s !! e = None ->
       exists t' h' s', ht_link over mbc t h x e = Ok (t', h', s') /\
       forall i, i < bucket_count t' ->
         ht_bucket_elements t' h' i =
           Ok (filter (fun y => bidx (bucket_count t') (default 0%N (<[e := x]> (hs_linked s) !! y)) = i) (L ++ [e]))) /\
    (forall n, exists t' h', ht_reserve mbc req t h n = Ok (t', h') /\
       bucket_count t <= bucket_count t' /\
       forall i, i < bucket_count t' ->
         ht_bucket_elements t' h' i =
           Ok (filter (fun y => bidx (bucket_count t') (default 0%N (hs_linked s !! y)) = i) L)).
Proof. exact table_order. Qed.
Print Assumptions C03_table_order.

Definition over1 (n b : nat) : bool := bool_decide (b < n).
Definition table_history : list hop :=
  [HNew 1; HNew 2; HNew 3; HNew 4; HNew 5; HNew 6;
   HLink 9 1; HLink 5 2; HLink 1 3; HUnlink 2; HLink 2 4; HReserve 7; HLink 12 5; HLink 9 6; HMove 4; HUnlink 3; HFree 3]%N.
Example C03_example : exists s, hsem_run hspec_init table_history = Some s /\ hs_linked s !! 4%N = Some 2%N /\ 0 < 1000.
Proof. eexists; split; [vm_compute; reflexivity|]. vm_compute. split; [done|lia]. Qed.
Example C03_example_run : exists t h, hrun over1 1000 (fun n => n) (table_init 0, eheap_init) table_history = Ok (t, h) /\
  ht_elements t h = Ok [1; 4; 6; 5]%N /\ bucket_count t = 7.
Proof. eexists _, _; split; [vm_compute; reflexivity|]. vm_compute. done. Qed.

(** ** C04 *)
Theorem C04_table_move : forall over mbc req os s i,
  0 < mbc -> hsem_run hspec_init os = Some s ->
  exists t h t' y, hrun over mbc req (table_init 0, eheap_init) os = Ok (t, h) /\ ht_move i t = (t', y) /\
    ht_elements t' h = ht_elements t h /\ t_size t' = t_size t /\ bucket_count t' = bucket_count t /\
    (forall b, b < bucket_count t -> ht_bucket_elements t' h b = ht_bucket_elements t h b) /\
    y = table_init (t_id t).
Proof. exact table_move. Qed.
Print Assumptions C04_table_move.

(** ** C05 *)
(** What [is_hashtable_linked] reports, as long as [clear] is not used: linked AND not the last
    element of the iteration order. *)
Theorem C05_is_linked_partial : forall over mbc req os s,
  0 < mbc -> hsem_run hspec_init os = Some s -> HClear ∉ os ->
  exists t h L, hrun over mbc req (table_init 0, eheap_init) os = Ok (t, h) /\ ht_elements t h = Ok L /\
    forall e, e ∈ hs_elems s ->
      is_hashtable_linked h e = Ok (bool_decide (is_Some (hs_linked s !! e) /\ last L <> Some e)).
Proof. exact table_linked. Qed.
Print Assumptions C05_is_linked_partial.

(** It is wrong for the last linked element, and for elements unlinked by [clear]. *)
Theorem C05_is_linked_refuted :
  (exists os s t h, hsem_run hspec_init os = Some s /\
     hrun over1 1000 (fun n => n) (table_init 0, eheap_init) os = Ok (t, h) /\
     hs_linked s !! 1%N = Some 3%N /\ is_hashtable_linked h 1 = Ok false) /\
  (exists os s t h, hsem_run hspec_init os = Some s /\
     hrun over1 1000 (fun n => n) (table_init 0, eheap_init) os = Ok (t, h) /\
     hs_linked s !! 1%N = None /\ is_hashtable_linked h 1 = Ok true).
Proof.
  split.
  - exists [HNew 1; HLink 3 1]%N. eexists _, _, _. split; [vm_compute; reflexivity|].
    split; [vm_compute; reflexivity|]. vm_compute. done.
  - exists [HNew 1; HNew 2; HLink 3 1; HLink 3 2; HClear]%N. eexists _, _, _. split; [vm_compute; reflexivity|].
    split; [vm_compute; reflexivity|]. vm_compute. done.
Qed.
Print Assumptions C05_is_linked_refuted.

(** ** C06, C07 *)
Theorem C06_queue_halves : forall os s, qsem_run ∅ os = Some s ->
  exists q hot cold, qrun queue_init os = Ok q /\
    elements 0 (q_links q) = Ok (hot ++ cold) /\ NoDup (hot ++ cold) /\
    (forall e, e ∈ hot ++ cold <-> e ∈ s) /\
    (length cold = length hot \/ length cold = S (length hot)) /\
    (forall e, e ∈ hot -> q_hot q !! e = Some (Some true)) /\
    (forall e, e ∈ cold -> q_hot q !! e = Some (Some false)) /\
    (hot, cold) = foldl aq_step ([], []) os /\
    (* C07: eviction *)
    (forall n, lru_expire q n = Ok (take n (reverse cold))).
Proof. exact queue_histories. Qed.
Print Assumptions C06_queue_halves.

Definition queue_history : list qop :=
  [QCreate 1; QCreate 2; QCreate 3; QHit 1; QCreate 4; QRemove 2; QHit 3; QCreate 5]%N.
Example C06_example : match qsem_run ∅ queue_history with
  | Some s => size s = 4 /\ bool_decide (5%N ∈ s) = true /\ bool_decide (2%N ∈ s) = false
  | None => False end.
Proof. vm_compute. done. Qed.
Example C06_example_run : match qrun queue_init queue_history with
  | Ok q => elements 0 (q_links q) = Ok [3; 1; 5; 4]%N /\ lru_expire q 3 = Ok [4; 5]%N
  | _ => False end.
Proof. vm_compute. done. Qed.

(** ** C08 *)
Theorem C08_hit_is_recent_and_protected : forall os s v, qsem_run ∅ os = Some s -> v ∈ s ->
  exists q q' r, qrun queue_init os = Ok q /\ on_hit q v = Ok q' /\
    elements 0 (q_links q') = Ok (v :: r) /\
    (2 <= size s -> q_hot q' !! v = Some (Some true) /\
       forall n L, lru_expire q' n = Ok L -> v ∉ L).
Proof. exact queue_hit_recent. Qed.
Print Assumptions C08_hit_is_recent_and_protected.
Example C08_example : exists s, qsem_run ∅ queue_history = Some s /\ 3%N ∈ s /\ 2 <= size s.
Proof. eexists; split; [vm_compute; reflexivity|]. vm_compute. split; [done|lia]. Qed.
