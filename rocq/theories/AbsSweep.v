(** The loops over table positions as recursion over lists of elements. *)
From Verif Require Import Base AQueue ATable BasicHashtable QueueProofs BasicHashtableProofs ContainersProofs CompSim Mapped Cache CacheAbs AbsInv.

Lemma rbind_inv {A B} (m : res A) (f : A -> res B) b : rbind m f = Ok b -> exists a, m = Ok a /\ f a = Ok b.
Proof. destruct m; simpl; try done. eauto. Qed.

Ltac rinv H :=
  repeat match type of H with
  | rbind _ _ = Ok _ => let a := fresh "a" in let E := fresh "E" in apply rbind_inv in H as (a & E & H)
  end.

(** the shape of the table *)
Definition same_tab (s s' : sta) : Prop := a_bs (cs s') = a_bs (cs s) /\ a_torn (cs s') = a_torn (cs s).
Lemma same_tab_refl s : same_tab s s.
Proof. done. Qed.
Lemma same_tab_trans s1 s2 s3 : same_tab s1 s2 -> same_tab s2 s3 -> same_tab s1 s3.
Proof. unfold same_tab. intros [-> ->] [-> ->]. done. Qed.
Lemma need_inv {A} (P : Prop) `{Decision P} (m : res A) a : need P m = Ok a -> P /\ m = Ok a.
Proof. unfold need. destruct (decide P); [|done]. auto. Qed.

Lemma s_upd_tab s e f s' : s_upd s e f = Ok s' -> same_tab s s'.
Proof. unfold s_upd. intros H. rinv H. by injection H as <-. Qed.
Lemma drop_ref_tab (s : sta) e s' : drop_ref s e = Ok s' -> same_tab s s'.
Proof.
  unfold drop_ref. intros H. rinv H. destruct (el_rc a) as [|[|n]]; [done| |by eapply s_upd_tab].
  unfold destroy in H. destruct (el_map a) as [[[|] ? ?]| | | | |]; try done; rinv H; injection H as <-;
    simpl in *; apply need_inv in E0 as [_ E0]; by injection E0 as <-.
Qed.
Lemma drop_pcb_tab (s : sta) p s' : drop_pcb s p = Ok s' -> same_tab s s'.
Proof. destruct p; simpl; [by intros [= <-]|apply drop_ref_tab]. Qed.
Lemma drop_pcbs_tab ps (s : sta) s' : drop_pcbs s ps = Ok s' -> same_tab s s'.
Proof.
  revert s. induction ps as [|p ps IH]; intros s H; simpl in H; [by injection H as <-|].
  rinv H. eapply same_tab_trans; [by eapply drop_pcb_tab|eauto].
Qed.
Lemma el_cancel_tab (s : sta) e s' : el_cancel s e = Ok s' -> same_tab s s'.
Proof.
  unfold el_cancel. intros H. rinv H. destruct (el_map a); try by injection H as <-.
  rinv H. eapply same_tab_trans; [by eapply s_upd_tab|by eapply drop_pcbs_tab].
Qed.
Section k.
  Context (k : cfg).
  Lemma on_unlink_tab (s : sta) e s' : on_unlink_ k s e = Ok s' -> same_tab s s'.
  Proof.
    unfold on_unlink_. intros H. rinv H.
    assert (same_tab s a) as H1.
    { destruct (has_queue k); [|by injection E as <-]. rinv E. injection E as <-. simpl in *. apply need_inv in E0 as [_ E0]. by injection E0 as <-. }
    destruct (bool_decide _); [|by injection H as <-]. rinv H. destruct a0; [|by injection H as <-].
    rinv H. injection H as <-. eapply same_tab_trans; [done|]. simpl in *. apply need_inv in E1 as [_ E1]. by injection E1 as <-.
  Qed.
  Lemma dispose_tab (s : sta) e s' : dispose k s e = Ok s' -> same_tab s s'.
  Proof.
    unfold dispose. intros H. rinv H. eapply same_tab_trans; [by eapply el_cancel_tab|].
    eapply same_tab_trans; [by eapply on_unlink_tab|by eapply drop_ref_tab].
  Qed.

  (** ** Sweeps *)
  Fixpoint sw (visit : sta -> N -> res (sta * act)) (M : list N) (s : sta) : res (sta * option (N * mres)) :=
    match M with
    | [] => Ok (s, None)
    | e :: M =>
      '(s, a) <- visit s e;;
      match a with
      | Keep => sw visit M s
      | Drop => s <- dispose k (with_cs s (a_set_bs (cs s) (at_unlink (a_bs (cs s)) e))) e;; sw visit M s
      | Stop r => Ok (s, Some (e, r))
      end
    end.

  Lemma l_slot_snoc P e : l_slot (P ++ [e]) = SSucc e.
  Proof. unfold l_slot. by rewrite last_snoc. Qed.
  Lemma l_slot_app P M : M <> [] -> l_slot (P ++ M) = l_slot M.
  Proof. intros H. unfold l_slot. destruct M as [|x M _] using rev_ind; [done|]. by rewrite app_assoc, !last_snoc. Qed.
  Lemma l_slot_elem M x : l_slot M = SSucc x -> x ∈ M.
  Proof.
    unfold l_slot. destruct (last M) as [y|] eqn:E; [|done]. intros [= ->]. by apply last_Some_elem_of in E.
  Qed.

  Lemma sweep_sw visit : (forall s e s' a, visit s e = Ok (s', a) -> same_tab s s') ->
    forall M fuel (s : sta) P S, concat (a_bs (cs s)) = P ++ M ++ S -> NoDup (P ++ M ++ S) -> a_torn (cs s) = None -> length M <= fuel ->
    sweep k fuel visit s (l_slot P) (l_slot (P ++ M)) = sw visit M s.
  Proof.
    intros Hv. induction M as [|e M IH]; intros fuel s P S Hc Hnd Ht Hf.
    - rewrite app_nil_r. destruct fuel; simpl; by rewrite bool_decide_true.
    - assert (l_slot P <> l_slot (P ++ e :: M)) as Hne.
      { rewrite l_slot_app by done. intros E. 
        destruct (last (e :: M)) as [x|] eqn:El; [|by apply last_None in El].
        assert (l_slot (e :: M) = SSucc x) as E2 by (unfold l_slot; by rewrite El).
        rewrite E2 in E. apply l_slot_elem in E. apply last_Some_elem_of in El.
        apply NoDup_app in Hnd as (_ & Hd & _). apply (Hd x E). apply elem_of_app. by left. }
      destruct fuel as [|fuel]; [simpl in Hf; lia|]. simpl sweep. rewrite bool_decide_false by done.
      change (c_next comp_abs (cs s) (l_slot P)) with
        (need (a_torn (cs s) = None) (match a_split (concat (a_bs (cs s))) (l_slot P) with Some (_, r) => Ok (head r) | None => UB end)).
      unfold need at 1. rewrite decide_True by done. rewrite Hc.
      rewrite l_slot_last at 1. rewrite a_split_at by done. simpl.
      destruct (visit s e) as [[s' a]| | |] eqn:Ev; try done. simpl.
      destruct (Hv _ _ _ _ Ev) as [Eb Et].
      destruct a as [| |r]; [| |done].
      + rewrite <-(l_slot_snoc P e). replace (P ++ e :: M) with ((P ++ [e]) ++ M) by (by rewrite <-app_assoc).
        apply (IH _ _ _ S); rewrite ?Eb, ?Et, <-?app_assoc; try done. simpl in Hf. lia.
      + change (c_unlink comp_abs (cs s') (l_slot P)) with
          (need (a_torn (cs s') = None) (match a_split (concat (a_bs (cs s'))) (l_slot P) with
             Some (_, e :: _) => Ok (a_set_bs (cs s') (at_unlink (a_bs (cs s')) e), e) | _ => UB end)).
        unfold need at 1. rewrite Et, decide_True by done. rewrite Eb, Hc.
        rewrite l_slot_last at 1. rewrite a_split_at by done. simpl. rewrite <-Eb.
        destruct (dispose k (with_cs s' (a_set_bs (cs s') (at_unlink (a_bs (cs s')) e))) e) as [s2| | |] eqn:Ed; try done. simpl.
        destruct (dispose_tab _ _ _ Ed) as [Eb2 Et2]. simpl in Eb2, Et2.
        assert ((if bool_decide (SSucc e = l_slot (P ++ e :: M)) then l_slot P else l_slot (P ++ e :: M)) = l_slot (P ++ M)) as ->.
        { destruct M as [|x M].
          - rewrite l_slot_snoc, bool_decide_true by done. by rewrite app_nil_r.
          - rewrite bool_decide_false.
            + by rewrite !l_slot_app by done.
            + rewrite l_slot_app by done. change (e :: x :: M) with ([e] ++ x :: M). rewrite l_slot_app by done. intros E.
              symmetry in E. apply l_slot_elem in E. apply NoDup_app in Hnd as (_ & _ & Hnd). simpl in Hnd.
              apply NoDup_cons in Hnd as [Hnd _]. apply Hnd. change (e ∈ (x :: M) ++ S). apply elem_of_app. by left. }
        apply (IH _ _ _ S).
        * rewrite Eb2, at_unlink_elems, Eb, Hc. apply NoDup_app in Hnd as (_ & Hd & Hnd). simpl in Hnd.
          apply NoDup_cons in Hnd as [Hnd _]. change (rm e (P ++ e :: (M ++ S)) = P ++ M ++ S). apply rm_split; [|done].
          intros HP. apply (Hd e HP). by left.
        * change (P ++ (e :: M) ++ S) with (P ++ e :: (M ++ S)) in Hnd. apply NoDup_app in Hnd as (? & Hd & Hnd).
          apply NoDup_cons in Hnd as [Hne2 Hnd]. apply NoDup_app. split; [done|]. split; [|done]. intros x Hx Hx2. apply (Hd x Hx). by right.
        * by rewrite Et2, Et.
        * simpl in Hf. lia.
  Qed.

  Local Opaque sweep.
  Definition bucket (s : sta) (h : N) : list N := at_bucket (a_bs (cs s)) (bidx (length (a_bs (cs s))) h).

  Lemma concat_take_S (Bs : list (list N)) i : concat (take (S i) Bs) = concat (take i Bs) ++ at_bucket Bs i.
  Proof.
    unfold at_bucket. destruct (Bs !! i) as [B|] eqn:E.
    - rewrite (take_S_r _ _ _ E), concat_app. simpl. by rewrite app_nil_r.
    - simpl. rewrite app_nil_r. apply lookup_ge_None in E. rewrite !take_ge by lia. done.
  Qed.
  Lemma bidx_le n h : bidx n h <= n.
  Proof. destruct n; [simpl; lia|]. pose proof (bidx_lt (S n) h). lia. Qed.

  Lemma concat_nodup_len (s : sta) : (forall e, e ∈ concat (a_bs (cs s)) -> is_Some (m_els (me s) !! e)) -> NoDup (concat (a_bs (cs s))) ->
    length (concat (a_bs (cs s))) <= size (m_els (me s)).
  Proof.
    intros Hd Hnd. rewrite <-(size_list_to_set (C := gset N)) by done. rewrite <-size_dom. apply subseteq_size.
    intros e He. apply elem_of_dom. apply Hd. by apply elem_of_list_to_set in He.
  Qed.

  Lemma sweep_bucket_sw visit (s : sta) h : (forall s e s' a, visit s e = Ok (s', a) -> same_tab s s') ->
    NoDup (concat (a_bs (cs s))) -> a_torn (cs s) = None -> (forall e, e ∈ concat (a_bs (cs s)) -> is_Some (m_els (me s) !! e)) ->
    sweep_bucket k visit s h = sw visit (bucket s h) s.
  Proof.
    intros Hv Hnd Ht Hd. unfold sweep_bucket. simpl. unfold need.
    pose proof (bidx_le (length (a_bs (cs s))) h) as Hle.
    rewrite decide_True by done. simpl. rewrite decide_True; simpl.
    2: { split; [done|]. destruct (a_bs (cs s)) eqn:E; [by left|]. right. apply bidx_lt. done. }
    rewrite concat_take_S. 
    assert (concat (a_bs (cs s)) = concat (take (bidx (length (a_bs (cs s))) h) (a_bs (cs s))) ++
      at_bucket (a_bs (cs s)) (bidx (length (a_bs (cs s))) h) ++ concat (drop (S (bidx (length (a_bs (cs s))) h)) (a_bs (cs s)))) as Ec.
    { rewrite app_assoc, <-concat_take_S, <-concat_app, take_drop. done. }
    apply (sweep_sw _ Hv _ _ _ _ (concat (drop (S (bidx (length (a_bs (cs s))) h)) (a_bs (cs s))))); try done.
    - by rewrite <-Ec.
    - pose proof (concat_nodup_len s Hd Hnd) as Hl. rewrite Ec, !app_length in Hl. unfold sweep_fuel. lia.
  Qed.

  Lemma sweep_all_sw visit (s : sta) : (forall s e s' a, visit s e = Ok (s', a) -> same_tab s s') ->
    NoDup (concat (a_bs (cs s))) -> a_torn (cs s) = None -> (forall e, e ∈ concat (a_bs (cs s)) -> is_Some (m_els (me s) !! e)) ->
    sweep_all k visit s = ('(s, _) <- sw visit (concat (a_bs (cs s))) s;; Ok s).
  Proof.
    intros Hv Hnd Ht Hd. unfold sweep_all. simpl. unfold need. rewrite decide_True by done. simpl.
    change (SHead 0) with (l_slot []). change (l_slot (concat (a_bs (cs s)))) with (l_slot ([] ++ concat (a_bs (cs s)))).
    rewrite (sweep_sw _ Hv _ _ _ _ []); try done.
    - by rewrite app_nil_r.
    - by rewrite app_nil_r.
    - pose proof (concat_nodup_len s Hd Hnd) as Hl. unfold sweep_fuel. lia.
  Qed.

  (** ** Read-only loops *)
  (** the answer of a lookup among the elements [M] *)
  Definition el_answer (s : sta) (hash : N) (key : Z) (e : N) : res mres :=
    h <- deref (a_hash (cs s) !! e);;
    el <- s_el s e;;
    Ok (if bool_decide (h = hash) && negb (el_expired k (me s) el) && k_eq k (el_key el) key
        then m_get (alive (me s)) false (el_map el) else R0).
  Fixpoint fl (s : sta) (hash : N) (key : Z) (M : list N) : res mres :=
    match M with
    | [] => Ok R0
    | e :: M => r <- el_answer s hash key e;; match r with R0 => fl s hash key M | _ => Ok r end
    end.
  Lemma c_next_at (s : sta) P R : concat (a_bs (cs s)) = P ++ R -> NoDup (P ++ R) -> a_torn (cs s) = None ->
    c_next comp_abs (cs s) (l_slot P) = Ok (head R).
  Proof.
    intros Hc Hnd Ht. change (c_next comp_abs (cs s) (l_slot P)) with
      (need (a_torn (cs s) = None) (match a_split (concat (a_bs (cs s))) (l_slot P) with Some (_, r) => Ok (head r) | None => UB end)).
    unfold need. rewrite decide_True by done. rewrite Hc, l_slot_last, a_split_at by done. done.
  Qed.
  Lemma find_loop_fl (s : sta) hash key : a_torn (cs s) = None -> forall M fuel P S,
    concat (a_bs (cs s)) = P ++ M ++ S -> NoDup (P ++ M ++ S) -> length M < fuel ->
    find_loop k fuel s hash key (head (M ++ S)) (head S) = fl s hash key M.
  Proof.
    intros Ht. induction M as [|e M IH]; intros fuel P S Hc Hnd Hf.
    - destruct fuel; simpl; by rewrite bool_decide_true.
    - assert (head S <> Some e) as Hne.
      { intros E. destruct S as [|x S]; [done|]. injection E as ->. apply NoDup_app in Hnd as (_ & _ & Hnd). simpl in Hnd.
        apply NoDup_cons in Hnd as [Hnd _]. apply Hnd. apply elem_of_app. right. by left. }
      destruct fuel as [|fuel]; [lia|]. simpl. rewrite bool_decide_false by done. 
      unfold el_answer. destruct (a_hash (cs s) !! e) as [h|]; simpl; [|done].
      destruct (s_el s e) as [el| | |]; simpl; try done.
      assert (c_next comp_abs (cs s) (SSucc e) = Ok (head (M ++ S))) as Hn.
      { rewrite <-(l_slot_snoc P e). apply c_next_at; [by rewrite <-app_assoc|by rewrite <-app_assoc|done]. }
      assert (find_loop k fuel s hash key (head (M ++ S)) (head S) = fl s hash key M) as IH'.
      { apply (IH fuel (P ++ [e])); [by rewrite <-app_assoc|by rewrite <-app_assoc|]. simpl in Hf. lia. }
      simpl in Hn. rewrite Hn. simpl. rewrite IH'.
      destruct (bool_decide (h = hash)), (el_expired k (me s) el), (k_eq k (el_key el) key); simpl; try done.
      destruct (m_get (alive (me s)) false (el_map el)) eqn:Em; try done.
      destruct (el_map el) as [| |[]| | |]; simpl in Em; try done. by destruct (alive _ _).
  Qed.
  Local Opaque find_loop.
  Lemma get_if_exists_fl (s : sta) key : 
    NoDup (concat (a_bs (cs s))) -> a_torn (cs s) = None -> (forall e, e ∈ concat (a_bs (cs s)) -> is_Some (m_els (me s) !! e)) ->
    get_if_exists k s key = fl s (k_hash k key) key (bucket s (k_hash k key)).
  Proof.
    intros Hnd Ht Hd. unfold get_if_exists. simpl c_bucket_for. set (idx := bidx (length (a_bs (cs s))) (k_hash k key)).
    assert (idx <= length (a_bs (cs s))) as Hle by apply bidx_le.
    assert (concat (a_bs (cs s)) = concat (take idx (a_bs (cs s))) ++ at_bucket (a_bs (cs s)) idx ++ concat (drop (S idx) (a_bs (cs s)))) as Ec.
    { rewrite app_assoc, <-concat_take_S, <-concat_app, take_drop. done. }
    change (c_before_begin comp_abs (cs s) idx) with (need (a_torn (cs s) = None /\ idx <= length (a_bs (cs s)))
      (Ok (l_slot (concat (take idx (a_bs (cs s))))))).
    change (c_before_end comp_abs (cs s) idx) with (need (a_torn (cs s) = None /\ (a_bs (cs s) = [] \/ idx < length (a_bs (cs s))))
      (Ok (l_slot (concat (take (S idx) (a_bs (cs s))))))).
    unfold need. rewrite decide_True by done. simpl. rewrite decide_True; simpl.
    2: { split; [done|]. unfold idx. destruct (a_bs (cs s)) eqn:E; [by left|]. right. apply bidx_lt. done. }
    assert (c_next comp_abs (cs s) (l_slot (concat (take idx (a_bs (cs s))))) =
      Ok (head (at_bucket (a_bs (cs s)) idx ++ concat (drop (S idx) (a_bs (cs s)))))) as N1.
    { apply c_next_at; [done|by rewrite <-Ec|done]. }
    assert (c_next comp_abs (cs s) (l_slot (concat (take (S idx) (a_bs (cs s))))) =
      Ok (head (concat (drop (S idx) (a_bs (cs s)))))) as N2.
    { apply c_next_at; [by rewrite <-concat_app, take_drop|by rewrite <-concat_app, take_drop|done]. }
    simpl in N1, N2. rewrite N1. simpl. rewrite N2. simpl.
    apply (find_loop_fl _ _ _ Ht _ _ (concat (take idx (a_bs (cs s))))); [done|by rewrite <-Ec|].
    pose proof (concat_nodup_len s Hd Hnd) as Hl. rewrite Ec, !app_length in Hl. unfold sweep_fuel, bucket. fold idx. lia.
  Qed.

  Fixpoint cl (s : sta) (M : list N) : res nat :=
    match M with
    | [] => Ok 0
    | e :: M => el <- s_el s e;; r <- cl s M;; Ok (if el_expired k (me s) el then r else S r)
    end.
  Lemma count_loop_cl (s : sta) : a_torn (cs s) = None -> forall M fuel P,
    concat (a_bs (cs s)) = P ++ M -> NoDup (P ++ M) -> length M <= fuel ->
    count_loop k fuel s (head M) = cl s M.
  Proof.
    intros Ht. induction M as [|e M IH]; intros fuel P Hc Hnd Hf.
    - by destruct fuel.
    - destruct fuel as [|fuel]; [simpl in Hf; lia|]. simpl. destruct (s_el s e); simpl; try done.
      assert (c_next comp_abs (cs s) (SSucc e) = Ok (head M)) as Hn.
      { rewrite <-(l_slot_snoc P e). apply c_next_at; [by rewrite <-app_assoc|by rewrite <-app_assoc|done]. }
      simpl in Hn. rewrite Hn. simpl. rewrite (IH fuel (P ++ [e])); [done|by rewrite <-app_assoc|by rewrite <-app_assoc|]. simpl in Hf; lia.
  Qed.
  Local Opaque count_loop.
  Lemma count_cl (s : sta) : 
    NoDup (concat (a_bs (cs s))) -> a_torn (cs s) = None -> (forall e, e ∈ concat (a_bs (cs s)) -> is_Some (m_els (me s) !! e)) ->
    count k s = cl s (concat (a_bs (cs s))).
  Proof.
    intros Hnd Ht Hd. unfold count. simpl c_before_begin_all. change (SHead 0) with (l_slot []).
    rewrite (c_next_at _ _ (concat (a_bs (cs s)))) by done. simpl rbind. apply (count_loop_cl _ Ht _ _ []); [done..|].
    pose proof (concat_nodup_len s Hd Hnd). unfold sweep_fuel. lia.
  Qed.
End k.
