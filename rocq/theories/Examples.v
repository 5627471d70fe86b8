(** Configurations and histories used in the examples. *)
From Verif Require Import Base Mapped Cache CachePtr Observe Histories PropertiesRefuted.
Local Open Scope Z_scope.

(** Keys that are equal modulo 100; the hash collides a lot. *)
Definition mod_keys (k : cfg) := Cfg (fun x => Z.to_N (x mod 5)) (fun a b => a mod 100 =? b mod 100) (k_pointer k) (k_resolver k) (k_max_size k) (k_weaken k)
  (k_max_age k) (k_err_age k) (k_neg k) (k_steady k) (k_refresh k) (k_over k) (k_mbc k) (k_req k).
Lemma mod_keys_ok k : eq_ok (mod_keys k).
Proof.
  split_and!; simpl; intros *; rewrite ?Z.eqb_eq; intros; subst; try congruence.
  f_equal. Z.div_mod_to_equations. lia.
Qed.

(** a lookup of 7 is in flight; 8 has been looked up and is being refreshed *)
Definition history_clear : list op := [OAGet 1 7 [] true false []; OAGet 2 8 [] true false []; OAssign 1 80 []; OAdvance 12 12; OTick [([], ROk 0, (true, false))]].
Definition cfg_rf := set_refresh cfg_async 10 30.

(** [underway], computed *)
Definition is_underway (k : cfg) (i : N) (key : Z) (s : cache) : bool :=
  match m_cbs (me s) !! i with
  | Some c => match m_els (me s) !! cb_el c with
    | Some el => match el_map el with MPend p => negb (cb_called c) && negb (p_exp p) && k_eq k (el_key el) key | _ => false end
    | None => false end
  | None => false
  end.
Lemma is_underway_ok k i key s : is_underway k i key s = true -> underway k s i key.
Proof.
  unfold is_underway, underway. destruct (m_cbs (me s) !! i) as [c|]; [|done]. destruct (m_els (me s) !! cb_el c) as [el|] eqn:E2; [|done].
  destruct (el_map el) as [p| | | | |] eqn:E3; try done. rewrite !andb_true_iff, !negb_true_iff. intros [[H1 H2] H3]. by exists c, el, p.
Qed.
