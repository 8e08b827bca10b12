(** * More of C33: the bound on the wiring of a tree expanded on demand, and the defaults of the bounds. *)
From stdpp Require Import base list strings gmap relations.
From Verif Require Import LazyModel LazyProofs LazyProps.

Section wiring.
  Context {C : Type}.
  Implicit Types (t : tree C) (s : state C) (nd : node C).

  (** The functions met outside of the routes: the keys of the nodes made in scope 0. *)
  Definition wired (nodes : list (node C)) : gset string := list_to_set (nd_key <$> filter (λ nd, nd_scope nd = 0 ∧ nd_parent nd ≠ None) nodes).
  Lemma elem_of_wired nodes k : k ∈ wired nodes ↔ ∃ nd, nd ∈ nodes ∧ nd_scope nd = 0 ∧ nd_parent nd ≠ None ∧ nd_key nd = k.
  Proof.
    unfold wired. rewrite elem_of_list_to_set, elem_of_list_fmap. split.
    - intros (nd & -> & ((H1 & H2) & H3)%elem_of_list_filter). by exists nd.
    - intros (nd & H1 & H2 & H3 & <-). exists nd. split; [done|]. by apply elem_of_list_filter.
  Qed.
  Record counted s : Prop := {
    c_seen : ∀ k, k ∈ wired (st_nodes s) ↔ st_seen s !! k = Some true;
    c_size : st_wiring s = size (wired (st_nodes s)) }.

  Lemma wired_snoc nodes nd : nd_parent nd ≠ None → wired (nodes ++ [nd]) = (if decide (nd_scope nd = 0) then {[nd_key nd]} else ∅) ∪ wired nodes.
  Proof.
    intros Hp. apply set_eq. intros k. rewrite elem_of_union, !elem_of_wired. split.
    - intros (x & [Hx|Hx%elem_of_list_singleton]%elem_of_app & H0 & H1 & <-); [right; by exists x|]. subst x. left. rewrite decide_True by done. by apply elem_of_singleton.
    - intros [Hk|(x & Hx & H)].
      + destruct (decide (nd_scope nd = 0)) as [E|E]; [|by apply elem_of_empty in Hk]. apply elem_of_singleton in Hk as ->. exists nd. split; [|done].
        apply elem_of_app. right. by apply elem_of_list_singleton.
      + exists x. split; [|done]. apply elem_of_app. by left.
  Qed.
  Lemma make_counted i nd scope cs sp s : counted s → counted (make_child i nd scope cs sp s).
  Proof.
    intros [Hs Hz]. unfold make_child. set (child := Node _ _ _ _ cs None).
    assert (Hw : wired (st_nodes s ++ [child]) = (if decide (cs = 0) then {[sp_key sp]} else ∅) ∪ wired (st_nodes s)) by (by rewrite wired_snoc).
    assert (Hseen : ∀ k, k ∈ wired (st_nodes s ++ [child]) ↔ k ∈ wired (st_nodes s) ∨ (cs = 0 ∧ k = sp_key sp)).
    { intros k. rewrite Hw, elem_of_union. destruct (decide (cs = 0)) as [E|E]; rewrite ?elem_of_singleton, ?elem_of_empty; revert E; clear; tauto. }
    split; unfold count_key; cbn [st_nodes st_seen st_wiring].
    - intros k. rewrite Hseen. destruct (decide (k = sp_key sp)) as [->|Hne].
      + rewrite lookup_insert. destruct (st_seen s !! sp_key sp) as [[]|] eqn:E; cbn.
        * rewrite orb_true_r. split; [done|]. intros _. left. by apply Hs.
        * destruct (decide (cs = 0)) as [Ec|Ec]; [rewrite bool_decide_eq_true_2 by done|rewrite bool_decide_eq_false_2 by done]; cbn.
          -- split; [done|]. intros _. by right.
          -- split; [|done]. intros [H|[? _]]; [|done]. apply Hs in H. congruence.
        * destruct (decide (cs = 0)) as [Ec|Ec]; [rewrite bool_decide_eq_true_2 by done|rewrite bool_decide_eq_false_2 by done]; cbn.
          -- split; [done|]. intros _. by right.
          -- split; [|done]. intros [H|[? _]]; [|done]. apply Hs in H. congruence.
      + rewrite lookup_insert_ne by (by intros <-). rewrite <- Hs. split; [intros [?|[_ ?]]; done|by left].
    - rewrite Hw. destruct (decide (cs = 0)) as [Ec|Ec]; [rewrite bool_decide_eq_true_2 by done|rewrite bool_decide_eq_false_2 by done]; cbn.
      + destruct (decide (sp_key sp ∈ wired (st_nodes s))) as [Hin|Hin].
        * pose proof (proj1 (Hs _) Hin) as E. rewrite E. cbn. replace ({[sp_key sp]} ∪ wired (st_nodes s)) with (wired (st_nodes s)) by set_solver. done.
        * assert (default false (st_seen s !! sp_key sp) = false) as ->.
          { destruct (st_seen s !! sp_key sp) as [[]|] eqn:E; [|done..]. destruct Hin. by apply Hs. }
          cbn. rewrite size_union by set_solver. rewrite size_singleton, Hz. done.
      + rewrite Hz. f_equal. set_solver.
  Qed.
  Lemma loop_counted t path i nd scope cs plan s count kids : counted s → counted (expand_loop t path i nd scope cs plan s count kids).1.
  Proof.
    revert s count kids. induction plan as [|sp plan IH]; intros s count kids Hs; [done|]. cbn.
    destruct (negb (sp_arg sp) && bool_decide (max_children (tr_limits t) ≤ count)); [by apply IH|].
    destruct (bool_decide (sp_key sp ∈ path)); [by apply IH|]. destruct (negb (tr_reach t sp)); [by apply IH|].
    destruct (bool_decide (instance_budget (tr_limits t) ≤ default 0 (st_counts s !! (scope, sp_key sp)))).
    - apply IH. destruct Hs as [H1 H2]. by split.
    - apply IH. by apply make_counted.
  Qed.
  Lemma set_wired kids i nodes : wired (alter (λ nd, Node (nd_key nd) (nd_parent nd) (nd_content nd) (nd_arg nd) (nd_scope nd) (Some kids)) i nodes) = wired nodes.
  Proof.
    apply set_eq. intros k. rewrite !elem_of_wired. split.
    - intros (nd & [j Hj]%elem_of_list_lookup & H0 & H1 & H2). destruct (decide (i = j)) as [->|Hne].
      + rewrite list_lookup_alter in Hj. destruct (nodes !! j) as [x|] eqn:E; [|done]. cbn in Hj. injection Hj as <-. exists x. split; [by eapply elem_of_list_lookup_2|done].
      + rewrite list_lookup_alter_ne in Hj by done. exists nd. split; [by eapply elem_of_list_lookup_2|done].
    - intros (nd & [j Hj]%elem_of_list_lookup & H0 & H1 & H2). destruct (decide (i = j)) as [->|Hne].
      + eexists. split; [apply elem_of_list_lookup; exists j; by rewrite list_lookup_alter, Hj|done].
      + exists nd. split; [apply elem_of_list_lookup; exists j; by rewrite list_lookup_alter_ne|done].
  Qed.
  Lemma get_counted t s i : counted s → counted (get_children t s i).1.
  Proof.
    intros Hs. unfold get_children. destruct (st_nodes s !! i) as [nd|]; [|done]. destruct (nd_children nd); [done|].
    destruct (bool_decide (nd_scope nd = 0) && budget_exhausted (tr_limits t) s); [destruct Hs; by split|].
    destruct (route_exhausted (tr_limits t) s (nd_scope nd)); [destruct Hs; by split|].
    assert (counted (scope_of t s nd).1) as H1 by (unfold scope_of; destruct (_ || _); [done|]; destruct Hs; by split).
    destruct (scope_of t s nd) as [s1 cs]. cbn in H1.
    pose proof (loop_counted t (nd_key <$> lineage (st_nodes s) i) i nd (instance_scope (st_nodes s) i) cs (tr_plan t (nd_content nd) (nd_key nd) (nd_arg nd)) s1 0 [] H1) as H2.
    destruct (expand_loop _ _ _ _ _ _ _ _ _ _) as [s2 kids]. destruct H2 as [H3 H4]. cbn [fst] in *.
    assert (wired (st_nodes (set_children s2 i kids)) = wired (st_nodes s2)) as E by apply set_wired. split; rewrite E; done.
  Qed.
  Lemma history_counted t c roots s : history t c roots s → counted s.
  Proof.
    unfold history. intros H. remember (new_tree c roots) as s0 eqn:E. assert (counted s0) as H0.
    { assert (wired (root c <$> roots) = ∅) as Ew.
      { apply set_eq. intros k. rewrite elem_of_wired. split; [|by intros ?%elem_of_empty]. intros (nd & (r & -> & _)%elem_of_list_fmap & _ & Hp & _). done. }
      subst. split; unfold new_tree; cbn [st_nodes st_seen st_wiring]; rewrite Ew; [|done].
      intros k. rewrite lookup_empty. split; [by intros ?%elem_of_empty|done]. }
    clear E. induction H as [|x y z [i ->] _ IH]; [done|]. by apply IH, get_counted.
  Qed.

  (** The tree counts the different functions made outside of the routes. *)
  Theorem C33_wiring_exact t c roots s : history t c roots s → st_wiring s = size (wired (st_nodes s)).
  Proof. intros H. apply (c_size _ (history_counted _ _ _ _ H)). Qed.
  (** With a bound on the tree, it is passed by less than what one node has. *)
  Theorem C33_wiring_bounded t c roots s (L : nat) : (∀ c k a, length (tr_plan t c k a) ≤ L) → 0 < max_tree (tr_limits t) → history t c roots s →
    size (wired (st_nodes s)) < max_tree (tr_limits t) + L.
  Proof.
    intros HL Hm H. rewrite <- (C33_wiring_exact t c roots s H). unfold history in H. remember (new_tree c roots) as s0 eqn:E.
    assert (st_wiring s0 < max_tree (tr_limits t) + L) as H0 by (subst; cbn; lia). clear E. induction H as [|x y z [i ->] _ IH]; [done|]. apply IH. clear IH.
    destruct (get_outcome t x i) as [?|?|?|?|nd r mk Hx Hkx Hb Hr Hl]; try done. change (st_wiring (set_children r.1 i r.2)) with (st_wiring r.1).
    pose proof (lp_wiring _ _ _ _ _ _ _ _ _ _ _ _ Hl) as Hw. pose proof (lp_wiring_pos _ _ _ _ _ _ _ _ _ _ _ _ Hl) as Hp.
    destruct (scope_of_state t x nd) as (_ & _ & Ew & _). rewrite Ew in Hw, Hp.
    assert (Hlen : length mk ≤ L) by (etransitivity; [apply sublist_length, (lp_sub _ _ _ _ _ _ _ _ _ _ _ _ Hl)|apply HL]).
    destruct (decide (nd_scope nd = 0)) as [E|E].
    - specialize (Hb E). unfold budget_exhausted in Hb. rewrite bool_decide_eq_true_2 in Hb by done. cbn in Hb. apply bool_decide_eq_false in Hb. lia.
    - rewrite Hp; [done|]. unfold scope_of. rewrite bool_decide_eq_false_2 by done. cbn. lia.
  Qed.
  (** A node outside of the routes is refused exactly when the bound is reached, and that is noted; nothing else notes it. *)
  Theorem C33_wiring_refused t c roots s i nd : history t c roots s → at_node s i nd → nd_children nd = None → nd_scope nd = 0 →
    (0 < max_tree (tr_limits t) ≤ size (wired (st_nodes s)) → (get_children t s i).2 = [] ∧ st_truncated (get_children t s i).1 = true ∧ st_nodes (get_children t s i).1 = st_nodes s) ∧
    (¬ 0 < max_tree (tr_limits t) ≤ size (wired (st_nodes s)) → st_truncated (get_children t s i).1 = st_truncated s ∧ ∃ nd', at_node (get_children t s i).1 i nd' ∧ nd_children nd' = Some (get_children t s i).2).
  Proof.
    intros H Hi Hk H0. rewrite <- (C33_wiring_exact t c roots s H). unfold at_node in *. split.
    - intros [Hm Hw]. unfold get_children. rewrite Hi, Hk, bool_decide_eq_true_2 by done. unfold budget_exhausted. rewrite !bool_decide_eq_true_2 by done. done.
    - intros Hw. assert (budget_exhausted (tr_limits t) s = false) as Hb.
      { unfold budget_exhausted. apply andb_false_iff. destruct (decide (0 < max_tree (tr_limits t))) as [E|E]; [right|left]; apply bool_decide_eq_false; [intros ?; apply Hw; lia|done]. }
      destruct (get_outcome t s i) as [?|x kids Hx Hkx|x Hx Hkx _ Hb'|x Hx Hkx _ Hb'|x r mk Hx Hkx _ Hr Hl]; try congruence.
      + assert (x = nd) as -> by congruence. unfold route_exhausted in Hb'. rewrite H0 in Hb'. done.
      + assert (x = nd) as -> by congruence. destruct (scope_of_state t s nd) as (_ & _ & _ & Hrest). split.
        * change (st_truncated (set_children r.1 i r.2)) with (st_truncated r.1). rewrite (lp_trunc _ _ _ _ _ _ _ _ _ _ _ _ Hl). unfold scope_of. by destruct (_ || _).
        * exists (put r.2 nd). split; [|done]. by apply (ex_self t s i nd r mk Hi Hl).
  Qed.
  (** The copies of a function within one scope, in numbers: as configured, and 100 by default; a route has the number of nodes
      configured, and a million by default, before its last expansion. *)
  Theorem C33_copies_in_numbers t c roots s (scope k : string) (l : list nat) : history t c roots s → NoDup l →
    (∀ j, j ∈ l → has_key s j k ∧ ∃ i, listed s i j ∧ nearest s i scope) →
    (max_instances (tr_limits t) = 0 → length l ≤ 100) ∧ (0 < max_instances (tr_limits t) → length l ≤ max_instances (tr_limits t)).
  Proof.
    intros H Hnd Hl. pose proof (C33_copies_bounded t c roots s scope k l H Hnd Hl) as Hb. unfold instance_budget in Hb.
    split; intros Hm; [rewrite decide_False in Hb by lia|rewrite decide_True in Hb by lia]; done.
  Qed.
  Theorem C34_route_in_numbers t c roots s k (L : nat) : (∀ c k a, length (tr_plan t c k a) ≤ L) → history t c roots s → 0 < k → is_Some (st_scopes s !! k) →
    (max_route (tr_limits t) = 0 → (N.of_nat (length (filter (λ nd, nd_scope nd = k) (st_nodes s))) < 1000000 + N.of_nat L)%N) ∧
    (0 < max_route (tr_limits t) → length (filter (λ nd, nd_scope nd = k) (st_nodes s)) < max_route (tr_limits t) + L).
  Proof.
    intros HL H Hk [v Hv]. rewrite <- (C34_counter_exact t c roots s k v H Hk Hv). pose proof (C34_route_size t c roots s k v L HL H Hk Hv) as Hb.
    unfold route_budget in Hb. split; intros Hm; [rewrite decide_False in Hb by lia|by rewrite decide_True in Hb by lia].
    assert (N.of_nat (10 ^ 6) = 1000000%N) as E by (rewrite Nat2N.inj_pow; reflexivity). lia.
  Qed.
End wiring.

(** With a bound of two, main's three calls are made and the next node is refused. *)
Definition small_tree : tree string := Tree (Limits 2 100 100 50) (table [("main", [call "a"; call "b"; call "c"]); ("a", [call "d"])]) (λ _, true) (λ _, false).
Example C33_wiring_case : let s := run_all small_tree (new_tree "main" ["main"]) [0] in
  history small_tree "main" ["main"] s ∧ size (wired (st_nodes s)) = 3 ∧ nd_key <$> st_nodes s !! 1 = Some "a" ∧ (get_children small_tree s 1).2 = [] ∧
  st_truncated s = false ∧ st_truncated (get_children small_tree s 1).1 = true.
Proof. split; [apply run_all_history|]. repeat split; by vm_compute. Qed.
Print Assumptions C33_wiring_exact.
Print Assumptions C33_wiring_bounded.
Print Assumptions C33_wiring_refused.
Print Assumptions C33_copies_in_numbers.
Print Assumptions C34_route_in_numbers.
