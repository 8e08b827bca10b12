(** * Lemmas about the tree expanded on demand. *)
From stdpp Require Import base list strings gmap relations.
From Verif Require Import LazyModel.

Section lazy.
  Context {C : Type}.
  Implicit Types (t : tree C) (s : state C) (nd : node C) (sp : spec C).

  (** What never changes of a node. *)
  Definition skel nd := (nd_key nd, nd_parent nd, nd_content nd, nd_arg nd, nd_scope nd).
  Definition wf (nodes : list (node C)) := ∀ i nd p, nodes !! i = Some nd → nd_parent nd = Some p → p < i.
  (** Which node a child hangs below. *)
  Definition hangs (i : nat) nd sp : nat := if negb (sp_arg sp) && sp_chain sp then match nd_parent nd with Some p => p | None => i end else i.
  Definition child_of (i : nat) nd (cs : nat) sp : node C := Node (sp_key sp) (Some (hangs i nd sp)) (sp_content sp) (sp_arg sp) cs None.
  Definition cnt (m : gmap (string * string) nat) (p : string * string) : nat := default 0 (m !! p).
  (** The children picked when no function has used up its copies. *)
  Fixpoint select t (path : list string) (plan : list (spec C)) (count : nat) : list (spec C) :=
    match plan with
    | [] => []
    | sp :: plan =>
        if negb (sp_arg sp) && bool_decide (max_children (tr_limits t) ≤ count) then select t path plan count
        else if bool_decide (sp_key sp ∈ path) then select t path plan count
        else if negb (tr_reach t sp) then select t path plan count
        else sp :: select t path plan (if sp_arg sp then count else S count)
    end.

  Lemma cnt_insert m p q v : cnt (<[p := v]> m) q = if decide (p = q) then v else cnt m q.
  Proof. unfold cnt. destruct (decide (p = q)) as [->|H]; [by rewrite lookup_insert|by rewrite lookup_insert_ne]. Qed.
  Lemma count_key_wiring s key scope : st_wiring s ≤ st_wiring (count_key s key scope) ≤ S (st_wiring s).
  Proof. unfold count_key; cbn. destruct (_ && _); lia. Qed.
  Lemma count_key_wiring_pos s key scope : 0 < scope → st_wiring (count_key s key scope) = st_wiring s.
  Proof. intros H. unfold count_key; cbn. rewrite (bool_decide_eq_false_2 (scope = 0)); [done|lia]. Qed.

  Definition add_scope (cs n : nat) (l : list nat) : list nat := if decide (0 < cs) then alter (λ v, v + n) cs l else l.
  Lemma add_scope_0 cs l : add_scope cs 0 l = l.
  Proof.
    unfold add_scope. destruct (decide _); [|done]. apply list_eq. intros i. destruct (decide (cs = i)) as [->|Hne].
    - rewrite list_lookup_alter. destruct (l !! i); cbn; [|done]. f_equal; lia.
    - by rewrite list_lookup_alter_ne.
  Qed.
  Lemma add_scope_S cs n l : add_scope cs n (if bool_decide (0 < cs) then alter S cs l else l) = add_scope cs (S n) l.
  Proof.
    unfold add_scope. destruct (decide (0 < cs)) as [H|H]; [|by rewrite bool_decide_eq_false_2].
    rewrite bool_decide_eq_true_2 by done. apply list_eq. intros i. destruct (decide (cs = i)) as [->|Hne].
    - rewrite !list_lookup_alter. destruct (l !! i); cbn; [|done]. f_equal; lia.
    - by rewrite !list_lookup_alter_ne.
  Qed.

  Record looped t (path : list string) (i : nat) nd (scope : string) (cs : nat) (plan : list (spec C)) s (count : nat) (kids : list nat)
      (r : state C * list nat) (mk : list (spec C)) : Prop := {
    lp_nodes : st_nodes r.1 = st_nodes s ++ (child_of i nd cs <$> mk);
    lp_kids : r.2 = kids ++ seq (length (st_nodes s)) (length mk);
    lp_sub : sublist mk plan;
    lp_path : Forall (λ sp, sp_key sp ∉ path ∧ tr_reach t sp = true) mk;
    lp_counts : ∀ sc k, cnt (st_counts r.1) (sc, k) = cnt (st_counts s) (sc, k) + (if decide (sc = scope) then length (filter (λ sp, sp_key sp = k) mk) else 0);
    lp_cap : ∀ p, cnt (st_counts r.1) p ≤ max (cnt (st_counts s) p) (instance_budget (tr_limits t));
    lp_scopes : st_scopes r.1 = add_scope cs (length mk) (st_scopes s);
    lp_made : st_made r.1 = st_made s + length mk;
    lp_wiring : st_wiring s ≤ st_wiring r.1 ≤ st_wiring s + length mk;
    lp_wiring_pos : 0 < cs → st_wiring r.1 = st_wiring s;
    lp_children : count + length (filter (λ sp, sp_arg sp = false) mk) ≤ max count (max_children (tr_limits t));
    lp_trunc : st_truncated r.1 = st_truncated s;
    lp_rcuts : st_route_cuts r.1 = st_route_cuts s;
    lp_icuts : st_instance_cuts s ≤ st_instance_cuts r.1;
    lp_select : st_instance_cuts r.1 = st_instance_cuts s → mk = select t path plan count }.

  Lemma loop_spec t path i nd scope cs plan s count kids :
    ∃ mk, looped t path i nd scope cs plan s count kids (expand_loop t path i nd scope cs plan s count kids) mk.
  Proof.
    revert s count kids. induction plan as [|sp plan IH]; intros s count kids.
    - exists []. split; cbn; try done; try lia.
      + by rewrite app_nil_r.
      + by rewrite app_nil_r.
      + intros. case_decide; cbn; lia.
      + by rewrite add_scope_0.
    - cbn [expand_loop select].
      assert (Hskip : ∀ s', st_nodes s' = st_nodes s → st_counts s' = st_counts s → st_scopes s' = st_scopes s → st_made s' = st_made s →
        st_wiring s' = st_wiring s → st_truncated s' = st_truncated s → st_route_cuts s' = st_route_cuts s → st_instance_cuts s ≤ st_instance_cuts s' →
        (st_instance_cuts s' = st_instance_cuts s → select t path (sp :: plan) count = select t path plan count) →
        ∃ mk, looped t path i nd scope cs (sp :: plan) s count kids (expand_loop t path i nd scope cs plan s' count kids) mk).
      { intros s' E1 E2 E3 E4 E5 E6 E7 E8 E9. destruct (IH s' count kids) as [mk Hmk]. exists mk. destruct Hmk.
        split; rewrite <-?E1, <-?E2, <-?E3, <-?E4, <-?E5, <-?E6, <-?E7; try done.
        - by apply sublist_cons.
        - lia.
        - intros He. rewrite E9 by lia. apply lp_select0. lia. }
      destruct (negb (sp_arg sp) && bool_decide (max_children (tr_limits t) ≤ count)) eqn:Hc.
      { apply Hskip; try done. intros _. cbn. by rewrite Hc. }
      destruct (bool_decide (sp_key sp ∈ path)) eqn:Hp.
      { apply Hskip; try done. intros _. cbn. by rewrite Hc, Hp. }
      destruct (negb (tr_reach t sp)) eqn:Hr.
      { apply Hskip; try done. intros _. cbn. by rewrite Hc, Hp, Hr. }
      destruct (bool_decide (instance_budget (tr_limits t) ≤ default 0 (st_counts s !! (scope, sp_key sp)))) eqn:Hb.
      { apply Hskip; cbn; try done; lia. }
      apply bool_decide_eq_false in Hp, Hb. apply negb_false_iff in Hr.
      destruct (IH (make_child i nd scope cs sp s) (if sp_arg sp then count else S count) (kids ++ [length (st_nodes s)])) as [mk [Q1 Q2 Q3 Q4 Q5 Q6 Q7 Q8 Q9 Q10 Q11 Q12 Q13 Q14 Q15]].
      assert (Hcnt : ∀ p, cnt (st_counts (make_child i nd scope cs sp s)) p = cnt (st_counts s) p + (if decide ((scope, sp_key sp) = p) then 1 else 0)).
      { intros p. change (st_counts (make_child i nd scope cs sp s)) with (<[(scope, sp_key sp) := S (default 0 (st_counts s !! (scope, sp_key sp)))]> (st_counts s)).
        rewrite cnt_insert. destruct (decide _) as [<-|]; unfold cnt; lia. }
      assert (Hw : st_wiring s ≤ st_wiring (make_child i nd scope cs sp s) ≤ S (st_wiring s)).
      { unfold make_child. match goal with |- context [count_key ?x ?y ?z] => apply (count_key_wiring x y z) end. }
      exists (sp :: mk). split.
      + rewrite Q1. change (st_nodes (make_child i nd scope cs sp s)) with (st_nodes s ++ [child_of i nd cs sp]). by rewrite <-app_assoc.
      + rewrite Q2. change (st_nodes (make_child i nd scope cs sp s)) with (st_nodes s ++ [child_of i nd cs sp]).
        rewrite app_length, <-app_assoc. cbn. by rewrite Nat.add_1_r.
      + by apply sublist_skip.
      + by constructor.
      + intros sc k. rewrite Q5, Hcnt. rewrite filter_cons. destruct (decide (sc = scope)) as [->|Hsc].
        * destruct (decide (sp_key sp = k)) as [<-|Hk]; [rewrite decide_True by done; cbn; lia|].
          rewrite (decide_False (P := (scope, sp_key sp) = (scope, k))) by congruence. lia.
        * rewrite decide_False by congruence. lia.
      + intros p. specialize (Q6 p). rewrite Hcnt in Q6. destruct (decide ((scope, sp_key sp) = p)) as [<-|]; [|lia].
        unfold cnt in *. lia.
      + rewrite Q7. apply add_scope_S.
      + rewrite Q8. change (st_made (make_child i nd scope cs sp s)) with (S (st_made s)). cbn. lia.
      + cbn [length]. lia.
      + intros H. rewrite (Q10 H). unfold make_child. match goal with |- context [count_key ?x ?y ?z] => rewrite (count_key_wiring_pos x y z H) end. done.
      + rewrite filter_cons. destruct (sp_arg sp) eqn:Ha.
        * rewrite decide_False by done. lia.
        * rewrite decide_True by done. cbn in Hc. apply bool_decide_eq_false in Hc. cbn [length]. lia.
      + by rewrite Q12.
      + by rewrite Q13.
      + apply Q14.
      + intros He. cbn [select]. rewrite Hc, (bool_decide_eq_false_2 (sp_key sp ∈ path)) by done. rewrite Hr. cbn [negb]. f_equal. by apply Q15.
  Qed.

  (** Following the parents. *)
  Lemma anc_fuel nodes f i : wf nodes → i < f → ancestors f nodes i = lineage nodes i.
  Proof.
    intros Hwf. revert f. induction (lt_wf i) as [i _ IH]. intros f Hf. unfold lineage. destruct f as [|f]; [lia|]. cbn.
    destruct (nodes !! i) as [nd|] eqn:E; [|done]. f_equal. destruct (nd_parent nd) as [p|] eqn:Ep; [|done].
    specialize (Hwf _ _ _ E Ep). rewrite (IH p Hwf f) by lia. symmetry. by apply IH.
  Qed.
  Lemma lineage_eq nodes i nd : wf nodes → nodes !! i = Some nd →
    lineage nodes i = nd :: match nd_parent nd with Some p => lineage nodes p | None => [] end.
  Proof.
    intros Hwf E. unfold lineage at 1. cbn. rewrite E. f_equal. destruct (nd_parent nd) as [p|] eqn:Ep; [|done].
    apply anc_fuel; [done|]. by eapply Hwf.
  Qed.
  Lemma lineage_ext nodes nodes' i : wf nodes → (∀ j nd, nodes !! j = Some nd → skel <$> nodes' !! j = Some (skel nd)) → i < length nodes →
    skel <$> lineage nodes' i = skel <$> lineage nodes i.
  Proof.
    intros Hwf Hs. unfold lineage. generalize (S i) at 1 2. intros f. revert i. induction f as [|f IH]; intros i Hi; [done|].
    cbn. destruct (lookup_lt_is_Some_2 _ _ Hi) as [nd E]. specialize (Hs _ _ E) as E2. rewrite E.
    destruct (nodes' !! i) as [nd'|]; [|done]. cbn [fmap option_fmap option_map] in E2. assert (E3 : skel nd' = skel nd) by congruence.
    change (skel nd' :: (skel <$> match nd_parent nd' with Some p => ancestors f nodes' p | None => [] end) = skel nd :: (skel <$> match nd_parent nd with Some p => ancestors f nodes p | None => [] end)).
    rewrite E3. f_equal. assert (Ep : nd_parent nd' = nd_parent nd) by (unfold skel in E3; congruence). rewrite Ep.
    destruct (nd_parent nd) as [p|] eqn:Ep'; [|done]. apply IH. pose proof (Hwf _ _ _ E Ep'). lia.
  Qed.
  Lemma keys_of_skel (l l' : list (node C)) : skel <$> l' = skel <$> l → nd_key <$> l' = nd_key <$> l.
  Proof.
    intros H. assert (E : (λ q : string * option nat * C * bool * nat, q.1.1.1.1) <$> (skel <$> l') = (λ q : string * option nat * C * bool * nat, q.1.1.1.1) <$> (skel <$> l)) by by rewrite H.
    rewrite <-!list_fmap_compose in E. exact E.
  Qed.
  Lemma scope_of_skel nodes nodes' i : skel <$> lineage nodes' i = skel <$> lineage nodes i → instance_scope nodes' i = instance_scope nodes i.
  Proof.
    unfold instance_scope. generalize (lineage nodes' i), (lineage nodes i). intros l' l. revert l.
    induction l' as [|a l' IH]; intros [|b l] H; try done. cbn in H. injection H as H1 H2 H3 H4 H5 H6. cbn.
    destruct (decide (nd_arg a)) as [Ha|Ha], (decide (nd_arg b)) as [Hb|Hb].
    - done.
    - rewrite H4 in Ha. done.
    - rewrite H4 in Ha. done.
    - specialize (IH l H6). destruct (list_find _ l') as [[? ?]|], (list_find _ l) as [[? ?]|]; cbn; done.
  Qed.

  (** One call: what an expansion does. *)
  Lemma scope_of_state t s nd : st_nodes (scope_of t s nd).1 = st_nodes s ∧ st_counts (scope_of t s nd).1 = st_counts s ∧ st_wiring (scope_of t s nd).1 = st_wiring s
    ∧ st_made (scope_of t s nd).1 = st_made s ∧ st_instance_cuts (scope_of t s nd).1 = st_instance_cuts s ∧ st_truncated (scope_of t s nd).1 = st_truncated s
    ∧ st_route_cuts (scope_of t s nd).1 = st_route_cuts s.
  Proof. unfold scope_of. by destruct (_ || _). Qed.

  Inductive outcome t s (i : nat) : state C → list nat → Prop :=
  | out_none : st_nodes s !! i = None → outcome t s i s []
  | out_memo nd kids : st_nodes s !! i = Some nd → nd_children nd = Some kids → outcome t s i s kids
  | out_wiring nd : st_nodes s !! i = Some nd → nd_children nd = None → nd_scope nd = 0 → budget_exhausted (tr_limits t) s = true →
      outcome t s i (State (st_nodes s) (st_counts s) (st_scopes s) (st_seen s) (st_built s) (st_wiring s) (st_made s) true (st_instance_cuts s) (st_route_cuts s)) []
  | out_route nd : st_nodes s !! i = Some nd → nd_children nd = None → (nd_scope nd = 0 → budget_exhausted (tr_limits t) s = false) → route_exhausted (tr_limits t) s (nd_scope nd) = true →
      outcome t s i (State (st_nodes s) (st_counts s) (st_scopes s) (st_seen s) (st_built s) (st_wiring s) (st_made s) (st_truncated s) (st_instance_cuts s)
                    ({[nd_scope nd]} ∪ st_route_cuts s)) []
  | out_expand nd r mk : st_nodes s !! i = Some nd → nd_children nd = None → (nd_scope nd = 0 → budget_exhausted (tr_limits t) s = false) → route_exhausted (tr_limits t) s (nd_scope nd) = false →
      looped t (nd_key <$> lineage (st_nodes s) i) i nd (instance_scope (st_nodes s) i) (scope_of t s nd).2
        (tr_plan t (nd_content nd) (nd_key nd) (nd_arg nd)) (scope_of t s nd).1 0 [] r mk →
      outcome t s i (set_children r.1 i r.2) r.2.
  Lemma get_outcome t s i : outcome t s i (get_children t s i).1 (get_children t s i).2.
  Proof.
    unfold get_children. destruct (st_nodes s !! i) as [nd|] eqn:E; [|by constructor].
    destruct (nd_children nd) as [kids|] eqn:Ek; [by eapply out_memo|].
    destruct (bool_decide (nd_scope nd = 0) && budget_exhausted (tr_limits t) s) eqn:Hb.
    { apply andb_true_iff in Hb as [H1 H2]. apply bool_decide_eq_true in H1. by eapply out_wiring. }
    assert (Hb' : nd_scope nd = 0 → budget_exhausted (tr_limits t) s = false).
    { intros H0. by rewrite bool_decide_eq_true_2 in Hb. }
    destruct (route_exhausted (tr_limits t) s (nd_scope nd)) eqn:Hr; [by eapply out_route|].
    destruct (scope_of t s nd) as [s1 cs] eqn:Es.
    destruct (loop_spec t (nd_key <$> lineage (st_nodes s) i) i nd (instance_scope (st_nodes s) i) cs (tr_plan t (nd_content nd) (nd_key nd) (nd_arg nd)) s1 0 []) as [mk Hmk].
    destruct (expand_loop t (nd_key <$> lineage (st_nodes s) i) i nd (instance_scope (st_nodes s) i) cs (tr_plan t (nd_content nd) (nd_key nd) (nd_arg nd)) s1 0 []) as [s2 kids] eqn:El.
    cbn. change (outcome t s i (set_children (s2, kids).1 i (s2, kids).2) (s2, kids).2). apply (out_expand t s i nd (s2, kids) mk); try done. by rewrite Es.
  Qed.
End lazy.
