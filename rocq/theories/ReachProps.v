(** C04-C06: reachability, barren pruning, route-first ordering. *)
From stdpp Require Import sorting.
From stdpp Require Import base list strings gmap relations.
From Verif Require Import StrOrder SccModel SccSpec Worklist IdModel ReachModel ReachSpec ReachProofs.

(** C04.  Whatever calls are made on one extractor, in whatever order, each
    answer is exact - as long as a cache key always stands for the same predicate
    on the edges of this call graph.  A function appears in the answer exactly
    when it takes part in the call graph and has a chain of calls ending in a
    matching edge. *)
Theorem C04_reach_answers_exact : ∀ iter itern es qs, is_order iter → is_order itern →
  (∀ i j k p q, qs !! i = Some (k, p) → qs !! j = Some (k, q) → ∀ e, e ∈ es → p e = q e) →
  ∃ ss, reach_calls iter itern es ∅ qs = Some ss ∧
    Forall2 (λ q s, ∀ f, f ∈ s ↔ appears (edge_pairs es) f ∧ reaches_match es (q.2) f) qs ss.
Proof. exact reach_calls_ok. Qed.
Print Assumptions C04_reach_answers_exact.

(** C05.  For every finite expansion relation the computation ends and keeps an
    identity exactly when it is reachable from a root and can itself reach a
    match. *)
Theorem C05_kept_iff_leads_to_match : ∀ K `{Countable K} (children : K → list K) (mtch : K → bool)
    (roots : list K) (U : gset K) (fuel : nat),
  (∀ x, x ∈ roots → x ∈ U) → (∀ x y, x ∈ U → y ∈ children x → y ∈ U) → size U ≤ fuel →
  ∃ r, compute_reach children mtch fuel roots = Some r ∧
    ∀ id, can_reach_match (Some r) id = true ↔
      (∃ x, x ∈ roots ∧ rtc (λ a b, b ∈ children a) x id) ∧
      (∃ y, rtc (λ a b, b ∈ children a) id y ∧ mtch y = true).
Proof.
  intros K ? ? children mtch roots U fuel H1 H2 H3.
  destruct (compute_reach_ok children mtch roots U fuel H1 H2 H3) as (r & Hr & Hok).
  exists r. split; [exact Hr|]. intros x. unfold can_reach_match. rewrite bool_decide_eq_true. apply Hok.
Qed.
Print Assumptions C05_kept_iff_leads_to_match.

(** C05, on paths: every identity on a path from a root to a match survives, and
    below a pruned identity there is no match. *)
Theorem C05_every_path_to_a_match_survives : ∀ K `{Countable K} (children : K → list K) (mtch : K → bool)
    (roots : list K) (U : gset K) (fuel : nat) (r : gset K),
  (∀ x, x ∈ roots → x ∈ U) → (∀ x y, x ∈ U → y ∈ children x → y ∈ U) → size U ≤ fuel →
  compute_reach children mtch fuel roots = Some r →
  (∀ p x y, tree_path children p → head p = Some x → x ∈ roots → last p = Some y → mtch y = true →
     Forall (λ id, can_reach_match (Some r) id = true) p) ∧
  (∀ p x y z, tree_path children p → head p = Some x → x ∈ roots → last p = Some y →
     can_reach_match (Some r) y = false → rtc (λ a b, b ∈ children a) y z → mtch z = false).
Proof.
  intros K ? ? children mtch roots U fuel r H1 H2 H3 Hr.
  destruct (compute_reach_ok children mtch roots U fuel H1 H2 H3) as (r' & Hr' & Hok).
  assert (r' = r) as -> by congruence.
  assert (∀ p x y, tree_path children p → head p = Some x → last p = Some y →
    Forall (λ id, rtc (λ a b, b ∈ children a) x id ∧ rtc (λ a b, b ∈ children a) id y) p) as Hpath.
  { intros p x y Hp. revert x y. induction Hp as [u|u v p Huv Hp IH]; intros x y Hx Hy.
    - simpl in *. simplify_eq. constructor; [|constructor]. split; apply rtc_refl.
    - simpl in Hx. injection Hx as ->. rewrite last_cons in Hy.
      assert (last (v :: p) = Some y) as Hy'.
      { destruct (last (v :: p)) eqn:E; [done|]. by apply last_None in E. }
      specialize (IH v y eq_refl Hy'). constructor.
      + split; [apply rtc_refl|]. apply Forall_cons in IH as [[_ IH] _]. eapply rtc_l; [exact Huv|done].
      + eapply Forall_impl; [exact IH|]. intros w [Ha Hb]. split; [|done]. eapply rtc_l; [exact Huv|done]. }
  split.
  - intros p x y Hp Hx Hroot Hy Hm. eapply Forall_impl; [by apply (Hpath p x y)|].
    intros w [Hxw Hwy]. apply bool_decide_eq_true, Hok. split; [exists x|exists y]; (split; [done || exact Hwy|done || exact Hxw]).
  - intros p x y z Hp Hx Hroot Hy Hno Hyz.
    destruct (mtch z) eqn:Hm; [|done]. exfalso.
    apply bool_decide_eq_false in Hno. apply Hno, Hok. split; [|exists z; split; [exact Hyz|exact Hm]].
    exists x. split; [done|]. pose proof (Hpath p x y Hp Hx Hy) as Hall.
    apply last_Some_elem_of in Hy. rewrite Forall_forall in Hall. exact (proj1 (Hall y Hy)).
Qed.
Print Assumptions C05_every_path_to_a_match_survives.

(** C06.  The hint set is the exact backward closure over "calls" and "is written
    inside". *)
Theorem C06_route_hint_exact : ∀ es m,
  ∃ r, route_reach_set es (Some m) = Some (Some r) ∧
    ∀ key, leads_to_route strip_to_base (Some r) key = true ↔ leads_to_match es m (strip_to_base key).
Proof.
  intros es m. destruct (route_reach_ok es m) as (r & Hr & Hok). exists r. split; [done|].
  intros key. unfold leads_to_route. rewrite bool_decide_eq_true. apply Hok.
Qed.
Print Assumptions C06_route_hint_exact.

(** C06.  The reordering permutes the plan, leaves the first [from] children in
    place, keeps the relative order inside each class, and puts every leading
    child (from position [from] on) before every other one. *)
Theorem C06_ordering_is_stable_partition : ∀ A (leads : A → bool) (plan : list A) from,
  let out := order_toward_routes true leads plan from in
  out ≡ₚ plan ∧
  take from out = take from plan ∧
  filter (λ s, leads s = true) (drop from out) = filter (λ s, leads s = true) (drop from plan) ∧
  filter (λ s, leads s = false) (drop from out) = filter (λ s, leads s = false) (drop from plan) ∧
  ∃ front back, drop from out = front ++ back ∧
    Forall (λ s, leads s = true) front ∧ Forall (λ s, leads s = false) back.
Proof.
  intros A leads plan from out. unfold out. rewrite order_shape.
  set (T := filter (λ s, leads s = true) (drop from plan)).
  set (F := filter (λ s, leads s = false) (drop from plan)).
  assert (drop from (take from plan ++ T ++ F) = T ++ F ∧ take from (take from plan ++ T ++ F) = take from plan) as [-> ->].
  { destruct (decide (from ≤ length plan)) as [Hle|Hgt].
    - split; [rewrite drop_app_alt|rewrite take_app_alt]; rewrite ?take_length; try done; lia.
    - assert (T = [] ∧ F = []) as [-> ->].
      { unfold T, F. by rewrite drop_ge by lia. }
      rewrite !app_nil_r. split; [apply drop_ge; rewrite take_length; lia|]. rewrite take_take. f_equal. lia. }
  assert (Forall (λ s, leads s = true) T) as HT.
  { apply Forall_forall. intros x Hx. by apply elem_of_list_filter in Hx as [? _]. }
  assert (Forall (λ s, leads s = false) F) as HF.
  { apply Forall_forall. intros x Hx. by apply elem_of_list_filter in Hx as [? _]. }
  split; [|split; [|split; [|split]]].
  - transitivity (take from plan ++ drop from plan); [|by rewrite take_drop].
    apply Permutation_app_head, partition_perm.
  - done.
  - rewrite filter_app, filter_all by (by apply Forall_forall).
    rewrite filter_nothing; [by rewrite app_nil_r|]. intros x Hx. rewrite Forall_forall in HF. rewrite HF; done.
  - rewrite filter_app, (filter_all _ F) by (by apply Forall_forall).
    rewrite filter_nothing; [done|]. intros x Hx. rewrite Forall_forall in HT. rewrite HT; done.
  - eauto.
Qed.
Print Assumptions C06_ordering_is_stable_partition.

(** Non-vacuity. *)
Definition ex_es : list cg_edge :=
  [CgEdge "main" "setup" None 0; CgEdge "setup" "helper" None 1; CgEdge "helper" "setup" None 2;
   CgEdge "setup" "chi.Get" None 7; CgEdge "FuncLit:x" "chi.Post" (Some "group") 7; CgEdge "main" "group" None 4;
   CgEdge "log" "fmt" None 5].
Definition ex_m (e : cg_edge) : bool := bool_decide (ce_data e = 7).

Example C04_example : ∃ s1 s2, reach_calls reverse id ex_es ∅ [("routes", ex_m); ("routes", ex_m)] = Some [s1; s2] ∧
  elements s1 = elements (list_to_set ["FuncLit:x"; "main"; "setup"; "helper"] : gset string).
Proof. eexists _, _. split; [vm_compute; reflexivity|]. by vm_compute. Qed.

Definition ex_children (n : nat) : list nat :=
  match n with 0 => [1; 2] | 1 => [3; 1] | 2 => [4] | 3 => [5; 0] | _ => [] end.
Example C05_example : elements <$> compute_reach ex_children (λ n, bool_decide (n = 5)) 6 [0] =
  Some (elements ({[0; 1; 3; 5]} : gset nat)).
Proof. by vm_compute. Qed.
Example C05_example_hyp : ∀ x y, x ∈ (list_to_set [0;1;2;3;4;5] : gset nat) → y ∈ ex_children x →
  y ∈ (list_to_set [0;1;2;3;4;5] : gset nat).
Proof.
  intros x y _ Hy. apply elem_of_list_to_set.
  destruct x as [|[|[|[|x]]]]; simpl in Hy; set_solver.
Qed.

Example C06_example : ∃ r, route_reach_set ex_es (Some ex_m) = Some (Some r) ∧
  order_toward_routes true (leads_to_route strip_to_base (Some r)) ["arg"; "log"; "setup[T=int]@x:1"; "fmt"; "group"] 1 =
  ["arg"; "setup[T=int]@x:1"; "group"; "log"; "fmt"].
Proof. eexists. split; [vm_compute; reflexivity|]. by vm_compute. Qed.
