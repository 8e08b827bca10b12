(** * C64: the call trace of a handler and the figures computed from it. *)
From Coq Require Import Ascii.
From stdpp Require Import sorting.
From stdpp Require Import base numbers list strings gmap relations.
From Verif Require Import StrLib StrOrder SccSpec BfsLib TraceModel TraceSpec TracePaths TraceProofs TraceGraph.

(** The depth shown for a function is the fewest calls that lead to it, every function shown can be reached
    from the handler and every call shown is in the code; this holds even for a trace that was cut short. *)
Theorem C64_shown_is_right reach_cap depth_cap g root : 0 < reach_cap →
  let r := trace_with reach_cap depth_cap g root in
  (∀ x d, t_depth r !! x = Some d → distance (calls_other g) root x d)
  ∧ (∀ x, x ∈ t_visited r → rtc (calls_other g) root x)
  ∧ (∀ x y, edge (t_adj r) x y → calls_other g x y) ∧ tidy (t_adj r).
Proof.
  intros Hrc r. pose proof (trace_safe reach_cap depth_cap g root Hrc) as [S1 S2 S3 S4 S5]. split; [done|]. split; [done|]. split; [|by apply trace_tidy].
  intros x y He. apply S3. by apply edge_kids.
Qed.
(** The trace is reported as cut short exactly when the handler reaches more functions than the limit or some
    function only through as many calls as the other limit. *)
Theorem C64_cut_short_iff reach_cap depth_cap g root : 0 < reach_cap →
  t_truncated (trace_with reach_cap depth_cap g root) = false
  ↔ (∃ U : gset string, (∀ x, x ∈ U ↔ rtc (calls_other g) root x) ∧ size U ≤ reach_cap) ∧ ∀ x d, distance (calls_other g) root x d → d < depth_cap.
Proof. apply truncated_iff. Qed.
(** With the limits of the program: 600 functions, and functions less than 14 calls away. *)
Theorem C64_limits g root :
  t_truncated (trace g root) = false
  ↔ (∃ U : gset string, (∀ x, x ∈ U ↔ rtc (calls_other g) root x) ∧ size U ≤ 600) ∧ ∀ x d, distance (calls_other g) root x d → d < 14.
Proof. apply truncated_iff. unfold max_reachable. lia. Qed.
Print Assumptions C64_limits.
(** A trace that is not cut short shows every function and every call. *)
Theorem C64_complete reach_cap depth_cap g root : 0 < reach_cap → t_truncated (trace_with reach_cap depth_cap g root) = false →
  let r := trace_with reach_cap depth_cap g root in
  (∀ x, x ∈ t_visited r ↔ rtc (calls_other g) root x)
  ∧ (∀ x d, t_depth r !! x = Some d ↔ distance (calls_other g) root x d)
  ∧ (∀ x y, edge (t_adj r) x y ↔ rtc (calls_other g) root x ∧ calls_other g x y).
Proof.
  intros Hrc Htr r. split; [|split].
  - intros x. destruct (uncut _ _ _ _ Hrc Htr) as [Hinv _]. fold r in Hinv. rewrite <- (ti_dom _ _ _ _ _ Hinv), elem_of_dom, reach_distance. split; intros [d Hd]; exists d; by apply (uncut_depth reach_cap depth_cap g root Hrc Htr).
  - by apply uncut_depth.
  - intros x y. rewrite edge_kids. by apply uncut_kids.
Qed.
(** ... and its figures are those of the program. *)
Theorem C64_figures reach_cap depth_cap g root : 0 < reach_cap → t_truncated (trace_with reach_cap depth_cap g root) = false →
  let r := trace_with reach_cap depth_cap g root in
  ((∃ x, distance (calls_other g) root x (t_max_depth r)) ∧ ∀ x d, distance (calls_other g) root x d → d ≤ t_max_depth r)
  ∧ ((∃ x, rtc (calls_other g) root x ∧ fan_out g x (t_fanout_max r)) ∧ ∀ x n, rtc (calls_other g) root x → fan_out g x n → n ≤ t_fanout_max r)
  ∧ (∀ l, NoDup l → (∀ x, x ∈ l ↔ rtc (calls_other g) root x) → ∃ ns, Forall2 (fan_out g) l ns ∧ t_fanout_sum r = sum_list ns ∧ t_fanout_nodes r = length (filter (λ n, n ≠ 0) ns)).
Proof.
  intros Hrc Htr r. destruct (uncut _ _ _ _ Hrc Htr) as [Hinv Hq]. fold r in Hinv, Hq.
  assert (∀ x, rtc (calls_other g) root x → fan_out g x (length (kids (t_adj r) x))) as Hfan.
  { intros x Hx. destruct (uncut_kids _ _ _ _ x Hrc Htr) as [K1 K2]. fold r in K1, K2. exists (kids (t_adj r) x). split; [done|]. split; [|done]. intros y. rewrite K2. split; [by intros [_ ?]|done]. }
  assert (∀ x n, rtc (calls_other g) root x → fan_out g x n → n = length (kids (t_adj r) x)) as Huniq.
  { intros x n Hx (ks & H1 & H2 & <-). destruct (Hfan x Hx) as (ks' & H1' & H2' & <-). apply nodup_same_length; [done|done|]. intros y. by rewrite H2, H2'. }
  split; [|split].
  - destruct (ti_max _ _ _ _ _ Hinv) as [M1 (x & M2)]. split; [exists x; by apply (uncut_depth reach_cap depth_cap g root Hrc Htr)|]. intros y d Hd. apply (uncut_depth reach_cap depth_cap g root Hrc Htr) in Hd. by apply (M1 y).
  - destruct (ti_fan _ _ _ _ _ Hinv) as [F1 F2]. split; [|intros x n Hx Hn; rewrite (Huniq x n Hx Hn); apply F1].
    destruct (decide (t_fanout_max r = 0)) as [E|E].
    + exists root. split; [done|]. replace (t_fanout_max r) with (length (kids (t_adj r) root)); [by apply Hfan|]. specialize (F1 root). lia.
    + destruct F2 as [F2|(x & Hx)]; [done|]. exists x. assert (rtc (calls_other g) root x) as Hr.
      { destruct (kids (t_adj r) x) as [|y ks] eqn:Ek; [cbn [length] in Hx; congruence|]. apply (uncut_kids reach_cap depth_cap g root x Hrc Htr) with (y := y). fold r. rewrite Ek. by left. }
      split; [done|]. rewrite <- Hx. by apply Hfan.
  - intros l Hl Hin. destruct (ti_sum _ _ _ _ _ Hinv) as (l' & L1 & L2 & L3 & L4).
    assert (l ≡ₚ l') as Hp.
    { apply NoDup_Permutation; [done|done|]. intros x. rewrite Hin, L2, Hq. rewrite <- (ti_dom _ _ _ _ _ Hinv), elem_of_dom, reach_distance. split.
      - intros [d Hd]. split; [exists d; by apply (uncut_depth reach_cap depth_cap g root Hrc Htr)|apply not_elem_of_nil].
      - intros [[d Hd] _]. exists d. by apply (uncut_depth reach_cap depth_cap g root Hrc Htr). }
    exists ((λ x, length (kids (t_adj r) x)) <$> l). split; [|split].
    + clear -Hfan Hin. assert (∀ x, x ∈ l → rtc (calls_other g) root x) as H by (intros x; apply Hin). clear Hin. induction l as [|x l IH]; [constructor|]. constructor; [apply Hfan, H; by left|]. apply IH. intros y Hy. apply H. by right.
    + rewrite L3. clear -Hp. induction Hp; cbn [fmap list_fmap sum_list_with sum_list id] in *; lia.
    + rewrite L4, <- Hp. clear. induction l as [|x l IH]; [done|]. rewrite fmap_cons, !filter_cons. destruct (kids (t_adj r) x) as [|y ks]; cbn [length].
      * rewrite (decide_False (P := [] ≠ [])) by (by intros ?). rewrite (decide_False (P := 0 ≠ 0)) by lia. done.
      * rewrite (decide_True (P := y :: ks ≠ [])) by done. rewrite (decide_True (P := S (length ks) ≠ 0)) by done. cbn [length]. by rewrite IH.
Qed.

(** ** Paths *)
(** The paths listed are the call paths, each once, up to the limit, by their short labels. *)
Theorem C64_paths_listed adj root cap : tidy adj → ∃ L, lists_paths adj root L ∧ enumerate_paths adj root cap = take cap ((λ p : list string, short_label <$> p) <$> L).
Proof. intros H. exists (paths_of adj root). split; [by apply paths_of_spec|by apply enumerate_paths_spec]. Qed.
(** Where no function calls itself through others, the number of paths is right up to the limit. *)
Theorem C64_paths_counted_partial adj root cap L : tidy adj → no_recursion adj root → 1 < cap → lists_paths adj root L →
  count_paths_with cap adj root = (cap `min` length L, bool_decide (cap ≤ length L)).
Proof.
  intros Ht Hn Hc [L1 L2]. rewrite count_paths_spec by done. assert (num adj root = length L) as ->; [|done]. destruct (paths_of_spec adj root Ht) as [P1 P2].
  apply nodup_same_length; [done|done|]. intros p. by rewrite P2, L2.
Qed.
(** With recursion through others it is not: two functions that call each other. *)
Definition loop_adj : adjacency := {[ "r" := ["a"; "b"]; "a" := ["b"; "x"]; "b" := ["a"; "y"] ]}.
Lemma tidy_dec adj : bool_decide (Forall (λ p : string * list string, NoDup p.2 ∧ p.1 ∉ p.2) (map_to_list adj)) = true → tidy adj.
Proof. intros H x l Hl. apply bool_decide_eq_true in H. rewrite Forall_forall in H. apply elem_of_map_to_list in Hl. exact (H _ Hl). Qed.
Lemma loop_adj_tidy : tidy loop_adj.
Proof. apply tidy_dec. by vm_compute. Qed.
Theorem C64_paths_counted_refuted : ∃ adj root L, tidy adj ∧ lists_paths adj root L ∧ length L < 100 ∧ (count_paths adj root).1 ≠ length L.
Proof.
  exists loop_adj, "r", (paths_of loop_adj "r"). split; [apply loop_adj_tidy|]. split; [apply paths_of_spec, loop_adj_tidy|]. split; [vm_compute; lia|].
  assert (length (paths_of loop_adj "r") = 4) as -> by (by vm_compute). assert ((count_paths loop_adj "r").1 = 3) as -> by (by vm_compute). done.
Qed.
(** Exactly as many paths as the limit are reported as cut short, though nothing was left out. *)
Theorem C64_exactly_the_limit_refuted : ∃ adj root cap L, tidy adj ∧ no_recursion adj root ∧ lists_paths adj root L ∧ length L ≤ cap ∧ (count_paths_with cap adj root).2 = true.
Proof.
  set (adj := {[ "r" := ["a"; "b"] ]} : adjacency). assert (tidy adj) as Ht.
  { intros x l Hl. apply lookup_singleton_Some in Hl as [<- <-]. split; by apply (bool_decide_unpack _). }
  exists adj, "r", 2, (paths_of adj "r"). split; [done|]. split; [|split; [by apply paths_of_spec|split; [vm_compute; lia|by vm_compute]]].
  intros x _ Hx. assert (∀ y z, edge adj y z → y = "r" ∧ (z = "a" ∨ z = "b")) as He.
  { intros y z (l & Hl & Hz). apply lookup_singleton_Some in Hl as [<- <-]. split; [done|]. apply elem_of_cons in Hz as [-> | Hz]; [by left|]. apply elem_of_list_singleton in Hz as ->. by right. }
  assert (∀ y z, tc (edge adj) y z → y = "r" ∧ (z = "a" ∨ z = "b")) as Htc.
  { intros y z H. induction H as [y z H|y z w H _ IH]; [by apply He|]. destruct (He y z H) as [-> _]. split; [done|]. by destruct IH as [_ ?]. }
  destruct (Htc x x Hx) as [-> [?|?]]; done.
Qed.
(** Paths that differ may be shown alike. *)
Theorem C64_labels_distinct_refuted : ∃ adj root, tidy adj ∧ ¬ NoDup (enumerate_paths adj root 10).
Proof.
  set (adj := {[ "m/h.Get" := ["m/a/store.Find"; "m/b/store.Find"] ]} : adjacency). exists adj, "m/h.Get". split.
  - intros x l Hl. apply lookup_singleton_Some in Hl as [<- <-]. split; by apply (bool_decide_unpack _).
  - assert (enumerate_paths adj "m/h.Get" 10 = [["h.Get"; "store.Find"]; ["h.Get"; "store.Find"]]) as -> by (by vm_compute). intros H. apply NoDup_cons in H as [H _]. apply H. by left.
Qed.
(** A method of the project with the name of a builtin is left out, with everything it reaches. *)
Theorem C64_builtin_name_refuted : ∃ (g : callers) root x y l, g !! root = Some l ∧ Call "delete" x ∈ l ∧ g !! x = Some [Call "Exec" y] ∧ trace g root = trace ∅ root.
Proof.
  exists {[ "h.Remove" := [Call "delete" "store.S.delete"]; "store.S.delete" := [Call "Exec" "db.Exec"] ]}, "h.Remove", "store.S.delete", "db.Exec", [Call "delete" "store.S.delete"].
  split; [done|]. split; [by left|]. split; [done|]. by vm_compute.
Qed.

(** ** Grade *)
(** Worse figures never give a better grade, and a figure that was cut short gives C at best. *)
Theorem C64_grade_monotone depth paths fan pt dt depth' paths' fan' pt' dt' :
  depth ≤ depth' → paths ≤ paths' → fan ≤ fan' → (pt = true → pt' = true) → (dt = true → dt' = true) →
  (grade depth paths fan pt dt).1 ≤ (grade depth' paths' fan' pt' dt').1
  ∧ (pt' = true ∨ dt' = true → 2 ≤ (grade depth' paths' fan' pt' dt').1)
  ∧ ((grade depth' paths' fan' pt' dt').2 = true ↔ pt' = true ∨ dt' = true).
Proof.
  intros H1 H2 H3 H4 H5. unfold grade. cbn [fst snd].
  set (g := λ d p f : nat, if bool_decide (d ≤ 4 ∧ p ≤ 10 ∧ f ≤ 6) then 0 else if bool_decide (d ≤ 7 ∧ p ≤ 50) then 1 else if bool_decide (d ≤ 10 ∧ p ≤ 200) then 2 else 3).
  assert (g depth paths fan ≤ g depth' paths' fan') as Hg by (unfold g; repeat case_bool_decide; lia). change (if bool_decide (depth ≤ 4 ∧ paths ≤ 10 ∧ fan ≤ 6) then 0 else _) with (g depth paths fan).
  change (if bool_decide (depth' ≤ 4 ∧ paths' ≤ 10 ∧ fan' ≤ 6) then 0 else _) with (g depth' paths' fan').
  assert (pt || dt = true → pt' || dt' = true) as Hl. { rewrite !orb_true_iff. intros [?|?]; auto. }
  rewrite <- orb_true_iff. destruct (pt || dt), (pt' || dt'); cbn [andb]; try (by rewrite Hl in *); repeat case_bool_decide; split_and?; try lia; try done.
Qed.

(** ** Diagram *)
(** The nodes drawn are those closest to the handler, at most [cap] of them, listed by depth and name; the
    edges drawn are the calls among them, each once. *)
Theorem C64_diagram iter iter' cap adj depth : is_order iter → is_order iter' → tidy adj →
  let '(nodes, edges, cut) := trace_graph iter iter' cap adj depth in
  StronglySorted closer nodes ∧ (∀ x d, (x, d) ∈ nodes → depth !! x = Some d) ∧ length nodes = cap `min` size depth
  ∧ (∀ x d y e, (x, d) ∈ nodes → depth !! y = Some e → (y, e) ∉ nodes → closer (x, d) (y, e))
  ∧ NoDup edges ∧ (∀ x y, (x, y) ∈ edges ↔ edge adj x y ∧ x ∈ nodes.*1 ∧ y ∈ nodes.*1)
  ∧ (cut = true ↔ cap < size depth).
Proof.
  intros Hi Hi' Ht. unfold trace_graph. cbn zeta.
  split; [by apply nodes_sorted|]. split; [by apply nodes_in|]. split; [by apply nodes_length|]. split; [by apply nodes_far|]. split; [exact (edges_nodup iter iter' cap adj depth Hi' Ht)|].
  split; [exact (edges_spec iter iter' cap adj depth Hi')|]. rewrite bool_decide_eq_true. pose proof (all_perm iter depth Hi) as Hp. by rewrite Hp.
Qed.
(** The nodes do not depend on map order. *)
Theorem C64_nodes_reproducible iter1 iter1' iter2 iter2' cap adj depth : is_order iter1 → is_order iter2 →
  (trace_graph iter1 iter1' cap adj depth).1.1 = (trace_graph iter2 iter2' cap adj depth).1.1 ∧ (trace_graph iter1 iter1' cap adj depth).2 = (trace_graph iter2 iter2' cap adj depth).2.
Proof.
  intros H1 H2. unfold trace_graph. cbn [fst snd]. assert (node_sort (iter1 (map_to_list depth)) = node_sort (iter2 (map_to_list depth))) as ->; [|done].
  apply sorted_perm_eq; [apply node_sort_sorted..|]. rewrite !node_sort_perm, H1, H2. done.
Qed.
(** The order of the edges does. *)
Definition two_callers : adjacency := {[ "r" := ["a"]; "a" := ["b"] ]}.
Theorem C64_edges_reproducible_refuted : ∃ iter iter1 iter2 adj depth, is_order iter ∧ is_order iter1 ∧ is_order iter2 ∧ tidy adj ∧
  (trace_graph iter iter1 max_graph_nodes adj depth).1.2 ≠ (trace_graph iter iter2 max_graph_nodes adj depth).1.2.
Proof.
  exists id, id, reverse, two_callers, {[ "r" := 0; "a" := 1; "b" := 2 ]}. split; [by intros l|]. split; [by intros l|]. split; [intros l; apply reverse_Permutation|]. split; [apply tidy_dec; by vm_compute|].
  vm_compute. intros [=].
Qed.

(** ** Cases *)
(** A handler that reaches the same function directly and through another, and itself. *)
Definition sample : callers := {[ "h.Get" := [Call "Find" "s.Find"; Call "len" "b.len"; Call "Log" "l.Log"; Call "Find" "s.Find"]; "s.Find" := [Call "Log" "l.Log"; Call "Query" "d.Query"; Call "Find" "s.Find"];
  "d.Query" := [Call "Get" "h.Get"; Call "" ""] ]}.
Example sample_trace : let r := trace sample "h.Get" in
  t_truncated r = false ∧ (t_depth r !! "l.Log", t_depth r !! "d.Query", t_depth r !! "b.len") = (Some 1, Some 2, None)
  ∧ (t_max_depth r, t_fanout_max r, t_fanout_sum r, t_fanout_nodes r) = (2, 2, 5, 3) ∧ kids (t_adj r) "h.Get" = ["s.Find"; "l.Log"].
Proof. by vm_compute. Qed.
Example sample_complete : edge (t_adj (trace sample "h.Get")) "d.Query" "h.Get" ∧ distance (calls_other sample) "h.Get" "d.Query" 2.
Proof.
  assert (t_truncated (trace_with 600 14 sample "h.Get") = false) as H by (by vm_compute). destruct (C64_complete 600 14 sample "h.Get" ltac:(lia) H) as (_ & H2 & _). split; [|apply H2; by vm_compute].
  unfold edge. exists ["h.Get"]. split; [by vm_compute|by left].
Qed.
(** The limits at work: two functions and one call. *)
Example sample_cut : t_truncated (trace_with 2 14 sample "h.Get") = true ∧ t_truncated (trace_with 600 1 sample "h.Get") = true ∧ t_truncated (trace_with 600 2 sample "h.Get") = true ∧ t_truncated (trace_with 4 3 sample "h.Get") = false.
Proof. by vm_compute. Qed.
Example sample_paths : let adj := t_adj (trace sample "h.Get") in
  enumerate_paths adj "h.Get" 60 = [["h.Get"; "s.Find"; "l.Log"]; ["h.Get"; "s.Find"; "d.Query"]; ["h.Get"; "l.Log"]] ∧ count_paths adj "h.Get" = (3, false) ∧ enumerate_paths adj "h.Get" 2 = [["h.Get"; "s.Find"; "l.Log"]; ["h.Get"; "s.Find"; "d.Query"]].
Proof. by vm_compute. Qed.
Example sample_diagram : trace_graph id id 3 (t_adj (trace sample "h.Get")) (t_depth (trace sample "h.Get")) = ([("h.Get", 0); ("l.Log", 1); ("s.Find", 1)], [("s.Find", "l.Log"); ("h.Get", "s.Find"); ("h.Get", "l.Log")], true)
  ∨ trace_graph id id 3 (t_adj (trace sample "h.Get")) (t_depth (trace sample "h.Get")) = ([("h.Get", 0); ("l.Log", 1); ("s.Find", 1)], [("h.Get", "s.Find"); ("h.Get", "l.Log"); ("s.Find", "l.Log")], true).
Proof. vm_compute. by first [left; done|right]. Qed.
Example grades : grade 4 10 6 false false = (0, false) ∧ grade 4 10 7 false false = (1, false) ∧ grade 4 10 6 true false = (2, true) ∧ grade 11 1 1 false false = (3, false).
Proof. by vm_compute. Qed.

Print Assumptions C64_shown_is_right. Print Assumptions C64_cut_short_iff. Print Assumptions C64_complete. Print Assumptions C64_figures.
Print Assumptions C64_paths_listed. Print Assumptions C64_paths_counted_partial. Print Assumptions C64_paths_counted_refuted. Print Assumptions C64_exactly_the_limit_refuted. Print Assumptions C64_labels_distinct_refuted.
Print Assumptions C64_builtin_name_refuted. Print Assumptions C64_grade_monotone. Print Assumptions C64_diagram. Print Assumptions C64_nodes_reproducible. Print Assumptions C64_edges_reproducible_refuted.
