(** * Drawing the call graph: C66. *)
From Coq Require Import Ascii.
From stdpp Require Import base numbers list strings gmap.
From Verif Require Import StrLib DecLib DiagModel DiagSpec DrawModel DrawSpec DrawProofs.

(** No two nodes of a drawing share an ID, which C65 asks for. *)
Theorem C66_unique_ids graph : unique_ids (drawn_graph graph).
Proof. unfold unique_ids, drawn_graph. cbn. rewrite <- list_fmap_compose. apply (so_ids _ _ _ (sound_draw graph)). Qed.

(** Every function that calls or is called has a node; every node is that of a function of the call graph, whose name,
    package, receiver, signature and scope it shows. *)
Theorem C66_nodes graph :
  (∀ c, calls_or_called graph c → ∃ n, (c_base c, n) ∈ w_nodes (draw graph)) ∧
  (∀ x n, (x, n) ∈ w_nodes (draw graph) → ∃ c, c_base c = x ∧ shows n c ∧ if n_is_parent n then ∃ l, encloses graph c l else calls_or_called graph c).
Proof.
  pose proof (sound_draw graph) as Hs. split.
  - intros c (e & He & Hc). destruct (ex_all _ _ (exact_draw graph) e He) as (H1 & H2 & _).
    apply (so_visited _ _ _ Hs). by destruct Hc as [-> | ->].
  - intros x n Hn. destruct (so_shows _ _ _ Hs x n Hn) as (c & Hb & Hsh & _ & Hw). by exists c.
Qed.

(** No function has two nodes. *)
Theorem C66_one_node graph : named_apart graph → none_in_itself graph → NoDup ((w_nodes (draw graph)).*1).
Proof. intros H1 H2. apply (one_prefix graph graph []); [done|done|]. by rewrite app_nil_r. Qed.

(** Every arrow goes between the nodes of a call's two ends, and no two nodes have two arrows. *)
Theorem C66_arrows_are_calls graph :
  NoDup (w_edges (draw graph)) ∧
  ∀ d, d ∈ w_edges (draw graph) → ∃ e n m, e ∈ graph ∧ (c_base (g_caller e), n) ∈ w_nodes (draw graph) ∧ (c_base (g_callee e), m) ∈ w_nodes (draw graph) ∧ d = DEdge (n_id n) (n_id m) "calls".
Proof.
  pose proof (sound_draw graph) as Hs. pose proof (exact_draw graph) as Hx. split; [apply (ex_nodup _ _ Hx)|].
  intros d Hd. destruct (ex_from _ _ Hx d Hd) as (e & a & b & He & Ha & Hb & ->).
  apply (so_map _ _ _ Hs) in Ha as (n & Hn & _ & Ea). apply (so_map _ _ _ Hs) in Hb as (m & Hm & _ & Eb).
  exists e, n, m. by rewrite Ea, Eb.
Qed.

(** A call has its arrow exactly when neither of its ends was first drawn as the function enclosing a literal. *)
Theorem C66_calls_drawn graph e n m :
  e ∈ graph → (c_base (g_caller e), n) ∈ w_nodes (draw graph) → (c_base (g_callee e), m) ∈ w_nodes (draw graph) →
  DEdge (n_id n) (n_id m) "calls" ∈ w_edges (draw graph) ↔ n_is_parent n = false ∧ n_is_parent m = false.
Proof.
  intros He Hn Hm. pose proof (sound_draw graph) as Hs. pose proof (exact_draw graph) as Hx. split.
  - intros Hd. destruct (ex_from _ _ Hx _ Hd) as (e' & a & b & _ & Ha & Hb & Heq).
    apply (so_map _ _ _ Hs) in Ha as (n' & Hn' & Pn & Ea). apply (so_map _ _ _ Hs) in Hb as (m' & Hm' & Pm & Eb).
    assert (∀ x y u v, (x, u) ∈ w_nodes (draw graph) → (y, v) ∈ w_nodes (draw graph) → n_id u = n_id v → u = v) as Huniq.
    { intros x y u v Hu Hv Huv. apply elem_of_list_lookup in Hu as [i Hi]. apply elem_of_list_lookup in Hv as [j Hj].
      assert (i = j) as ->; [|congruence]. eapply (NoDup_lookup _ i j (n_id u) (so_ids _ _ _ Hs)); rewrite list_lookup_fmap.
      - by rewrite Hi. - by rewrite Hj, Huv. }
    pose proof (f_equal e_src Heq) as E1. pose proof (f_equal e_dst Heq) as E2. cbn in E1, E2.
    rewrite (Huniq _ _ n n' Hn Hn') by congruence. rewrite (Huniq _ _ m m' Hm Hm') by congruence. done.
  - intros [Pn Pm]. destruct (ex_all _ _ Hx e He) as (_ & _ & Hall). apply Hall; apply (so_map _ _ _ Hs); eauto.
Qed.

(** Every call has its arrow, provided the functions enclosing literals are seen before the literals. *)
Theorem C66_all_calls_drawn_partial graph e :
  named_apart graph → enclosing_first graph → e ∈ graph →
  ∃ n m, (c_base (g_caller e), n) ∈ w_nodes (draw graph) ∧ (c_base (g_callee e), m) ∈ w_nodes (draw graph) ∧ DEdge (n_id n) (n_id m) "calls" ∈ w_edges (draw graph).
Proof.
  intros Hap Hfirst He. destruct (proj1 (C66_nodes graph) (g_caller e)) as [n Hn]; [exists e; split; [done|by left]|].
  destruct (proj1 (C66_nodes graph) (g_callee e)) as [m Hm]; [exists e; split; [done|by right]|].
  exists n, m. split; [done|]. split; [done|]. apply (C66_calls_drawn graph e n m He Hn Hm).
  assert (∀ x u, (x, u) ∈ w_nodes (draw graph) → n_is_parent u = false) as Hun; [|by split; eapply Hun].
  apply (unmarked_prefix graph graph []); [done| |by rewrite app_nil_r].
  intros pre e' post p c Hg Hp Hc [rest Hl]%is_literal_spec. by eapply Hfirst.
Qed.

(** A parent is a node of the diagram, with the name and the package of a function enclosing the literal it is drawn
    around. *)
Theorem C66_parent_is_node graph x n :
  (x, n) ∈ w_nodes (draw graph) → n_parent n ≠ "" →
  ∃ y q p l, (y, q) ∈ w_nodes (draw graph) ∧ n_id q = n_parent n ∧ encloses graph p l ∧ c_base l = x ∧ shows n l ∧ n_fname q = c_name p ∧ n_pkg q = c_pkg p.
Proof. apply (so_parent _ _ _ (sound_draw graph)). Qed.

(** A literal whose first call tells the enclosing function is drawn inside a node of that name and package. *)
Theorem C66_literal_inside_partial graph e c p rest :
  none_in_itself graph → first_seen graph e c → c_name c = "FuncLit:" +:+ rest → g_parent e = Some p →
  ∃ n y q, (c_base c, n) ∈ w_nodes (draw graph) ∧ (y, q) ∈ w_nodes (draw graph) ∧ n_parent n = n_id q ∧ n_fname q = c_name p ∧ n_pkg q = c_pkg p.
Proof.
  intros Hself (pre & post & Hg & Hc & Hpre) Hl Hp.
  assert (is_literal (c_name c) = true) as Hlit by (apply is_literal_spec; by exists rest).
  pose proof (sound_prefix graph pre (e :: post) Hg) as Hs.
  assert (c_base c ∉ w_visited (foldl (draw_edge graph) nothing_drawn pre)) as Hv.
  { intros [n Hn]%(so_visited _ _ _ Hs). destruct (so_shows _ _ _ Hs _ _ Hn) as (c' & Hb & _ & Hin & _).
    destruct (seen_occurs graph pre (e :: post) c' Hg Hin) as (e' & He' & Hor). destruct (Hpre e' He') as (N1 & N2 & N3).
    destruct Hor as [-> | [-> | Hor]]; [by apply N1|by apply N2|]. by apply (N3 _ Hor). }
  assert (e ∈ graph) as He by (rewrite Hg; apply elem_of_app; right; apply elem_of_cons; by left).
  assert (∃ n y q, (c_base c, n) ∈ w_nodes (draw_edge graph (foldl (draw_edge graph) nothing_drawn pre) e) ∧ (y, q) ∈ w_nodes (draw_edge graph (foldl (draw_edge graph) nothing_drawn pre) e) ∧
    n_parent n = n_id q ∧ n_fname q = c_name p ∧ n_pkg q = c_pkg p) as (n & y & q & Hn & Hq & Hrest).
  { rewrite draw_edge_nodes. rewrite Hp. set (w := foldl (draw_edge graph) nothing_drawn pre) in *.
    destruct Hc as [-> | [-> Hne]].
    - destruct (draw_fun_grows graph (g_callee e) (Some p) (node_callee graph e) (draw_fun graph (g_caller e) (Some p) (node_caller e) w)) as [m ->].
      destruct (fun_parent graph (pre ≫= seen_in) (g_caller e) p (node_caller e) w) as (n & y & q & H1 & H2 & H3); [done|done|done|done|].
      exists n, y, q. rewrite !elem_of_app. auto.
    - destruct (decide (c_base (g_callee e) ∈ w_visited (draw_fun graph (g_caller e) (Some p) (node_caller e) w))) as [Hv2|Hv2].
      + (* only possible when the callee is the enclosing function *)
        destruct (draw_fun_cases graph (g_caller e) (Some p) (node_caller e) w) as [? | ? ? | p' i b n0 ???? | p' ? [= <-] Hl2 Hn0]; cbn in Hv2.
        * done.
        * set_solver.
        * set_solver.
        * exfalso. apply (Hself p (g_callee e)); [|set_solver].
          exists e. split; [done|]. split; [done|]. split; [by right|]. by exists rest.
      + eapply (fun_parent graph); [done|done|done|]. rewrite <- Hp. eapply (sound_fun graph); [exact He|by left|by repeat split|exact Hs]. }
  destruct (draw_grows graph post (draw_edge graph (foldl (draw_edge graph) nothing_drawn pre) e)) as [more Hmore].
  assert (w_nodes (draw graph) = w_nodes (draw_edge graph (foldl (draw_edge graph) nothing_drawn pre) e) ++ more) as ->.
  { rewrite <- Hmore. unfold draw. rewrite Hg at 2. by rewrite foldl_app. }
  exists n, y, q. rewrite !elem_of_app. auto.
Qed.

(** What the node of a function says: its label, and either where the function stands or where it is called from. *)
Theorem C66_node_text graph x n :
  (x, n) ∈ w_nodes (draw graph) → n_is_parent n = false →
  ∃ c, calls_or_called graph c ∧ c_base c = x ∧ shows n c ∧ labelled (n_label n) c ∧
    (n_paths n = [] ∧ n_position n ≠ "" ∨
     n_position n = "" ∧ (∀ pos, pos ∈ n_paths n → ∃ e, e ∈ graph ∧ c_base (g_callee e) = x ∧ made_at e pos) ∧
       (no_colons graph → ∀ e pos, e ∈ graph → c_base (g_callee e) = x → made_at e pos → pos ∈ n_paths n)).
Proof.
  intros Hn Hp. destruct (so_shows _ _ _ (sound_draw graph) x n Hn) as (c & Hb & Hsh & _ & Hwhy). rewrite Hp in Hwhy.
  destruct (text_prefix graph graph [] ltac:(by rewrite app_nil_r) x n Hn) as (e & He & Hor).
  destruct Hor as [[Hx Heq]|[[Hx Heq]|(p & Hpar & Hx & Heq)]].
  - exists (g_caller e). split; [exists e; split; [done|by left]|]. split; [done|]. rewrite Heq. split; [apply shows_caller|]. split; [apply fun_label_spec|].
    left. split; [done|]. cbn. unfold caller_position. destruct (decide ((if is_literal (c_name (g_caller e)) then str_drop (String.length lit_prefix) (c_name (g_caller e)) else c_pos (g_caller e)) = "")) as [H|H].
    + rewrite bool_decide_eq_true_2 by done. by destruct (bool_decide _).
    + rewrite bool_decide_eq_false_2 by done. done.
  - exists (g_callee e). split; [exists e; split; [done|by right]|]. split; [done|]. rewrite Heq. split; [apply shows_callee|]. split; [apply fun_label_spec|].
    right. split; [done|]. cbn [n_paths node_callee]. rewrite Hx. split.
    + intros pos. apply call_paths_spec.
    + intros Hno e' pos He' Hb' Hm. apply call_paths_spec; [done|]. by exists e'.
  - rewrite Heq in Hp. done.
Qed.

(** ** Cases *)
Definition fn (pkg recv name : string) : fcall := FCall (pkg +:+ "." +:+ recv +:+ name) name pkg recv "" "exported" "".
Definition fmain : fcall := fn "app" "" "main".
Definition flit : fcall := fn "app" "" "FuncLit:main.go:7:3".
Definition fload : fcall := fn "app" "" "Load".
Definition fsave : fcall := fn "app" "" "Save".
(** A call graph with the calls of the enclosing function first. *)
Definition well_ordered : list gedge :=
  [GEdge fmain fload None "main.go:6:2" []; GEdge fmain flit None "main.go:7:2" []; GEdge flit fsave (Some fmain) "main.go:8:4" ["int"]; GEdge flit fsave (Some fmain) "main.go:9:4" []].
Example C66_drawn_right :
  (λ n : dnode, (n_id n, n_label n, n_parent n, n_position n, n_paths n)) <$> d_nodes (drawn_graph well_ordered) =
    [("node_1", "main", "", "root function", []); ("node_2", "Load", "", "", ["main.go:6:2"]); ("node_3", "FuncLit", "", "", ["main.go:7:2"]); ("node_4", "Save", "", "", ["main.go:8:4"; "main.go:9:4"])] ∧
  d_edges (drawn_graph well_ordered) = [DEdge "node_1" "node_2" "calls"; DEdge "node_1" "node_3" "calls"; DEdge "node_3" "node_4" "calls"].
Proof. by vm_compute. Qed.
(** The calls of a literal come before those of the function around it. *)
Definition literal_first : list gedge :=
  [GEdge flit fsave (Some fmain) "main.go:8:4" []; GEdge fmain fload None "main.go:6:2" []].
Lemma occurs_two a b c d p q : ∀ x, occurs_in [GEdge a b p "main.go:8:4" []; GEdge c d q "main.go:6:2" []] x → x = a ∨ x = b ∨ x = c ∨ x = d ∨ p = Some x ∨ q = Some x.
Proof.
  intros x [(e & [-> | ->%elem_of_list_singleton]%elem_of_cons & [-> | ->])|(l & e & [-> | ->%elem_of_list_singleton]%elem_of_cons & Hp & _)]; cbn in *; auto 10.
Qed.
Example C66_named_apart_met : named_apart literal_first ∧ none_in_itself literal_first.
Proof.
  split.
  - intros x y Hx%occurs_two Hy%occurs_two. destruct Hx as [-> | [-> | [-> | [-> | [[= <-]|[=]]]]]]; destruct Hy as [-> | [-> | [-> | [-> | [[= <-]|[=]]]]]]; by vm_compute.
  - intros p c (e & [-> | ->%elem_of_list_singleton]%elem_of_cons & Hp & Hc & rest & Hl); cbn in Hp, Hc; [|done].
    injection Hp as <-. destruct Hc as [-> | ->]; [by vm_compute|]. vm_compute in Hl. done.
Qed.
Example C66_first_seen_met : first_seen literal_first (GEdge flit fsave (Some fmain) "main.go:8:4" []) flit ∧ encloses literal_first fmain flit.
Proof.
  split.
  - exists [], [GEdge fmain fload None "main.go:6:2" []]. split; [done|]. split; [by left|]. intros e' []%elem_of_nil.
  - eexists. split; [apply elem_of_cons; by left|]. split; [done|]. split; [by left|]. by exists "main.go:7:3".
Qed.
Definition main_first : list gedge := [GEdge fmain fload None "main.go:8:4" []; GEdge flit fsave (Some fmain) "main.go:6:2" []].
Example C66_enclosing_first_met : named_apart main_first ∧ enclosing_first main_first ∧ ∃ c, encloses main_first fmain c.
Proof.
  split; [|split].
  - intros x y Hx%occurs_two Hy%occurs_two. destruct Hx as [-> | [-> | [-> | [-> | [[=]|[= <-]]]]]]; destruct Hy as [-> | [-> | [-> | [-> | [[=]|[= <-]]]]]]; by vm_compute.
  - intros pre e post p c rest Hg Hp Hc Hl. exists fmain.
    destruct pre as [|e1 [|e2 pre]]; [|injection Hg as <- <- _|by destruct pre].
    + injection Hg as <- _. done.
    + injection Hp as <-. split; [|done]. left. eexists. split; [by apply elem_of_list_singleton|by left].
  - exists flit. eexists. split; [apply elem_of_cons; right; by apply elem_of_list_singleton|]. split; [done|]. split; [by left|]. by exists "main.go:7:3".
Qed.

(** ** What goes wrong *)
(** The calls of a function first drawn around a literal are missing. *)
Theorem C66_all_calls_drawn_refuted :
  ∃ graph e, named_apart graph ∧ none_in_itself graph ∧ e ∈ graph ∧
    ∀ n m, (c_base (g_caller e), n) ∈ w_nodes (draw graph) → (c_base (g_callee e), m) ∈ w_nodes (draw graph) → DEdge (n_id n) (n_id m) "calls" ∉ w_edges (draw graph).
Proof.
  exists literal_first, (GEdge fmain fload None "main.go:6:2" []). split; [apply C66_named_apart_met|]. split; [apply C66_named_apart_met|].
  assert (GEdge fmain fload None "main.go:6:2" [] ∈ literal_first) as He by (apply elem_of_cons; right; by apply elem_of_list_singleton).
  split; [done|]. intros n m Hn Hm Hd. apply (C66_calls_drawn literal_first _ n m He Hn Hm) in Hd as [Hp _].
  assert (Forall (λ u : string * dnode, u.1 = c_base fmain → n_is_parent u.2 = true) (w_nodes (draw literal_first))) as Hall.
  { vm_compute. repeat constructor; intros [=]. }
  rewrite Forall_forall in Hall. specialize (Hall _ Hn eq_refl). cbn in Hall. congruence.
Qed.
(** A literal inside a method is drawn inside the method of that name of another type. *)
Definition sget : fcall := fn "app" "Store" "Get".
Definition cget : fcall := fn "app" "Cache" "Get".
Definition two_gets : list gedge := [GEdge fmain sget None "main.go:8:4" []; GEdge flit fsave (Some cget) "main.go:6:2" []].
Theorem C66_literal_inside_refuted :
  ∃ graph e c p, named_apart graph ∧ none_in_itself graph ∧ first_seen graph e c ∧ g_parent e = Some p ∧ is_literal (c_name c) = true ∧
    ∃ n y q, (c_base c, n) ∈ w_nodes (draw graph) ∧ (y, q) ∈ w_nodes (draw graph) ∧ n_parent n = n_id q ∧ n_receiver q ≠ c_recv p.
Proof.
  exists two_gets, (GEdge flit fsave (Some cget) "main.go:6:2" []), flit, cget. split; [|split; [|split; [|split; [done|split; [done|]]]]].
  - intros x y Hx%occurs_two Hy%occurs_two. destruct Hx as [-> | [-> | [-> | [-> | [[=]|[= <-]]]]]]; destruct Hy as [-> | [-> | [-> | [-> | [[=]|[= <-]]]]]]; by vm_compute.
  - intros p c (e & [-> | ->%elem_of_list_singleton]%elem_of_cons & Hp & Hc & rest & Hl); cbn in Hp, Hc; [done|].
    injection Hp as <-. destruct Hc as [-> | ->]; [by vm_compute|]. vm_compute in Hl. done.
  - exists [GEdge fmain sget None "main.go:8:4" []], []. split; [done|]. split; [by left|]. intros e' ->%elem_of_list_singleton. split; [by vm_compute|]. split; [by vm_compute|]. done.
  - assert (∃ a b c d, w_nodes (draw two_gets) = [a; (c_base sget, b); (c_base flit, c); d] ∧ n_parent c = n_id b ∧ n_receiver b = "Store") as (a & b & c & d & -> & Hp & Hr).
    { eexists _, _, _, _. split; [by vm_compute|]. by vm_compute. }
    exists c, (c_base sget), b. rewrite !elem_of_cons. split; [auto|]. split; [auto|]. split; [done|]. by rewrite Hr.
Qed.
(** A function that encloses a literal is not marked as such when it was drawn before the literal. *)
Theorem C66_enclosing_marked_refuted :
  ∃ graph, named_apart graph ∧ none_in_itself graph ∧
    ∃ x n y q, (x, n) ∈ w_nodes (draw graph) ∧ (y, q) ∈ w_nodes (draw graph) ∧ n_parent n = n_id q ∧ n_is_parent q = false.
Proof.
  exists main_first. split; [apply C66_enclosing_first_met|]. split.
  - intros p c (e & [-> | ->%elem_of_list_singleton]%elem_of_cons & Hp & Hc & rest & Hl); cbn in Hp, Hc; [done|].
    injection Hp as <-. destruct Hc as [-> | ->]; [by vm_compute|]. vm_compute in Hl. done.
  - assert (∃ a b c d, w_nodes (draw main_first) = [(c_base fmain, a); b; (c_base flit, c); d] ∧ n_parent c = n_id a ∧ n_is_parent a = false) as (a & b & c & d & -> & Hp & Hr).
    { eexists _, _, _, _. split; [by vm_compute|]. by vm_compute. }
    exists (c_base flit), c, (c_base fmain), a. rewrite !elem_of_cons. auto 10.
Qed.

(** A function first seen as a caller lists none of the calls to it. *)
Definition caller_then_called : list gedge := [GEdge fload fsave None "store.go:3:2" []; GEdge fmain fload None "main.go:6:2" []].
Theorem C66_call_sites_listed_refuted :
  ∃ graph e pos n, no_colons graph ∧ e ∈ graph ∧ made_at e pos ∧ (c_base (g_callee e), n) ∈ w_nodes (draw graph) ∧ n_is_parent n = false ∧ pos ∉ n_paths n.
Proof.
  exists caller_then_called, (GEdge fmain fload None "main.go:6:2" []), "main.go:6:2".
  assert (∃ a rest, w_nodes (draw caller_then_called) = (c_base fload, a) :: rest ∧ n_is_parent a = false ∧ n_paths a = []) as (a & rest & Hn & Hp & Hpaths).
  { eexists _, _. split; [by vm_compute|]. by vm_compute. }
  exists a. split; [|split; [|split; [|split; [|split]]]].
  - intros e [-> | ->%elem_of_list_singleton]%elem_of_cons; (split; [done|]; by right).
  - apply elem_of_cons. right. by apply elem_of_list_singleton.
  - left. split; [by left|done].
  - rewrite Hn. apply elem_of_cons. by left.
  - done.
  - rewrite Hpaths. apply not_elem_of_nil.
Qed.

Print Assumptions C66_node_text.
Print Assumptions C66_call_sites_listed_refuted.
Print Assumptions C66_unique_ids.
Print Assumptions C66_nodes.
Print Assumptions C66_one_node.
Print Assumptions C66_arrows_are_calls.
Print Assumptions C66_calls_drawn.
Print Assumptions C66_all_calls_drawn_partial.
Print Assumptions C66_parent_is_node.
Print Assumptions C66_literal_inside_partial.
Print Assumptions C66_all_calls_drawn_refuted.
Print Assumptions C66_literal_inside_refuted.
Print Assumptions C66_enclosing_marked_refuted.
