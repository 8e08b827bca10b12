(** C71 and C72: which entrypoints become roots; which fields are entrypoints and
    which calls are registrations. *)
From Coq Require Import Ascii.
From stdpp Require Import sorting.
From stdpp Require Import base list strings gmap relations.
From Verif Require Import StrLib StrOrder SccModel SccSpec SccProofs Worklist IdModel ReachModel ReachSpec ReachProofs SecModel
  EntryModel EntrySpec EntryProofs.

(** C71.  Whatever the call graph, the computation ends; a declared function
    becomes a root exactly when main does not call it, directly or not, and it can
    itself reach a registration; the roots come in order of their keys, each as
    often as it was declared; every declared function is counted once, under one
    of the three headings. *)
Theorem C71_rooted_exact : ∀ name args iter itern es candidates mtch, is_order iter → is_order itern →
  ∃ out st, entrypoint_roots name args iter itern es candidates mtch = Some (out, st) ∧
    Sorted string_le out ∧
    (∀ k, k ∈ out ↔ k ∈ candidates ∧ ¬ from_main name es k ∧ appears (edge_pairs es) k ∧ reaches_match es mtch k) ∧
    (NoDup candidates → NoDup out) ∧
    es_declared st = length candidates ∧ es_rooted st = length out ∧
    es_declared st = es_rooted st + es_reachable st + es_noroutes st.
Proof.
  intros name args iter itern es cs mtch Hi Hn. unfold entrypoint_roots.
  destruct (decide (cs = [])) as [->|Hcs].
  { rewrite bool_decide_eq_true_2 by done. eexists _, _. split; [reflexivity|].
    split; [constructor|]. split; [intros k; rewrite elem_of_nil; tauto|]. split_and!; done. }
  rewrite bool_decide_eq_false_2 by done.
  destruct (reachable_ok name args es) as (reached & -> & Hreach). cbn [mbind option_bind].
  destruct (build_ok iter itern Hi Hn (edge_pairs es)) as (r & -> & Hr). cbn [mbind option_bind].
  eexists _, _. split; [reflexivity|].
  assert (∀ (P : string → Prop) `{∀ k, Decision (P k)}, length (merge_sort string_le (filter P cs)) = length (filter P cs)) as Hlen.
  { intros P ?. by rewrite merge_sort_Permutation. }
  split; [apply Sorted_merge_sort; apply _|]. split; [|split].
  - intros k. rewrite merge_sort_Permutation, elem_of_list_filter, Hreach.
    rewrite (reach_set_of_ok iter Hi es r mtch Hr). tauto.
  - intros Hnd. rewrite merge_sort_Permutation. by apply NoDup_filter.
  - cbn [es_declared es_rooted es_reachable es_noroutes]. split; [done|]. split; [done|].
    rewrite Hlen. apply split_three.
Qed.
Print Assumptions C71_rooted_exact.

(** C71, on the roots of the tree: the mains stay in front, and behind them comes
    each rooted function once, in the order given, unless it is a root already. *)
Theorem C71_tree_roots : ∀ roots rooted, ∃ extra,
  add_entrypoint_roots roots rooted = roots ++ extra ∧ NoDup extra ∧ sublist extra rooted ∧
  ∀ k, k ∈ extra ↔ k ∈ rooted ∧ ¬ ∃ r, r ∈ roots ∧ strip_to_base r = k.
Proof.
  intros roots rooted. unfold add_entrypoint_roots.
  destruct (add_root_split rooted (list_to_set (strip_to_base <$> roots)) roots) as (extra & E & Hnd & Hm & Hs).
  exists extra. rewrite E. split; [done|]. split; [done|]. split; [done|]. intros k. rewrite Hm.
  rewrite elem_of_list_to_set, elem_of_list_fmap. split; intros [? Hno]; (split; [done|]).
  - intros (r & Hr & <-). apply Hno. eauto.
  - intros (r & -> & Hr). apply Hno. eauto.
Qed.
Print Assumptions C71_tree_roots.

(** The callers of the two graphs below that are functions named main. *)
Definition ex_name (e : cg_edge) : string := if decide (ce_caller e = "m.main") then "main" else "other".
Definition ex_get (e : cg_edge) : bool := bool_decide (ce_data e = 1).

(** C71, the first gate: an entrypoint main can reach is meant to be left alone.
    Main also expands what is written in its function literals; an entrypoint
    called there is rooted a second time. *)
Theorem C71_reached_in_a_closure_refuted : ∃ es k out st e,
  e ∈ es ∧ ex_name e = "main" ∧ rtc (expands_to es) (ce_caller e) k ∧
  entrypoint_roots ex_name ∅ id id es [k] ex_get = Some (out, st) ∧ k ∈ out.
Proof.
  exists [CgEdge "m.main" "m.run" None 0; CgEdge "m.FuncLit:main.go:7:6" "m.serve" (Some "m.main") 0;
          CgEdge "m.serve" "chi.Mux.Get" None 1], "m.serve", ["m.serve"], (EStats 1 1 0 0),
         (CgEdge "m.main" "m.run" None 0).
  split; [left|]. split; [done|]. split.
  - apply (rtc_l _ _ "m.FuncLit:main.go:7:6").
    + split; [done|]. split; [done|]. exists (CgEdge "m.FuncLit:main.go:7:6" "m.serve" (Some "m.main") 0).
      split; [right; left|]. right. done.
    + apply (rtc_l _ _ "m.serve"); [|apply rtc_refl].
      split; [done|]. split; [done|]. exists (CgEdge "m.FuncLit:main.go:7:6" "m.serve" (Some "m.main") 0).
      split; [right; left|]. left. done.
  - split; [vm_compute; reflexivity|left].
Qed.
Print Assumptions C71_reached_in_a_closure_refuted.

(** C71, the second gate: an entrypoint that leads to a registration is meant to
    be rooted.  One whose registrations are written in a function literal of its
    own, which the tree would expand, is counted as registering no routes. *)
Theorem C71_registered_in_a_closure_refuted : ∃ es k out st,
  ¬ from_main ex_name es k ∧ leads_to_match es ex_get k ∧
  entrypoint_roots ex_name ∅ id id es [k] ex_get = Some (out, st) ∧ out = [] ∧ es_noroutes st = 1.
Proof.
  exists [CgEdge "m.main" "m.run" None 0; CgEdge "m.serve" "m.withRouter" None 0;
          CgEdge "m.FuncLit:main.go:9:14" "chi.Mux.Get" (Some "m.serve") 1], "m.serve", [], (EStats 1 0 0 1).
  split_and!; [| |vm_compute; reflexivity|done|done].
  - destruct (C71_rooted_exact ex_name ∅ id id
      [CgEdge "m.main" "m.run" None 0; CgEdge "m.serve" "m.withRouter" None 0;
       CgEdge "m.FuncLit:main.go:9:14" "chi.Mux.Get" (Some "m.serve") 1] ["m.serve"] (λ _, true)) as (out & st & E & _ & Hx & _);
      [intros ?; reflexivity|intros ?; reflexivity|].
    vm_compute in E. injection E as <- <-. apply Hx. left.
  - exists (CgEdge "m.FuncLit:main.go:9:14" "chi.Mux.Get" (Some "m.serve") 1).
    split; [right; right; left|]. split; [done|]. split; [done|].
    apply (rtc_l _ _ "m.FuncLit:main.go:9:14"); [|apply rtc_refl].
    split; [done|]. split; [done|]. exists (CgEdge "m.FuncLit:main.go:9:14" "chi.Mux.Get" (Some "m.serve") 1).
    split; [right; right; left|]. right. done.
Qed.
Print Assumptions C71_registered_in_a_closure_refuted.

(** Three declared functions: one registers through a helper and is rooted, one is
    called by main, one registers nothing. *)
Example C71_example :
  let es := [CgEdge "m.main" "cli.App.Run" None 0; CgEdge "m.main" "m.initDB" None 0; CgEdge "m.initDB" "chi.Mux.Get" None 1;
             CgEdge "m.runWeb" "m.routes" None 0; CgEdge "m.routes" "chi.Mux.Get" None 1; CgEdge "m.runIndex" "m.scan" None 0] in
  entrypoint_roots ex_name ∅ id id es ["m.initDB"; "m.runIndex"; "m.runWeb"] ex_get = Some (["m.runWeb"], EStats 3 1 1 1) ∧
  add_entrypoint_roots ["m.main@main.go:3:2"] ["m.runWeb"] = ["m.main@main.go:3:2"; "m.runWeb"].
Proof. vm_compute. split; reflexivity. Qed.

(** C72.  A field of a type is an entrypoint exactly when some pattern stands for
    it; in particular a pattern that says nothing about the type claims nothing. *)
Theorem C72_entrypoint_exact : ∀ re ps owner field,
  matches_entrypoint re ps owner field = true ↔
  field ≠ "" ∧ owner ≠ "" ∧ ∃ p, p ∈ ps ∧ stands_for re p owner field.
Proof.
  intros re ps owner field. unfold matches_entrypoint.
  destruct (decide (field = "")) as [->|Hf]; [rewrite bool_decide_eq_true_2 by done; cbn; split; [done|tauto]|].
  rewrite (bool_decide_eq_false_2 (field = "")) by done.
  destruct (decide (owner = "")) as [->|Ho]; [rewrite bool_decide_eq_true_2 by done; cbn; split; [done|tauto]|].
  rewrite (bool_decide_eq_false_2 (owner = "")) by done. cbn [orb]. rewrite existsb_elem.
  assert (∀ p, pattern_claims re owner field p = true ↔ stands_for re p owner field) as Hp.
  { intros p. unfold pattern_claims, stands_for. rewrite andb_true_iff, orb_true_iff, bool_decide_eq_true, re_match_true.
    apply and_iff_compat_l. destruct (decide (ep_recv_re p = "")) as [E|E].
    - rewrite (bool_decide_eq_false_2 (ep_recv_re p ≠ "")) by tauto.
      destruct (decide (ep_recv p = "")) as [E'|E'].
      + rewrite bool_decide_eq_false_2 by tauto. split; [done|]. intros [[? _]|(_ & ? & _)]; tauto.
      + rewrite bool_decide_eq_true_2 by done. rewrite bool_decide_eq_true. tauto.
    - rewrite bool_decide_eq_true_2 by done. rewrite re_match_true. tauto. }
  split.
  - intros (p & Hin & Hc). split; [done|]. split; [done|]. exists p. split; [done|]. by apply Hp.
  - intros (_ & _ & p & Hin & Hc). exists p. split; [done|]. by apply Hp.
Qed.
Print Assumptions C72_entrypoint_exact.

(** C72, presets: what was configured stays in front; behind it come patterns of
    libraries the project imports, none of them configured already and none twice;
    afterwards every pattern of an imported library is there. *)
Theorem C72_presets_exact : ∀ re bundles ps paths, ∃ added,
  apply_entrypoint_presets re bundles ps paths = ps ++ added ∧
  NoDup (epattern_key <$> added) ∧
  (∀ p, p ∈ added → p ∉ ps ∧ ∃ b, b ∈ bundles ∧ library_used re paths b ∧ p ∈ eb_patterns b) ∧
  (∀ b p, b ∈ bundles → library_used re paths b → p ∈ eb_patterns b →
    (∀ q s, q ∈ ps ++ added → s ∈ [ep_field p; ep_recv p; ep_field q; ep_recv q] → mem_byte "000"%char s = false) →
    p ∈ ps ++ added).
Proof.
  intros re bundles ps paths. destruct (presets_split re bundles ps paths) as (added & E & H1 & H2 & H3).
  exists added. split; [exact E|]. split; [done|]. split.
  - intros p Hp. destruct (H2 p Hp) as [Hb Hn]. split; [|done]. intros Hps. apply Hn. apply elem_of_list_fmap. eauto.
  - intros b p Hb Hu Hp Hz. specialize (H3 b p Hb Hu Hp). apply elem_of_list_fmap in H3 as (q & Hk & Hq).
    assert (p = q) as ->; [|done]. apply keys_determine; [|done]. intros s Hs. by eapply Hz.
Qed.
Print Assumptions C72_presets_exact.

(** C72: applying the presets twice is applying them once; a project that uses
    none of the libraries keeps its configuration; the order in which the imports
    are found does not matter. *)
Theorem C72_presets_idempotent : ∀ re bundles ps paths,
  let once := apply_entrypoint_presets re bundles ps paths in
  apply_entrypoint_presets re bundles once paths = once ∧
  ((∀ b, b ∈ bundles → ¬ library_used re paths b) → once = ps) ∧
  (∀ paths', paths ≡ₚ paths' → apply_entrypoint_presets re bundles ps paths' = once).
Proof.
  intros re bundles ps paths once. split; [apply presets_twice|]. split.
  - intros Hn. subst once. destruct (presets_split re bundles ps paths) as (added & -> & _ & H2 & _).
    destruct added as [|p added]; [by rewrite app_nil_r|].
    destruct (H2 p ltac:(left)) as [(b & Hb & Hu & _) _]. exfalso. by apply (Hn b).
  - intros paths' Hp. symmetry. by apply presets_perm.
Qed.
Print Assumptions C72_presets_idempotent.

(** C72, the table of libraries: every pattern says something about the type, so
    a field with the right name on another type is never taken for an entrypoint
    because of a preset. *)
Theorem C72_table_constrains_types : ∀ b p, b ∈ entrypoint_bundles → p ∈ eb_patterns b →
  ep_field p ≠ "" ∧ ep_recv_re p ≠ "".
Proof.
  intros b p Hb Hp.
  assert (Forall (λ b, Forall (λ p, ep_field p ≠ "" ∧ ep_recv_re p ≠ "") (eb_patterns b)) entrypoint_bundles) as H.
  { repeat constructor; done. }
  rewrite Forall_forall in H. specialize (H b Hb). rewrite Forall_forall in H. by apply H.
Qed.
Print Assumptions C72_table_constrains_types.

(** C72: a call counts as a registration exactly when a route pattern - or, for the
    first question, a mount pattern - describes it; so whatever opens a route's own
    allowance also leads to routes. *)
Theorem C72_registration_exact : ∀ re routes mounts include_mounts c,
  (∀ recv, receiver_text c recv →
    registration_match re routes mounts include_mounts c = true ↔
    (∃ g, g ∈ routes ∧ describes re g c recv) ∨ (include_mounts = true ∧ ∃ g, g ∈ mounts ∧ describes re g c recv)) ∧
  (registration_match re routes mounts false c = true → registration_match re routes mounts true c = true).
Proof.
  intros re routes mounts inc c.
  assert (∃ recv, receiver_text c recv) as Hex.
  { exists (qualified_recv c). unfold receiver_text, qualified_recv.
    destruct (decide (cl_pkg c = "")) as [E|E], (decide (cl_recv c = "")) as [E'|E'];
      rewrite ?(bool_decide_eq_true_2 (cl_pkg c ≠ "")), ?(bool_decide_eq_false_2 (cl_pkg c ≠ "")),
              ?(bool_decide_eq_true_2 (cl_recv c ≠ "")), ?(bool_decide_eq_false_2 (cl_recv c ≠ "")) by tauto;
      cbn; (split; [|split]); intros; congruence. }
  assert (∀ recv, receiver_text c recv → recv = qualified_recv c) as Hrecv.
  { intros recv (H1 & H2 & H3). unfold qualified_recv.
    destruct (decide (cl_pkg c = "")) as [E|E], (decide (cl_recv c = "")) as [E'|E'];
      rewrite ?(bool_decide_eq_true_2 (cl_pkg c ≠ "")), ?(bool_decide_eq_false_2 (cl_pkg c ≠ "")),
              ?(bool_decide_eq_true_2 (cl_recv c ≠ "")), ?(bool_decide_eq_false_2 (cl_recv c ≠ "")) by tauto;
      cbn; auto. }
  assert (∀ inc recv, receiver_text c recv →
    registration_match re routes mounts inc c = true ↔
    (∃ g, g ∈ routes ∧ describes re g c recv) ∨ (inc = true ∧ ∃ g, g ∈ mounts ∧ describes re g c recv)) as Hmain.
  { clear inc. intros inc recv Hr. unfold registration_match.
    destruct (decide (cl_name c = "")) as [E|E].
    { rewrite bool_decide_eq_true_2 by done. split; [done|].
      intros [(g & _ & _ & Hc & _)|(_ & g & _ & _ & Hc & _)]; done. }
    rewrite (bool_decide_eq_false_2 (cl_name c = "")) by done. rewrite existsb_elem, <- (Hrecv recv Hr).
    assert (∀ g, rg_call g ≠ "" → gate_accepts re (cl_name c) recv g = true ↔ describes re g c recv) as Hg.
    { intros g Hgc. unfold gate_accepts, describes. rewrite andb_true_iff, re_match_true.
      destruct (decide (rg_recv_re g = "")) as [Ee|Ee].
      - rewrite (bool_decide_eq_false_2 (rg_recv_re g ≠ "")) by tauto.
        destruct (decide (rg_recv g = "")) as [Er|Er].
        + rewrite bool_decide_eq_false_2 by tauto. split; [|tauto]. intros [? _].
          split; [done|]. split; [done|]. split; [done|]. split; [done|]. done.
        + rewrite bool_decide_eq_true_2 by done. rewrite bool_decide_eq_true. split; [|tauto].
          intros [? ?]. split; [done|]. split; [done|]. split; [done|]. split; [done|]. done.
      - rewrite bool_decide_eq_true_2 by done. rewrite re_match_true. split; [|tauto].
        intros [? ?]. split; [done|]. split; [done|]. split; [done|]. split; [done|]. done. }
    unfold reg_gates. split.
    - intros (g & Hin & Ha). apply elem_of_app in Hin as [Hin|Hin].
      + apply elem_of_list_filter in Hin as [Hc Hin]. left. exists g. split; [done|]. by apply Hg.
      + destruct inc; [|by apply elem_of_nil in Hin]. apply elem_of_list_filter in Hin as [Hc Hin].
        right. split; [done|]. exists g. split; [done|]. by apply Hg.
    - intros [(g & Hin & Hd)|(-> & g & Hin & Hd)]; pose proof Hd as (Hc & _); exists g.
      + split; [|by apply Hg]. apply elem_of_app. left. by apply elem_of_list_filter.
      + split; [|by apply Hg]. apply elem_of_app. right. by apply elem_of_list_filter. }
  split; [apply Hmain|]. destruct Hex as [recv Hr]. rewrite !(Hmain _ recv Hr). intros [?|[? _]]; [by left|done].
Qed.
Print Assumptions C72_registration_exact.

(** A stand-in for the regular expressions of the examples. *)
Definition ex_re (expr s : string) : option bool :=
  if decide (expr = "^(Action|Before|After)$") then Some (bool_decide (s ∈ ["Action"; "Before"; "After"]))
  else if decide (expr = "^github\.com/urfave/cli(/v\d+)?$") then Some (bool_decide (s = "github.com/urfave/cli/v2"))
  else if decide (expr = "^github\.com/(urfave|codegangsta)/cli(/v\d+)?\.(Command|App)$")
    then Some (bool_decide (s = "github.com/urfave/cli/v2.Command"))
  else if decide (expr = "^Get$") then Some (bool_decide (s = "Get"))
  else if decide (expr = "^chi\.\*?Mux$") then Some (bool_decide (s = "chi.*Mux"))
  else None.
Example C72_example :
  let mine := EPat "^Exec$" "app.Job" "" in
  let ps := apply_entrypoint_presets ex_re entrypoint_bundles [mine] ["net/http"; "github.com/urfave/cli/v2"] in
  length ps = 2 ∧ head ps = Some mine ∧
  matches_entrypoint ex_re ps "github.com/urfave/cli/v2.Command" "Action" = true ∧
  matches_entrypoint ex_re ps "app.Button" "Action" = false ∧
  matches_entrypoint ex_re [EPat "^(Action|Before|After)$" "" ""] "app.Button" "Action" = false ∧
  registration_match ex_re [RGate "^Get$" "^chi\.\*?Mux$" ""] [] true (Callee "Get" "chi" "*Mux") = true ∧
  registration_match ex_re [RGate "^Get$" "^chi\.\*?Mux$" ""] [] true (Callee "Get" "cache" "*Store") = false.
Proof. vm_compute. repeat split; reflexivity. Qed.
