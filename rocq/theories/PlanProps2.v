(** * C92: cases, and what is false of the plan. *)
From Coq Require Import Ascii.
From stdpp Require Import base list strings gmap relations.
From Verif Require Import StrLib IdModel PlanModel PlanProps.

Definition simple_ctx (es : list pedge) (rels : list prel) : pctx :=
  PCtx es rels (λ _, []) (λ v f p, (v, p, f)) 10 (λ _, []) None (λ _, []) (λ _, []).
(** A call in function [fn] of package [app]. *)
Definition pcall (fn callee name var : string) (chain : option string) (args : list parg) (params : list (string * parg)) : pedge :=
  PEdge ("app." +:+ fn) ("app." +:+ fn) fn "app" callee (strip_to_base callee) name var chain args params.
Definition var_arg (v : string) : parg := PArg ("app." +:+ v) v true false None.

(** ** A program whose calls are all in the tree
<<
  func main() { r := chi.NewRouter(); r.Get("/a", h).Name("a"); routes(r) }
  func routes(x chi.Router) { log(); x.Post("/b", h) }
>> *)
Definition e_new : pedge := pcall "main" "chi.NewRouter@1" "NewRouter" "" None [] [].
Definition e_get : pedge := pcall "main" "chi.Mux.Get@2" "Get" "r" None [] [].
Definition e_name : pedge := pcall "main" "chi.Route.Name@2" "Name" "" (Some "chi.Mux.Get@2") [] [].
Definition e_routes : pedge := pcall "main" "app.routes@3" "routes" "" None [var_arg "r"] [("x", var_arg "r")].
Definition e_log : pedge := pcall "routes" "app.log@4" "log" "" None [] [].
Definition e_post : pedge := pcall "routes" "chi.Mux.Post@5" "Post" "x" None [] [].
Definition prog : pctx := simple_ctx [e_new; e_get; e_name; e_routes; e_log; e_post] [PRel "r" "app" "main" e_new].
Definition main_node : pnode := PNode "app.main" None None.
Example prog_main : spec_key <$> build_plan prog main_node = ["chi.NewRouter@1"; "chi.Route.Name@2"; "app.routes@3"].
Proof. by vm_compute. Qed.
Example prog_new : spec_key <$> build_plan prog (PNode "chi.NewRouter@1" (Some e_new) None) = ["chi.Mux.Get@2"; "chi.Mux.Post@5"].
Proof. by vm_compute. Qed.
Example prog_routes : spec_key <$> build_plan prog (PNode "app.routes@3" (Some e_routes) None) = ["app.r"; "app.log@4"].
Proof. by vm_compute. Qed.
(** The hypotheses of [C92_reached] hold of all its calls. *)
Definition prog_rank (e : pedge) : nat := if decide (e = e_get ∨ e = e_post ∨ e = e_log) then 1 else 0.
Example prog_reached : ∀ e, e ∈ px_es prog → reaches prog main_node (pkey e).
Proof.
  apply (C92_reached prog main_node prog_rank); [done|]. intros e He. change (strip_to_base (pn_key main_node)) with "app.main".
  change (px_es prog) with [e_new; e_get; e_name; e_routes; e_log; e_post] in *. repeat (apply elem_of_cons in He as [->|He]); [..|by apply elem_of_nil in He].
  - left. apply elem_edges_for. by apply (elem_of_list_lookup_2 _ 0).
  - right. exists e_new. split; [by apply (elem_of_list_lookup_2 _ 0)|]. split; [apply (bool_decide_unpack _); by vm_compute|]. right. left. apply elem_receiver. by apply (elem_of_list_lookup_2 _ 0).
  - left. apply elem_edges_for. by apply (elem_of_list_lookup_2 _ 1).
  - left. apply elem_edges_for. by apply (elem_of_list_lookup_2 _ 2).
  - right. exists e_routes. split; [by apply (elem_of_list_lookup_2 _ 3)|]. split; [apply (bool_decide_unpack _); by vm_compute|]. left. apply elem_edges_for. by apply (elem_of_list_lookup_2 _ 0).
  - right. exists e_new. split; [by apply (elem_of_list_lookup_2 _ 0)|]. split; [apply (bool_decide_unpack _); by vm_compute|]. right. left. apply elem_receiver. by apply (elem_of_list_lookup_2 _ 1).
Qed.
(** With a route matcher: the calls that lead to a route first. *)
Definition prog_ordered : pctx := PCtx (px_es prog) (px_rels prog) (λ _, []) (px_trace prog) 10 (λ _, []) (Some (λ k, bool_decide (k = "app.routes@3"))) (λ _, []) (λ _, []).
Example prog_ordered_main : spec_key <$> build_plan prog_ordered main_node = ["app.routes@3"; "chi.NewRouter@1"; "chi.Route.Name@2"].
Proof. by vm_compute. Qed.

(** ** What is false *)
Lemma not_reached c root k (nodes : list pnode) : root ∈ nodes → (∀ n s, n ∈ nodes → s ∈ build_plan c n → child_of s ∈ nodes) → (∀ n, n ∈ nodes → pn_key n ≠ k) → ¬ reaches c root k.
Proof.
  intros Hr Hc Hk (n & Hn & <-). assert (n ∈ nodes) as Hin; [|by apply (Hk n Hin)]. clear Hk. revert Hr. induction Hn as [|x y z (s & Hs & ->) _ IH]; [done|]. intros Hx. apply IH. by apply (Hc x).
Qed.
(** Every call of a function reached from [main] is in the tree: not if the function gives its parameter a new value,
<<
  func main() { routes(chi.NewRouter()) }
  func routes(r chi.Router) { r = r.With(mw); r.Get("/a", h) }
>>
    where [r.With] and [r.Get] belong below [r.With], which is below nothing else. *)
Definition a_new : parg := PArg "chi.NewRouter@1" "NewRouter" false true (Some 0).
Definition w_new : pedge := pcall "main" "chi.NewRouter@1" "NewRouter" "" None [] [].
Definition w_routes : pedge := pcall "main" "app.routes@2" "routes" "" None [a_new] [("r", a_new)].
Definition w_with : pedge := pcall "routes" "chi.Mux.With@3" "With" "r" None [] [].
Definition w_get : pedge := pcall "routes" "chi.Mux.Get@4" "Get" "r" None [] [].
Definition reassigned : pctx := simple_ctx [w_new; w_routes; w_with; w_get] [PRel "r" "app" "routes" w_with].
Theorem C92_reassigned_refuted : ∃ c root e e', own_call c (strip_to_base (pn_key root)) e' ∧ e ∈ px_es c ∧ pe_base e = pe_callee_base e' ∧ ¬ is_argument c e ∧ px_gen c (pkey e) = [] ∧ ¬ reaches c root (pkey e).
Proof.
  exists reassigned, main_node, w_get, w_routes. split; [apply elem_edges_for; by apply (elem_of_list_lookup_2 _ 0)|]. split; [by apply (elem_of_list_lookup_2 _ 3)|]. split; [by vm_compute|]. split; [rewrite <- elem_arg_ids; apply (bool_decide_unpack _); by vm_compute|]. split; [done|].
  apply (not_reached _ _ _ [main_node; PNode "app.routes@2" (Some w_routes) None; PNode "chi.NewRouter@1" (Some w_new) (Some a_new)]).
  - by apply (elem_of_list_lookup_2 _ 0).
  - intros n s Hn Hs. repeat (apply elem_of_cons in Hn as [->|Hn]); [..|by apply elem_of_nil in Hn].
    + assert (build_plan reassigned main_node = [PSCallee "app.routes@2" w_routes false]) as E by by vm_compute. rewrite E in Hs. apply elem_of_list_singleton in Hs as ->. by apply (elem_of_list_lookup_2 _ 1).
    + assert (build_plan reassigned (PNode "app.routes@2" (Some w_routes) None) = [PSArg "chi.NewRouter@1" a_new w_new]) as E by by vm_compute. rewrite E in Hs. apply elem_of_list_singleton in Hs as ->. by apply (elem_of_list_lookup_2 _ 2).
    + assert (build_plan reassigned (PNode "chi.NewRouter@1" (Some w_new) (Some a_new)) = []) as E by by vm_compute. rewrite E in Hs. by apply elem_of_nil in Hs.
  - intros n Hn. repeat (apply elem_of_cons in Hn as [->|Hn]); [done..|by apply elem_of_nil in Hn].
Qed.
(** A function that is given a router in a variable in one place and the result of a call in another: its registrations are below the
    router of the first only,
<<
  func main() { v := chi.NewRouter(); routes(v); routes(chi.NewRouter()) }
  func routes(r chi.Router) { r.Get("/a", h) }
>> *)
Definition s_v : pedge := pcall "main" "chi.NewRouter@1" "NewRouter" "" None [] [].
Definition s_first : pedge := pcall "main" "app.routes@2" "routes" "" None [var_arg "v"] [("r", var_arg "v")].
Definition s_arg : parg := PArg "chi.NewRouter@4" "NewRouter" false true (Some 3).
Definition s_second : pedge := pcall "main" "app.routes@3" "routes" "" None [s_arg] [("r", s_arg)].
Definition s_new : pedge := pcall "main" "chi.NewRouter@4" "NewRouter" "" None [] [].
Definition s_get : pedge := pcall "routes" "chi.Mux.Get@5" "Get" "r" None [] [].
Definition two_routers : pctx := simple_ctx [s_v; s_first; s_second; s_new; s_get] [PRel "v" "app" "main" s_v].
Theorem C92_second_router_refuted : ∃ c e e', e' ∈ px_es c ∧ e ∈ px_es c ∧ pe_base e = pe_callee_base e' ∧ ¬ is_argument c e ∧ px_gen c (pkey e) = [] ∧ ¬ reaches c (PNode (pkey e') (Some e') None) (pkey e) ∧ reaches c main_node (pkey e).
Proof.
  exists two_routers, s_get, s_second. split; [by apply (elem_of_list_lookup_2 _ 2)|]. split; [by apply (elem_of_list_lookup_2 _ 4)|]. split; [by vm_compute|]. split; [rewrite <- elem_arg_ids; apply (bool_decide_unpack _); by vm_compute|]. split; [done|]. split.
  - apply (not_reached _ _ _ [PNode "app.routes@3" (Some s_second) None; PNode "chi.NewRouter@4" (Some s_new) (Some s_arg)]).
    + by apply (elem_of_list_lookup_2 _ 0).
    + intros n s Hn Hs. repeat (apply elem_of_cons in Hn as [->|Hn]); [..|by apply elem_of_nil in Hn].
      * assert (build_plan two_routers (PNode "app.routes@3" (Some s_second) None) = [PSArg "chi.NewRouter@4" s_arg s_new]) as E by by vm_compute. rewrite E in Hs. apply elem_of_list_singleton in Hs as ->. by apply (elem_of_list_lookup_2 _ 1).
      * assert (build_plan two_routers (PNode "chi.NewRouter@4" (Some s_new) (Some s_arg)) = []) as E by by vm_compute. rewrite E in Hs. by apply elem_of_nil in Hs.
    + intros n Hn. repeat (apply elem_of_cons in Hn as [->|Hn]); [done..|by apply elem_of_nil in Hn].
  - exists (PNode "chi.Mux.Get@5" (Some s_get) None). split; [|done]. apply (rtc_l _ _ (PNode "chi.NewRouter@1" (Some s_v) None)).
    + exists (PSCallee "chi.NewRouter@1" s_v false). split; [|done]. by apply (elem_of_list_lookup_2 _ 0).
    + apply rtc_once. exists (PSCallee "chi.Mux.Get@5" s_get false). split; [|done]. by apply (elem_of_list_lookup_2 _ 0).
Qed.
(** The closure a function returns is followed, unless the function makes a call of its own before:
<<
  func list() http.HandlerFunc { log(); return func(w, r) { encode(w) } }
>> *)
Definition f_encode : pedge := PEdge "app.FuncLit:a.go:3:9" "app.FuncLit:a.go:3:9" "FuncLit:a.go:3:9" "app" "app.encode@6" "app.encode" "encode" "" None [] [].
Definition f_log : pedge := pcall "list" "app.log@5" "log" "" None [] [].
Definition factory (es : list pedge) : pctx := PCtx es [] (λ k, if decide (k = "app.list") then [f_encode] else []) (λ v f p, (v, p, f)) 10 (λ _, []) None (λ _, []) (λ _, []).
Theorem C92_closure_refuted : ∃ (c : list pedge → pctx) n e own, (∀ es, px_es (c es) = es) ∧ (∀ es, e ∈ px_parents (c es) (strip_to_base (pn_key n))) ∧
  pkey e ∈ spec_key <$> build_plan (c [e]) n ∧ pkey e ∉ spec_key <$> build_plan (c [e; own]) n.
Proof.
  exists factory, (PNode "app.list@2" None None), f_encode, f_log. split; [done|]. split; [intros es; by apply (elem_of_list_lookup_2 _ 0)|]. split; [by apply (elem_of_list_lookup_2 _ 0)|]. apply (bool_decide_unpack _). by vm_compute.
Qed.
(** A call with type arguments of its own inside a function with others is not below it: [func Create[T any]() { ... reply[Problem](w) }] in
    [Create[User]]. The types of the node are required among those of the call, not the other way round. *)
Definition g_reply : pedge := PEdge "app.Create" "app.Create" "Create" "app" "app.reply[Problem]@7" "app.reply" "reply" "" None [] [].
Definition g_two : pedge := PEdge "app.Create" "app.Create" "Create" "app" "app.decode[T=User]@8" "app.decode" "decode" "" None [] [].
Definition g_types (k : string) : list string := if decide (k = "app.Create[T=User,U=Reply]@1") then ["User"; "Reply"] else if decide (k = "app.reply[Problem]@7") then ["Problem"] else if decide (k = "app.decode[T=User]@8") then ["User"] else [].
Definition generics : pctx := PCtx [g_reply; g_two] [] (λ _, []) (λ v f p, (v, p, f)) 10 g_types None (λ _, []) (λ _, []).
Theorem C92_generics_refuted : ∃ c n e e', own_call c (strip_to_base (pn_key n)) e ∧ own_call c (strip_to_base (pn_key n)) e' ∧ (∀ t, t ∈ px_gen c (pkey e') → t ∈ px_gen c (pn_key n)) ∧
  pkey e ∉ spec_key <$> build_plan c n ∧ pkey e' ∉ spec_key <$> build_plan c n.
Proof.
  exists generics, (PNode "app.Create[T=User,U=Reply]@1" None None), g_reply, g_two. split; [apply elem_edges_for; by apply (elem_of_list_lookup_2 _ 0)|]. split; [apply elem_edges_for; by apply (elem_of_list_lookup_2 _ 1)|]. split; [|split; apply (bool_decide_unpack _); by vm_compute].
  intros t Ht. change (px_gen generics (pkey g_two)) with ["User"] in Ht. apply elem_of_list_singleton in Ht as ->. by apply (elem_of_list_lookup_2 _ 0).
Qed.
(** Calls that share an ID (the same method twice in a chain, C91) are listed once: the arguments of the second are not in the tree. *)
Definition d_one : pedge := pcall "main" "app.B.Add@1" "Add" "b" None [var_arg "x"] [].
Definition d_two : pedge := pcall "main" "app.B.Add@1" "Add" "" (Some "app.B.Add@1") [var_arg "y"] [].
Definition doubled : pctx := simple_ctx [d_one; d_two] [].
Theorem C92_same_id_refuted : ∃ c n e, own_call c (strip_to_base (pn_key n)) e ∧ gen_ok c n e = true ∧ ∀ k e' ch, PSCallee k e' ch ∈ build_plan c n → e' ≠ e.
Proof.
  exists doubled, main_node, d_two. split; [apply elem_edges_for; by apply (elem_of_list_lookup_2 _ 1)|]. split; [by vm_compute|]. intros k e' ch H. assert (build_plan doubled main_node = [PSCallee "app.B.Add@1" d_one false]) as E by by vm_compute. rewrite E in H. apply elem_of_list_singleton in H. by injection H as -> -> ->.
Qed.

Print Assumptions C92_reassigned_refuted.
Print Assumptions C92_second_router_refuted.
Print Assumptions C92_closure_refuted.
Print Assumptions C92_generics_refuted.
Print Assumptions C92_same_id_refuted.
