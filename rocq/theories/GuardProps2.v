(** * C106: the middleware that guards a route: cases and refutations. *)
From Coq Require Import Ascii ZArith Lia.
From stdpp Require Import sorting.
From stdpp Require Import base numbers list strings gmap.
From Verif Require Import StrLib StrOrder RouteModel SecModel SecProofs GuardModel GuardProps.

Definition auth : mref := MRef "Auth" "app/mw" "" "1".
Definition use_node (key caller router : string) : gnode := GNode key (caller_key caller "app") NPlain [SMatch 13 ScRouter [auth]] [] router [].
Definition get_node (key caller router : string) : gnode := GNode key (caller_key caller "app") NRoute [] [] router [].
Lemma best_one m : best [m] m.
Proof. exists 0. split; [done|]. intros j m' Hj. apply list_lookup_singleton_Some in Hj as [-> <-]. split; lia. Qed.
(** A group with its own middleware inside a mount that has another, and a route outside. *)
Definition logger : mref := MRef "Log" "app/mw" "" "2".
Definition grp : gnode := GNode "Group" (caller_key "main" "app") (NMount "/v1") [SMatch 13 ScSubtree [logger]] [] "r" [use_node "Use" "FuncLit:1" "g"; get_node "Get1" "FuncLit:1" "g"; GNode "sub" (caller_key "FuncLit:1" "app") NPlain [] [] "" [get_node "Get2" "sub" "g"]].
Definition example_root : gnode := GNode "main" "" NPlain [] [] "" [grp; get_node "Get3" "main" "r"].
Example C106_example : (λ x, (g_key (mt_node x), mt_path x, mr_fn <$> mt_mw x)) <$> routes_met example_root = [("Get1", "/v1", ["Log"; "Auth"]); ("Get2", "/v1", ["Log"; "Auth"]); ("Get3", "", [])] ∧ visits example_root "" = ["main@"; "Group@"; "Use@/v1"; "Get1@/v1"; "sub@/v1"; "Get2@/v1"; "Get3@"].
Proof. by vm_compute. Qed.
Example C106_example_nodup : NoDup (visits example_root "").
Proof. apply (bool_decide_unpack _). by vm_compute. Qed.
Example C106_example_meets : ∃ G, meets example_root "" (get_node "Get1" "FuncLit:1" "g") "/v1" G ∧ G auth.
Proof.
  eexists. split.
  - eapply meets_plain; [done|by apply (elem_of_list_lookup_2 _ 0)|]. eapply meets_mount; [done|by apply (elem_of_list_lookup_2 _ 1)|]. by apply meets_route.
  - cbn. right. right. left. exists (use_node "Use" "FuncLit:1" "g"). split; [by apply (elem_of_list_lookup_2 _ 0)|]. split; [done|]. exists (SMatch 13 ScRouter [auth]). split; [apply best_one|]. split; [done|by left].
Qed.
Definition ident (n : string) : marg := MArg MIdent n "app" "p" None None None [].
Definition call_of (f : marg) : marg := MArg MCall "" "" "p" None None (Some f) [].
Definition pkgs0 : gmap string (gmap string mfile) := {["app" := {["main.go" := MFile {["main" := {["mw" := [MAsn (call_of (ident "New")) "New" "app/jwt"]]}]} {["Handler" := [MMeth "Register" "*Handler" {["mw" := [MAsn (call_of (ident "Basic")) "Basic" "app/basic"]]}]]}]}]}.
Example C106_example_args : extract_middleware pkgs0 (SPat ScRoute 1 true true 0) (MEdge ∅ "main" "app" "" [ident "path"; ident "mw"; ident "limit"; ident "handler"]) = [MRef "New" "app/jwt" "" "p"; MRef "limit" "app" "" "p"] ∧ lookup_assignments pkgs0 (MEdge ∅ "Register" "app" "Handler" []) "mw" = [MAsn (call_of (ident "Basic")) "Basic" "app/basic"].
Proof. by vm_compute. Qed.

(** C106g: a router's middleware guards the routes of another router of the same function. *)
Theorem C106_router_refuted : ∃ root x u m, x ∈ routes_met root ∧ u ∈ g_kids root ∧ mt_node x ∈ g_kids root ∧ g_router u ≠ g_router (mt_node x) ∧ applies ScRouter u m ∧ m ∈ mt_mw x.
Proof.
  exists (GNode "main" "" NPlain [] [] "" [use_node "Use" "main" "admin"; get_node "Get" "main" "public"]), (Met (get_node "Get" "main" "public") "" [auth]), (use_node "Use" "main" "admin"), auth.
  split; [by apply (elem_of_list_lookup_2 _ 0)|]. split; [by apply (elem_of_list_lookup_2 _ 0)|]. split; [by apply (elem_of_list_lookup_2 _ 1)|]. split; [done|]. split; [|by left]. exists (SMatch 13 ScRouter [auth]). split; [apply best_one|]. split; [done|by left].
Qed.
(** C106h: and those registered before it. *)
Theorem C106_before_refuted : ∃ root x u m i j, i < j ∧ g_kids root !! i = Some (mt_node x) ∧ g_kids root !! j = Some u ∧ g_router u = g_router (mt_node x) ∧ applies ScRouter u m ∧ x ∈ routes_met root ∧ m ∈ mt_mw x.
Proof.
  exists (GNode "main" "" NPlain [] [] "" [get_node "Get" "main" "r"; use_node "Use" "main" "r"]), (Met (get_node "Get" "main" "r") "" [auth]), (use_node "Use" "main" "r"), auth, 0, 1.
  split; [lia|]. do 3 (split; [done|]). split; [exists (SMatch 13 ScRouter [auth]); split; [apply best_one|]; split; [done|by left]|]. split; [by apply (elem_of_list_lookup_2 _ 0)|by left].
Qed.
(** C106i: middleware a helper adds guards none of the routes beside the helper's call. *)
Theorem C106_helper_refuted : ∃ root h u x m, h ∈ g_kids root ∧ u ∈ g_kids h ∧ applies ScRouter u m ∧ g_router u = g_router (mt_node x) ∧ mt_node x ∈ g_kids root ∧ x ∈ routes_met root ∧ mt_mw x = [].
Proof.
  exists (GNode "main" "" NPlain [] [] "" [GNode "setup" (caller_key "main" "app") NPlain [] [] "" [use_node "Use" "setup" "r"]; get_node "Get" "main" "r"]), (GNode "setup" (caller_key "main" "app") NPlain [] [] "" [use_node "Use" "setup" "r"]), (use_node "Use" "setup" "r"), (Met (get_node "Get" "main" "r") "" []), auth.
  split; [by apply (elem_of_list_lookup_2 _ 0)|]. split; [by apply (elem_of_list_lookup_2 _ 0)|]. split; [exists (SMatch 13 ScRouter [auth]); split; [apply best_one|]; split; [done|by left]|]. split; [done|]. split; [by apply (elem_of_list_lookup_2 _ 1)|]. split; [by apply (elem_of_list_lookup_2 _ 0)|done].
Qed.
(** C106j: callers are told apart by name and package: two methods of one name are one caller. *)
Theorem C106_caller_refuted : ∃ e e' : medge, me_recv e ≠ me_recv e' ∧ caller_key (me_caller e) (me_pkg e) = caller_key (me_caller e') (me_pkg e').
Proof. by exists (MEdge ∅ "Register" "app" "Public" []), (MEdge ∅ "Register" "app" "Admin" []). Qed.
(** C106k: a route reached twice under one path keeps the middleware of the first way only. *)
Theorem C106_revisit_refuted : ∃ root r mp G m, meets root "" r mp G ∧ G m ∧ (∃ x, x ∈ routes_met root ∧ mt_node x = r) ∧ ∀ x, x ∈ routes_met root → mt_mw x = [].
Proof.
  exists (GNode "main" "" NPlain [] [] "" [GNode "a" "x" NPlain [] [] "" [get_node "Get" "reg" "r"]; GNode "b" "y" NPlain [] [] "" [get_node "Get" "reg" "r"]; GNode "Use" "y" NPlain [SMatch 13 ScRouter [auth]] [] "r" []]), (get_node "Get" "reg" "r"), ""; eexists; exists auth.
  split; [eapply (meets_plain _ _ (GNode "b" "y" NPlain [] [] "" [get_node "Get" "reg" "r"])); [done|by apply (elem_of_list_lookup_2 _ 1)|]; eapply meets_plain; [done|by apply (elem_of_list_lookup_2 _ 0)|]; by apply meets_route|].
  split; [left; exists (GNode "Use" "y" NPlain [SMatch 13 ScRouter [auth]] [] "r" []); split; [by apply (elem_of_list_lookup_2 _ 2)|]; split; [done|]; exists (SMatch 13 ScRouter [auth]); split; [apply best_one|]; split; [done|by left]|].
  split; [exists (Met (get_node "Get" "reg" "r") "" []); split; [by apply (elem_of_list_lookup_2 _ 0)|done]|]. intros x Hx. assert (E : routes_met (GNode "main" "" NPlain [] [] "" [GNode "a" "x" NPlain [] [] "" [get_node "Get" "reg" "r"]; GNode "b" "y" NPlain [] [] "" [get_node "Get" "reg" "r"]; GNode "Use" "y" NPlain [SMatch 13 ScRouter [auth]] [] "r" []]) = [Met (get_node "Get" "reg" "r") "" []]) by (by vm_compute). rewrite E in Hx. apply elem_of_list_singleton in Hx as ->. done.
Qed.
(** C106l: of the wrappers around a handler only the outermost is middleware. *)
Theorem C106_nested_refuted : ∃ p e a inner, sp_scope p = ScWrapper ∧ me_args e !! Z.to_nat (sp_handler p) = Some a ∧ a_kind a = MCall ∧ a_args a = [inner] ∧ a_kind inner = MCall ∧ ref_from_arg inner = Some (MRef "Auth" "app" "" "p") ∧ extract_middleware ∅ p e = [MRef "Log" "app" "" "p"].
Proof. set (inner := MArg MCall "" "" "p" None None (Some (ident "Auth")) [ident "h"]). exists (SPat ScWrapper 0 false false 1), (MEdge ∅ "main" "app" "" [ident "path"; MArg MCall "" "" "p" None None (Some (ident "Log")) [inner]]), (MArg MCall "" "" "p" None None (Some (ident "Log")) [inner]), inner. done. Qed.
(** C106m: a variable that holds a method's result loses its receiver: given directly the middleware has it. *)
Theorem C106_variable_refuted : ∃ pkgs e v r r', lookup_assignments pkgs e "mw" = [MAsn v (mr_fn r) (mr_pkg r)] ∧ arg_ref pkgs e v = Some r ∧ arg_ref pkgs e (ident "mw") = Some r' ∧ mr_recv r = "Handler" ∧ mr_recv r' = "".
Proof.
  set (v := call_of (MArg MSelector "" "app" "p" (Some "Handler") (Some (ident "auth")) None [])). exists {["app" := {["main.go" := MFile {["main" := {["mw" := [MAsn v "auth" "app"]]}]} ∅]}]}, (MEdge ∅ "main" "app" "" []), v, (MRef "auth" "app" "Handler" "p"), (MRef "auth" "app" "" "p"). by vm_compute.
Qed.
(** C106n: a variable that holds another variable is middleware by its own name. *)
Theorem C106_alias_refuted : ∃ pkgs e r, arg_ref pkgs e (ident "mw") = Some r ∧ mr_fn r = "mw" ∧ lookup_assignments pkgs e "mw" = [MAsn (ident "jwt") "" ""] ∧ arg_ref pkgs e (ident "jwt") = Some (MRef "New" "app/jwt" "" "p").
Proof. exists {["app" := {["main.go" := MFile {["main" := {["mw" := [MAsn (ident "jwt") "" ""]; "jwt" := [MAsn (call_of (ident "New")) "New" "app/jwt"]]}]} ∅]}]}, (MEdge ∅ "main" "app" "" []), (MRef "mw" "app" "" "p"). by vm_compute. Qed.
(** C106o: in a method, the variable of a function of the method's name is taken. *)
Theorem C106_function_refuted : ∃ pkgs e m, me_recv e = "Handler" ∧ (∃ files f, pkgs !! me_pkg e = Some files ∧ files !! "h.go" = Some f ∧ mf_types f !! "Handler" = Some [m]) ∧ mm_name m = me_caller e ∧ mm_recv m = me_recv e ∧ default [] (mm_map m !! "mw") ≠ [] ∧ lookup_assignments pkgs e "mw" ≠ default [] (mm_map m !! "mw").
Proof.
  set (m := MMeth "Register" "Handler" {["mw" := [MAsn (ident "f") "Basic" "app/basic"]]}). set (f := MFile ({["Register" := {["mw" := [MAsn (ident "f") "New" "app/jwt"]]}]} : gmap string mamap) {["Handler" := [m]]}). exists {["app" := {["h.go" := f]}]}, (MEdge ∅ "Register" "app" "Handler" []), m.
  split; [done|]. split; [exists {["h.go" := f]}, f; done|]. split; [done|]. split; [done|]. split; [done|]. by vm_compute.
Qed.
(** C106p: a variable of the function a literal is in is not found from the literal. *)
Theorem C106_literal_refuted : ∃ pkgs outer inner, me_pkg inner = me_pkg outer ∧ me_caller inner = "FuncLit:main.go:9:1" ∧ lookup_assignments pkgs outer "mw" ≠ [] ∧ lookup_assignments pkgs inner "mw" = [] ∧ arg_ref pkgs inner (ident "mw") = Some (MRef "mw" "app" "" "p").
Proof. exists pkgs0, (MEdge ∅ "main" "app" "" []), (MEdge ∅ "FuncLit:main.go:9:1" "app" "" []). by vm_compute. Qed.
(** C106q: a function literal given as middleware is nothing, so it is not reported as unresolved either. *)
Theorem C106_closure pkgs e a : a_kind a = MOther → arg_ref pkgs e a = None.
Proof. destruct a as [k n p ps r s f l]. cbn. intros ->. done. Qed.
Print Assumptions C106_router_refuted. Print Assumptions C106_before_refuted. Print Assumptions C106_helper_refuted. Print Assumptions C106_caller_refuted. Print Assumptions C106_revisit_refuted. Print Assumptions C106_nested_refuted. Print Assumptions C106_variable_refuted. Print Assumptions C106_alias_refuted. Print Assumptions C106_function_refuted. Print Assumptions C106_literal_refuted. Print Assumptions C106_closure.
