(** * C93: what a registration says about its route. *)
From Coq Require Import Ascii.
From stdpp Require Import base list strings gmap.
From Verif Require Import StrLib PathModel VerbModel RouteModel MergeProofs DetailModel.

(** The specification. The words in which a registration can name a verb: the called function, the handler, an argument, the start of the path. *)
Section spec.
  Context (name_method : string → string * bool) (resolve : rarg → string * list string).
  Inductive names_verb (p : rpat) (c : rcall) (m : string) : Prop :=
  | by_call : rp_call p = true → (name_method (rc_name c)).1 = m → names_verb p c m
  | by_handler a : rp_call p = false → rp_by_handler p = true → rp_handler p = true → rc_args c !! rp_handler_at p = Some a → ra_info a ≠ "" → name_method (ra_info a) = (m, true) → names_verb p c m
  | by_list a i rest : rp_call p = false → rp_arg p = true → rp_method_at p = Some i → rc_args c !! i = Some a → verbs_from_arg (ra_const a) = m :: rest → names_verb p c m
  | by_value a i t : rp_call p = false → rp_arg p = false → rp_method_at p = Some i → rc_args c !! i = Some a → t = ra_value a ∨ t = ra_info a → t ≠ "" →
      valid_method (trim_any quotes t) = true → m = to_upper (trim_any quotes t) → names_verb p c m
  | by_path a : rp_path p = true → rp_from_path p = true → rc_args c !! rp_path_at p = Some a → (split_method (resolve a).1).1 = m → m ≠ "" → names_verb p c m.
End spec.

Section props.
  Context {X : Type} (nothing : X).
  Context (name_method : string → string * bool) (resolve : rarg → string * list string) (peel : rarg → rarg) (trace : string → string * string).
  Notation extract := (extract_route nothing name_method resolve peel trace).
  Notation names := (names_verb name_method resolve).

  Lemma verb_of_value_spec a m : verb_of_value a = Some m → ∃ t, (t = ra_value a ∨ t = ra_info a) ∧ t ≠ "" ∧ valid_method (trim_any quotes t) = true ∧ m = to_upper (trim_any quotes t).
  Proof.
    unfold verb_of_value. destruct (decide (ra_value a = "")) as [|N1]; [done|].
    destruct (valid_method (trim_any quotes (ra_value a))) eqn:V1; [intros E; exists (ra_value a); split_and!; [by left|done|done|congruence]|].
    destruct (decide (ra_info a = "")) as [|N2]; [done|].
    destruct (valid_method (trim_any quotes (ra_info a))) eqn:V2; [|done].
    intros E; exists (ra_info a); split_and!; [by right|done|done|congruence].
  Qed.
  Lemma method_step_verb p c (r : rinfo X) : let r' := (method_step name_method p c r).2 in
    (ri_explicit r' = true → names p c (ri_method r') ∨ (ri_explicit r = true ∧ ri_method r' = ri_method r)) ∧
    ri_path r' = ri_path r ∧ ri_handler r' = ri_handler r ∧ ri_function r' = ri_function r ∧ ri_package r' = ri_package r ∧ ri_file r' = ri_file r ∧ ri_dynamic r' = ri_dynamic r ∧ ri_rest r' = ri_rest r.
  Proof.
    cbn zeta. unfold method_step. destruct (rp_call p) eqn:EC; [cbn; split_and!; try done; intros _; left; by apply by_call|].
    destruct (if rp_by_handler p && rp_handler p then rc_args c !! rp_handler_at p else None) as [a|] eqn:EH.
    - destruct (rp_by_handler p) eqn:E1; [|done]. destruct (rp_handler p) eqn:E2; [|done]. cbn in EH.
      destruct (decide (ra_info a = "")) as [|NE]; [cbn; split_and!; try done; by right|].
      destruct (name_method (ra_info a)) as [m hit] eqn:EM. cbn. split_and!; try done. intros ->. left. by apply (by_handler _ _ _ _ _ a).
    - destruct (rp_method_at p ≫= (λ i, rc_args c !! i)) as [a|] eqn:EA; [|cbn; split_and!; try done; by right].
      destruct (rp_method_at p) as [i|] eqn:EI; [|done]. cbn [mbind option_bind] in EA.
      destruct (rp_arg p) eqn:EG.
      + destruct (verbs_from_arg (ra_const a)) as [|m more] eqn:EV; [cbn; split_and!; try done; by right|].
        cbn. split_and!; try done. intros _. left. by apply (by_list _ _ _ _ _ a i more).
      + destruct (verb_of_value a) as [m|] eqn:EV; [|cbn; split_and!; try done; by right].
        apply verb_of_value_spec in EV as (t & Ht & N & V & E). cbn. split_and!; try done. intros _. left. by apply (by_value _ _ _ _ _ a i t).
  Qed.
  Lemma path_step_verb p c (r : rinfo X) : let r' := (path_step resolve p c r).2 in
    (ri_explicit r' = true → names p c (ri_method r') ∨ (ri_explicit r = true ∧ ri_method r' = ri_method r)) ∧
    ri_handler r' = ri_handler r ∧ ri_function r' = ri_function r ∧ ri_package r' = ri_package r ∧ ri_file r' = ri_file r ∧ ri_rest r' = ri_rest r ∧
    (rp_from_path p = false → ri_method r' = ri_method r ∧ ri_explicit r' = ri_explicit r).
  Proof.
    cbn zeta. unfold path_step. destruct (if rp_path p then rc_args c !! rp_path_at p else None) as [a|] eqn:EA; [|cbn; split_and!; try done; by right].
    destruct (rp_path p) eqn:EP; [|done]. destruct (resolve a) as [path dyn] eqn:ER.
    destruct (rp_from_path p) eqn:EF.
    - destruct (split_method path) as [m rest] eqn:ES. destruct (decide (m = "")) as [->|NE]; cbn; split_and!; try done; try (by right).
      intros _. left. apply (by_path _ _ _ _ _ a); try done. by rewrite ER; cbn; rewrite ES.
    - cbn. split_and!; try done; by right.
  Qed.
  Lemma handler_step_verb p c (r : rinfo X) : let r' := (handler_step peel trace p c r).2 in
    ri_method r' = ri_method r ∧ ri_explicit r' = ri_explicit r ∧ ri_extra r' = ri_extra r ∧ ri_path r' = ri_path r ∧ ri_file r' = ri_file r ∧ ri_dynamic r' = ri_dynamic r ∧ ri_rest r' = ri_rest r.
  Proof.
    cbn zeta. unfold handler_step. destruct (if rp_handler p then rc_args c !! rp_handler_at p else None) as [a|]; [|done].
    destruct (if ra_named (peel a) then trace (ra_name (peel a)) else ("", "")) as [v vp]. done.
  Qed.
  Lemma extract_route_eq p c (r : rinfo X) :
    (extract p c r).2 = (handler_step peel trace p c (path_step resolve p c (method_step name_method p c (start_route nothing c r)).2).2).2.
  Proof.
    unfold extract_route. destruct (method_step name_method p c (start_route nothing c r)) as [f1 r1]. cbn [snd].
    destruct (path_step resolve p c r1) as [f2 r2]. cbn [snd]. by destruct (handler_step peel trace p c r2) as [f3 r3].
  Qed.

  (** C93a: a verb a registration is taken to have named is one it names — by the function called, the name of the handler, an argument, or the start of the path — or one an earlier link of the chain had named. *)
  Theorem C93_verb_named p c (r : rinfo X) :
    let r' := (extract p c r).2 in
    ri_explicit r' = true → names p c (ri_method r') ∨ (ri_explicit r = true ∧ ri_method r' = ri_method r ∧ ri_file r ≠ "" ∧ ri_package r ≠ "").
  Proof.
    cbn zeta. rewrite extract_route_eq. set (r0 := start_route nothing c r). set (r1 := (method_step name_method p c r0).2). set (r2 := (path_step resolve p c r1).2).
    destruct (method_step_verb p c r0) as [HM _]. destruct (path_step_verb p c r1) as [HP _]. destruct (handler_step_verb p c r2) as (E1 & E2 & _).
    rewrite E1, E2. intros EX. destruct (HP EX) as [?|[EX1 EM1]]; [by left|]. fold r2 in EM1. rewrite EM1.
    destruct (HM EX1) as [?|[EX0 EM0]]; [by left|]. fold r1 in EM0. rewrite EM0. right.
    subst r0. unfold start_route in *. destruct (decide (ri_file r = "" ∨ ri_package r = "")) as [|N]; [by cbn in EX0|]. split_and!; [done|done| |]; intros ?; apply N; auto.
  Qed.

  (** C93b: the function called decides before the handler, the handler before the arguments; the start of the path decides over all of them. *)
  Theorem C93_precedence p c (r : rinfo X) :
    let r' := (extract p c r).2 in
    (∀ a, rp_path p = true → rp_from_path p = true → rc_args c !! rp_path_at p = Some a → (split_method (resolve a).1).1 ≠ "" → ri_method r' = (split_method (resolve a).1).1 ∧ ri_explicit r' = true) ∧
    ((rp_path p && rp_from_path p = false ∨ ∀ a, rc_args c !! rp_path_at p = Some a → (split_method (resolve a).1).1 = "") →
      (rp_call p = true → ri_method r' = (name_method (rc_name c)).1 ∧ ri_explicit r' = true) ∧
      (∀ a, rp_call p = false → rp_by_handler p = true → rp_handler p = true → rc_args c !! rp_handler_at p = Some a → ra_info a ≠ "" →
         (ri_method r', ri_explicit r') = name_method (ra_info a)) ∧
      (∀ a i m more, rp_call p = false → rp_by_handler p && rp_handler p = false → rp_arg p = true → rp_method_at p = Some i → rc_args c !! i = Some a → verbs_from_arg (ra_const a) = m :: more →
         ri_method r' = m ∧ ri_extra r' = more ∧ ri_explicit r' = true)).
  Proof.
    cbn zeta. rewrite extract_route_eq. set (r0 := start_route nothing c r). set (r1 := (method_step name_method p c r0).2).
    destruct (handler_step_verb p c (path_step resolve p c r1).2) as (-> & -> & -> & _). split.
    - intros a EP EF EA NE. unfold path_step. rewrite EP, EA, EF. destruct (resolve a) as [path dyn]. cbn [fst] in *. destruct (split_method path) as [m rest]. cbn [fst] in *.
      rewrite decide_False by done. done.
    - intros HN.
      assert (HK : ri_method (path_step resolve p c r1).2 = ri_method r1 ∧ ri_explicit (path_step resolve p c r1).2 = ri_explicit r1 ∧ ri_extra (path_step resolve p c r1).2 = ri_extra r1).
      { unfold path_step. destruct (rp_path p) eqn:EP; [|done]. destruct (rc_args c !! rp_path_at p) as [a|] eqn:EA; [|done]. destruct (resolve a) as [path dyn] eqn:ER.
        destruct (rp_from_path p) eqn:EF; [|done]. destruct HN as [HN|HN]; [done|]. specialize (HN a eq_refl). rewrite ER in HN. cbn [fst] in HN.
        destruct (split_method path) as [m rest]. cbn [fst] in HN. subst m. done. }
      destruct HK as (-> & -> & ->). subst r1. unfold method_step. split_and!.
      + intros ->. done.
      + intros a -> -> -> EA NE. cbn [andb]. rewrite EA, decide_False by done. by destruct (name_method (ra_info a)).
      + intros a i m more -> -> EG EI EA EV. rewrite EI. cbn [mbind option_bind]. rewrite EA, EG, EV. done.
  Qed.

  (** C93c: a registration with a path argument gives the route the path that argument resolves to, without its verb; nothing is the root. *)
  Theorem C93_path p c (r : rinfo X) a :
    rp_path p = true → rc_args c !! rp_path_at p = Some a →
    let t := (resolve a).1 in
    let t' := if rp_from_path p then normalize_servemux (if decide ((split_method t).1 = "") then t else (split_method t).2) else t in
    ri_path (extract p c r).2 = (if decide (t' = "") then "/" else t') ∧
    (∀ d, d ∈ (resolve a).2 → d ∈ ri_dynamic (extract p c r).2) ∧ ri_path (extract p c r).2 ≠ "".
  Proof.
    intros EP EA. cbn zeta. rewrite extract_route_eq. set (r0 := start_route nothing c r). set (r1 := (method_step name_method p c r0).2).
    destruct (handler_step_verb p c (path_step resolve p c r1).2) as (_ & _ & _ & -> & _ & -> & _). unfold path_step. rewrite EP, EA. destruct (resolve a) as [path dyn]. cbn [fst snd].
    assert (HD : ∀ l d, d ∈ dyn → d ∈ append_unique l dyn) by (intros; apply elem_append_unique; auto).
    destruct (rp_from_path p).
    - destruct (split_method path) as [m rest]. cbn [fst snd]. destruct (decide (m = "")) as [->|NE]; cbn [snd ri_path ri_dynamic]; (split_and!; [done|intros d Hd; by apply HD|by destruct (decide _)]).
    - cbn. split_and!; [done|intros d Hd; by apply HD|by destruct (decide (path = ""))].
  Qed.

  (** C93d: a link of a chain that says nothing about the path or the handler leaves them, and what was collected, as they are, if the file and the package of the route are known. *)
  Theorem C93_completes p c (r : rinfo X) :
    ri_file r ≠ "" → ri_package r ≠ "" →
    let r' := (extract p c r).2 in
    ri_rest r' = ri_rest r ∧ ri_file r' = ri_file r ∧
    (rp_path p = false → ri_path r' = ri_path r ∧ ri_dynamic r' = ri_dynamic r) ∧
    (rp_handler p = false → ri_handler r' = ri_handler r ∧ ri_function r' = ri_function r ∧ ri_package r' = ri_package r).
  Proof.
    intros NF NP. cbn zeta. rewrite extract_route_eq. unfold start_route. rewrite decide_False by (intros [?|?]; done).
    set (r1 := (method_step name_method p c r).2). set (r2 := (path_step resolve p c r1).2).
    destruct (method_step_verb p c r) as (_ & M1 & M2 & M3 & M4 & M5 & M6 & M7). destruct (path_step_verb p c r1) as (_ & P2 & P3 & P4 & P5 & P6 & _).
    destruct (handler_step_verb p c r2) as (_ & _ & _ & H1 & H2 & H3 & H4). fold r1 in M1, M2, M3, M4, M5, M6, M7. fold r2 in P2, P3, P4, P5, P6.
    split_and!; [congruence|congruence| |].
    - intros EP. assert (E : r2 = r1) by (subst r2; unfold path_step; by rewrite EP). split; congruence.
    - intros EH. assert (E : (handler_step peel trace p c r2).2 = r2) by (unfold handler_step; by rewrite EH). rewrite E. split_and!; congruence.
  Qed.

  (** C93e: what was collected survives a link exactly when the file and the package of the route are known. *)
  Theorem C93_kept_iff p c (r : rinfo X) :
    ri_rest r ≠ nothing → (ri_rest (extract p c r).2 = ri_rest r ↔ ri_file r ≠ "" ∧ ri_package r ≠ "").
  Proof.
    intros NN. split.
    - rewrite extract_route_eq. set (r0 := start_route nothing c r). set (r1 := (method_step name_method p c r0).2). set (r2 := (path_step resolve p c r1).2).
      destruct (handler_step_verb p c r2) as (_ & _ & _ & _ & _ & _ & ->). destruct (path_step_verb p c r1) as (_ & _ & _ & _ & _ & P & _). destruct (method_step_verb p c r0) as (_ & _ & _ & _ & _ & _ & _ & M).
      fold r1 in M. fold r2 in P. rewrite P, M. subst r0. unfold start_route. destruct (decide (ri_file r = "" ∨ ri_package r = "")) as [|N]; [cbn; intros E; by rewrite <- E in NN|].
      intros _. split; intros ?; apply N; auto.
    - intros [NF NP]. by apply C93_completes.
  Qed.
  (** C93f: after a registration with a handler, the package is unknown exactly when neither the handler nor the function it calls has one, and nothing is found by tracing its name. *)
  Theorem C93_package p c (r : rinfo X) a :
    rp_handler p = true → rc_args c !! rp_handler_at p = Some a →
    (ri_package (extract p c r).2 = "" ↔ ra_pkg (peel a) = "" ∧ default "" (ra_fun_pkg (peel a)) = "" ∧ (ra_named (peel a) = true → (trace (ra_name (peel a))).2 = "")).
  Proof.
    intros EP EA. rewrite extract_route_eq. unfold handler_step. rewrite EP, EA.
    destruct (ra_named (peel a)); [destruct (trace (ra_name (peel a))) as [v vp]|]; cbn [snd ri_package fst].
    - destruct (decide (vp = "")) as [->|NE]; [|split; [done|intros (_ & _ & E); by specialize (E eq_refl)]].
      destruct (decide (ra_pkg (peel a) = "")) as [E|E]; [rewrite E|]; naive_solver.
    - rewrite decide_True by done. destruct (decide (ra_pkg (peel a) = "")) as [E|E]; [rewrite E|]; naive_solver.
  Qed.
End props.

(** C93g, the findings. The handler [&Handler{}] has no package: in [Handle("/x", &Handler{}).Methods("PUT")] the second link starts the route again. *)
Definition lit_arg (v : string) : rarg := RArg ("""" +:+ v +:+ """") ("""" +:+ v +:+ """") (Some v) "app" None false "".
Definition lit_text (a : rarg) : string * list string := (trim_any quotes (ra_value a), []).
Definition d_name : string → string * bool := default_method_from_name.
Definition ptr_handler : rarg := RArg "" "&Handler{}" None "" None false "".
Definition fun_handler : rarg := RArg "" "app.Put" None "app" None true "Put".
Definition handle_call (h : rarg) : rcall := RCall "Handle" "github.com/gorilla/mux" "main.go:9:2" [lit_arg "/x"; h].
Definition methods_call (l : list string) : rcall := RCall "Methods" "github.com/gorilla/mux" "main.go:9:2" (lit_arg <$> l).
Definition mux_chain (h : rarg) (l : list string) : rinfo (list string) :=
  extract_chain [] d_name lit_text id (λ n, (n, "")) [(mux_handle, handle_call h); (mux_methods, methods_call l)] (RInfo "" false [] "" "" "" "" "" [] []).
(** The second link says nothing about the path, the first names it, and the path is lost. *)
Theorem C93_chain_refuted :
  ∃ h, ri_path (extract_route [] d_name lit_text id (λ n, (n, "")) mux_handle (handle_call h) (RInfo "" false [] "" "" "" "" "" [] [] : rinfo (list string))).2 = "/x" ∧
    rp_path mux_methods = false ∧ ri_path (mux_chain h ["PUT"]) = "" ∧ ri_handler (mux_chain h ["PUT"]) = "".
Proof. exists ptr_handler. by vm_compute. Qed.
(** [Methods("GET", "POST")] names two verbs, and the second is lost. *)
Theorem C93_verbs_refuted : ∃ m1 m2, valid_method m1 = true ∧ valid_method m2 = true ∧ m2 ≠ m1 ∧
  ri_method (mux_chain fun_handler [m1; m2]) = m1 ∧ ri_extra (mux_chain fun_handler [m1; m2]) = [].
Proof. exists "GET", "POST". by vm_compute. Qed.
(** A path that reads as a verb is taken for one: [HandleFunc("trace", h)] names no verb. *)
Theorem C93_path_verb_refuted : ∃ path, ri_explicit (extract_route [] d_name lit_text id (λ n, (n, "")) mux_handle (RCall "HandleFunc" "github.com/gorilla/mux" "main.go:9:2" [lit_arg path; fun_handler])
  (RInfo "" false [] "" "" "" "" "" [] [] : rinfo (list string))).2 = true ∧ ri_method (extract_route [] d_name lit_text id (λ n, (n, "")) mux_handle (RCall "HandleFunc" "github.com/gorilla/mux" "main.go:9:2" [lit_arg path; fun_handler])
  (RInfo "" false [] "" "" "" "" "" [] [] : rinfo (list string))).2 = "TRACE".
Proof. exists "trace". by vm_compute. Qed.
(** A function called that names no verb still makes the verb explicit. *)
Theorem C93_default_refuted : ∃ n, (d_name n).2 = false ∧
  ri_explicit (extract_route [] d_name lit_text id (λ n, (n, "")) chi_verb (RCall n "github.com/go-chi/chi/v5" "main.go:9:2" [lit_arg "/x"; fun_handler]) (RInfo "" false [] "" "" "" "" "" [] [] : rinfo (list string))).2 = true.
Proof. exists "Widget". by vm_compute. Qed.

Example C93_mux : mux_chain fun_handler ["PUT"] = RInfo "PUT" true [] "/x" "Put" "app.Put" "app" "main.go:9:2" [] [].
Proof. by vm_compute. Qed.
Example C93_http : (extract_route [] d_name lit_text id (λ n, ("", "")) http_handle (RCall "HandleFunc" "net/http" "main.go:9:2" [lit_arg "GET /users/{rest...}"; fun_handler]) (RInfo "" false [] "" "" "" "" "" [] [] : rinfo (list string))).2
  = RInfo "GET" true [] "/users/{rest}" "app.Put" "app.Put" "app" "main.go:9:2" [] [].
Proof. by vm_compute. Qed.
Example C93_names : names_verb d_name lit_text http_handle (RCall "HandleFunc" "net/http" "" [lit_arg "GET /users"; fun_handler]) "GET".
Proof. apply (by_path _ _ _ _ _ (lit_arg "GET /users")); by vm_compute. Qed.
Example C93_kept : ri_rest (extract_route [] d_name lit_text id (λ n, (n, "")) mux_methods (methods_call ["PUT"]) (RInfo "POST" false [] "/x" "Put" "app.Put" "app" "main.go" [] ["200"])).2 = ["200"].
Proof. by vm_compute. Qed.

Print Assumptions C93_verb_named. Print Assumptions C93_precedence. Print Assumptions C93_path. Print Assumptions C93_completes. Print Assumptions C93_kept_iff. Print Assumptions C93_package.
Print Assumptions C93_chain_refuted. Print Assumptions C93_verbs_refuted. Print Assumptions C93_path_verb_refuted. Print Assumptions C93_default_refuted.
