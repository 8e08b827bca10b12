(** * Document paths, parameters, operations and responses: C18-C21, C52, C53. *)
From Coq Require Import Ascii.
From stdpp Require Import sorting.
From stdpp Require Import base list strings gmap.
From Verif Require Import StrOrder StrLib StrSplit DecLib SccSpec RouteModel RouteProofs PathModel PathSpec PathProofs PathProofs2.

(** ** C19 *)

(** A router path of literal text, [:name] and [{name:constraint}] becomes the same
    path in OpenAPI syntax: literals unchanged, names in braces, constraints gone. *)
Theorem C19_conversion_partial ps : well_formed ps → convert_path (show ps) = show (openapi ps).
Proof. apply convert_show. Qed.
Print Assumptions C19_conversion_partial.
(** Converting the result again changes nothing. *)
Theorem C19_idempotent_partial ps : well_formed ps → convert_path (convert_path (show ps)) = convert_path (show ps).
Proof.
  intros H. rewrite (convert_show ps H). rewrite (convert_show (openapi ps)) by by apply well_formed_openapi. by rewrite openapi_idemp.
Qed.
Print Assumptions C19_idempotent_partial.
(** A path without an opening brace and without a colon is left alone. *)
Theorem C19_plain_unchanged p : free_of c_lbrace p → free_of c_colon p → convert_path p = p.
Proof.
  intros H1 H2. unfold convert_path. rewrite strip_eq. pose proof (strip_text p "" H1) as E. rewrite sapp_nil in E. rewrite E. rewrite sapp_nil.
  pose proof (colon_text p "" H2) as E2. rewrite sapp_nil in E2. rewrite E2. apply sapp_nil.
Qed.
Print Assumptions C19_plain_unchanged.

Lemma braces_snoc ps p : braces (ps ++ [p]) = braces ps ++ braces [p].
Proof. unfold braces. by rewrite ?fmap_app, ?concat_app, ?omap_app. Qed.
(** The constraint remembered for a name is the last non-empty one. *)
Theorem C19_constraints_remembered ps n r : well_formed ps →
  path_param_patterns (show ps) !! n = Some r ↔
  n ≠ "" ∧ r ≠ "" ∧ ∃ a b, ps = a ++ Brace n (Some r) :: b ∧ ∀ r', Brace n (Some r') ∈ b → r' = "".
Proof.
  intros H. unfold path_param_patterns. rewrite (each_show ps H). clear H.
  induction ps as [|p ps IH] using rev_ind.
  - cbn. rewrite lookup_empty. split; [done|]. intros (_ & _ & a & b & E & _). by destruct a.
  - rewrite braces_snoc, fold_left_app. set (m := fold_left _ (braces ps) ∅) in *.
    assert (∀ x a b, ps ++ [p] = a ++ x :: b → (b = [] ∧ a = ps ∧ x = p) ∨ ∃ b', b = b' ++ [p] ∧ ps = a ++ x :: b') as Hsplit.
    { intros x a b E. destruct b as [|y b' _] using rev_ind.
      - apply app_inj_tail in E as [-> ->]. by left.
      - right. exists b'. change (a ++ x :: b' ++ [y]) with (a ++ (x :: b') ++ [y]) in E. rewrite app_assoc in E.
        by apply app_inj_tail in E as [-> ->]. }
    assert (∀ m' : gmap string string, (m' !! n = m !! n) → (∀ r', p = Brace n (Some r') → n = "" ∨ r' = "") →
       m' !! n = Some r ↔ n ≠ "" ∧ r ≠ "" ∧ ∃ a b, ps ++ [p] = a ++ Brace n (Some r) :: b ∧ ∀ r', Brace n (Some r') ∈ b → r' = "") as Hkeep.
    { intros m' Hm Hp. rewrite Hm, IH. split; intros (Hn & Hr & a & b & E & Hb); (split; [done|]); (split; [done|]).
      - exists a, (b ++ [p]). split; [rewrite E; by rewrite <- app_assoc|]. intros r' [Hin|Hin%elem_of_list_singleton]%elem_of_app; [by apply Hb|].
        by destruct (Hp r' (eq_sym Hin)).
      - apply Hsplit in E as [(-> & -> & E)|(b' & -> & ->)].
        + exfalso. by destruct (Hp r (eq_sym E)).
        + exists a, b'. split; [done|]. intros r' Hin. apply Hb. apply elem_of_app. by left. }
    destruct p as [s|k|k [q|]]; cbn.
    + apply Hkeep; done.
    + apply Hkeep; done.
    + destruct (bool_decide (k = "") || bool_decide (q = "")) eqn:E.
      * apply Hkeep; [done|]. intros r' [= <- <-]. by apply orb_true_iff in E as [->%bool_decide_eq_true| ->%bool_decide_eq_true]; auto.
      * apply orb_false_iff in E as [Hk%bool_decide_eq_false Hq%bool_decide_eq_false].
        destruct (decide (k = n)) as [->|Hne].
        -- rewrite lookup_insert. split.
           ++ intros [= ->]. split; [done|]. split; [done|]. exists ps, []. split; [done|]. by intros ? ?%elem_of_nil.
           ++ intros (_ & Hr & a & b & E & Hb). apply Hsplit in E as [(_ & _ & [= ->])|(b' & -> & _)]; [done|].
              exfalso. apply Hq, Hb. apply elem_of_app. right. left.
        -- apply Hkeep; [by rewrite lookup_insert_ne|]. intros r' [= -> _]. done.
    + rewrite (bool_decide_true ("" = "")) by done. rewrite orb_true_r. apply Hkeep; done.
Qed.
Print Assumptions C19_constraints_remembered.

(** A colon that is not a placeholder (a custom verb after a placeholder, a time
    stamp) is taken for one: literal text is altered. *)
Theorem C19_literals_unchanged_refuted : ∃ p,
  (* "/items/{id}:archive" *)
  p = "/items/{id}:archive" ∧ convert_path p = "/items/{id}{archive}".
Proof. exists "/items/{id}:archive". split; [done|]. vm_compute. done. Qed.
Print Assumptions C19_literals_unchanged_refuted.
(** On paths with unbalanced braces the conversion is not idempotent. *)
Theorem C19_idempotent_refuted : ∃ p, convert_path (convert_path p) ≠ convert_path p.
Proof. exists "{a{b:c}d}/:1}". vm_compute. done. Qed.
Print Assumptions C19_idempotent_refuted.
Definition ex_path : list piece := [Lit "/users/"; Colon "id"; Lit "/codes/"; Brace "code" (Some "[a-z]{2}"); Lit "/v1"].
Lemma ex_path_ok : well_formed ex_path.
Proof.
  assert (∀ c s, contains_byte c s = false → free_of c s) as F by (intros c s; apply free_of_spec).
  cbn [well_formed ex_path piece_ok]. repeat match goal with |- _ ∧ _ => split end; try done; try (apply F; vm_compute; done).
  - exists "i"%char, "d". done.
  - change (balanced ("[a-z]" +:+ String c_lbrace ("2" +:+ String c_rbrace ""))). apply balanced_app.
    + apply balanced_free; apply F; vm_compute; done.
    + constructor; [|constructor]. apply balanced_free; apply F; vm_compute; done.
Qed.
Example C19_example : show ex_path = "/users/:id/codes/{code:[a-z]{2}}/v1" ∧ well_formed ex_path ∧
  convert_path (show ex_path) = "/users/{id}/codes/{code}/v1" ∧ path_param_patterns (show ex_path) !! "code" = Some "[a-z]{2}".
Proof. split; [done|]. split; [apply ex_path_ok|]. vm_compute. done. Qed.

(** ** C18 *)
Section params.
Context (plain : string → bool) (txt : Z → string) (iter : list string → list string).
Local Notation op := (operation_of plain txt iter).
Lemma op_params r : ∃ form, oo_params (op r) =
  ensure_all (route_path r)
    (append_dynamic (dedup_prms ∅ (resolve_form (o_method r) (o_params r) form (o_multipart r)).1) (o_dyn r))
    (path_param_patterns (join_paths (o_mount r) (o_path r))).
Proof.
  unfold operation_of.
  exists (match (match o_request r with Some (ct, s) => Some (BodyDecoded ct s) | None => None end) with Some _ => true | None => false end).
  destruct (resolve_form _ _ _ _) as [ps f] eqn:E. cbn [oo_params]. done.
Qed.
(** Every placeholder of a documented path is declared by exactly one entry of the
    operation's parameter list, as a required path parameter, directly or by
    reference to the components collected from all routes. *)
Theorem C18_each_placeholder_declared_once_partial routes r n :
  r ∈ routes → handler_params (o_params r) →
  (∀ r' m, r' ∈ routes → m ∈ o_dyn r' → uncapitalised m) →
  placeholders_distinct (route_path r) → placeholder (route_path r) n →
  ∃ i p, oo_params (op r) !! i = Some p ∧ declares (dynamic_components (o_dyn <$> routes)) p n ∧
    ∀ j q, oo_params (op r) !! j = Some q → declares (dynamic_components (o_dyn <$> routes)) q n → j = i.
Proof.
  intros Hr Hh Hu Hd Hn. destruct (op_params r) as [form E].
  assert (∀ l m, l ∈ o_dyn <$> routes → m ∈ l → uncapitalised m) as Hu'.
  { intros l m (r' & -> & Hr')%elem_of_list_fmap Hm. by apply (Hu r'). }
  assert (o_dyn r ∈ o_dyn <$> routes) as Hin by by apply elem_of_list_fmap_1.
  assert (handler_params (dedup_prms ∅ (resolve_form (o_method r) (o_params r) form (o_multipart r)).1)) as Hp.
  { by apply handler_dedup, handler_resolve. }
  pose proof (declared_exists (o_dyn <$> routes) (o_dyn r) _ (route_path r) (path_param_patterns (join_paths (o_mount r) (o_path r)))
                Hu' Hin Hp n) as Hex.
  destruct Hex as (p & Hpin & Hdec); [by apply brace_names_spec|].
  apply elem_of_list_lookup in Hpin as [i Hi]. exists i, p. rewrite E. split; [done|]. split; [done|].
  intros j q Hj Hq. symmetry. eapply (declared_unique (o_dyn <$> routes) (o_dyn r)); [exact Hu'|exact Hin|exact Hp|apply dedup_prms_NoDup|by apply distinct_NoDup|exact Hi|exact Hj|exact Hdec|exact Hq].
Qed.
(** The first path parameter the handler analysis found for a name is documented as
    it is, schema included. *)
Theorem C18_handler_parameter_kept r a p b :
  handler_params (o_params r) → o_params r = a ++ p :: b → pr_in p = "path" →
  (∀ q, q ∈ a → ¬ (pr_in q = "path" ∧ pr_name q = pr_name p)) → p ∈ oo_params (op r).
Proof.
  intros Hh E Hin Ha. destruct (op_params r) as [form ->]. unfold ensure_all. apply elem_of_app. left.
  rewrite append_dynamic_eq. apply elem_of_app. left.
  assert (form_sentinel (pr_in p) = false) as Hs by by rewrite Hin.
  assert (∀ q, q ∈ o_params r → prm_key q = prm_key p → pr_in q = "path" ∧ pr_name q = pr_name p) as Hkey.
  { intros q Hq Hk. destruct (prm_key_inj q p) as [H1 H2]; [by apply Hh| |done|by rewrite H2, Hin].
    apply (Hh p). rewrite E. apply elem_of_app. right. left. }
  assert (∃ a' b', (resolve_form (o_method r) (o_params r) form (o_multipart r)).1 = a' ++ p :: b' ∧ ∀ q, q ∈ a' → q ∈ a) as (a' & b' & E' & Ha').
  { unfold resolve_form. destruct (negb _ && negb _); [exists a, b; auto|].
    assert (∃ b', filter (λ p, form_sentinel (pr_in p) = false) (o_params r) = filter (λ p, form_sentinel (pr_in p) = false) a ++ p :: b') as [b' Hf].
    { rewrite E, filter_app, filter_cons_True by done. eauto. }
    assert (∀ q, q ∈ filter (λ p, form_sentinel (pr_in p) = false) a → q ∈ a) as Hsub by (intros q Hq; by apply elem_of_list_filter in Hq as [_ Hq]).
    destruct (takes_body _ && negb _); cbn [fst].
    - rewrite Hf. eauto.
    - rewrite Hf, <- app_assoc. eauto. }
  rewrite E'. apply dedup_prms_first; [set_solver|]. intros q Hq Hk. apply (Ha q (Ha' q Hq)). apply Hkey; [|done].
  rewrite E. apply elem_of_app. left. by apply Ha'.
Qed.
(** Every path parameter that the document adds for a placeholder carries the
    constraint written in the route. *)
Theorem C18_synthesised_parameters_carry_the_constraint r n p :
  handler_params (o_params r) → p ∈ oo_params (op r) → declares_here p n → (∀ q, q ∈ o_params r → ¬ (pr_in q = "path" ∧ pr_name q = n)) →
  p = Prm n "path" true (Some (PSch (default "" (path_param_patterns (join_paths (o_mount r) (o_path r)) !! n)) "string")) "" ∧
  placeholder (route_path r) n.
Proof.
  intros Hh Hp Hd Hno. destruct (op_params r) as [form E]. rewrite E in Hp. apply elem_of_app in Hp as [Hp|Hp].
  - rewrite append_dynamic_eq in Hp. apply elem_of_app in Hp as [Hp|Hp].
    + apply dedup_prms_in in Hp as [Hp _]. exfalso. destruct Hd as (_ & Hn & Hi & _).
      unfold resolve_form in Hp. destruct (negb _ && negb _); [by apply (Hno p)|]. destruct (takes_body _ && negb _); cbn [fst] in Hp.
      * apply elem_of_list_filter in Hp as [_ Hp]. by apply (Hno p).
      * apply elem_of_app in Hp as [Hp|Hp]; [apply elem_of_list_filter in Hp as [_ Hp]; by apply (Hno p)|].
        apply elem_of_list_fmap in Hp as (q & -> & _). done.
    + apply elem_of_list_fmap in Hp as (m & -> & _). by destruct Hd as [? _].
  - apply elem_of_list_fmap in Hp as (m & -> & Hm). destruct Hd as (_ & <- & _). apply elem_of_list_filter in Hm as [_ Hm].
    split; [done|]. by apply brace_names_spec.
Qed.
End params.
Print Assumptions C18_each_placeholder_declared_once_partial.
Print Assumptions C18_handler_parameter_kept.
Print Assumptions C18_synthesised_parameters_carry_the_constraint.

Definition no_text (z : Z) : string := "".
Definition plain_no (s : string) : bool := false.
Definition route_of (path : string) (params : list prm) (dyn : list string) : oroute :=
  ORoute "" path "GET" params dyn None false ∅ None "".
Definition op0 := operation_of plain_no no_text id.
(** A placeholder written twice gets two parameter objects with the same name. *)
Theorem C18_repeated_placeholder_refuted : ∃ r, handler_params (o_params r) ∧ o_dyn r = [] ∧
  ∃ p, oo_params (op0 r) = [p; p] ∧ declares ∅ p "id".
Proof.
  exists (route_of "/a/{id}/b/{id}" [] []). split; [by intros p ?%elem_of_nil|]. split; [done|].
  exists (Prm "id" "path" true (Some (PSch "" "string")) ""). split; [vm_compute; done|]. by left.
Qed.
Print Assumptions C18_repeated_placeholder_refuted.
(** A placeholder that is not an identifier, such as [{user-id}], is not declared
    at all. *)
Theorem C18_hyphenated_placeholder_refuted : ∃ r, route_path r = "/u/{user-id}" ∧ oo_params (op0 r) = [].
Proof. exists (route_of "/u/{user-id}" [] []). vm_compute. done. Qed.
Print Assumptions C18_hyphenated_placeholder_refuted.
(** A path segment built by an exported function: the reference to the component is
    not recognised as covering the placeholder and a second, inline parameter is
    added. *)
Theorem C18_exported_name_refuted : ∃ r p q, oo_params (op0 r) = [p; q] ∧
  declares (dynamic_components [o_dyn r]) p "Prefix" ∧ declares (dynamic_components [o_dyn r]) q "Prefix".
Proof.
  exists (route_of "/{Prefix}/x" [] ["Prefix"]), (ref_prm "Prefix"), (Prm "Prefix" "path" true (Some (PSch "" "string")) "").
  split; [vm_compute; done|]. split; [|by left]. right. exists "PrefixParam", (comp_prm "Prefix"). split; [done|]. split; [vm_compute; done|]. done.
Qed.
Print Assumptions C18_exported_name_refuted.
(** Two names that differ in the case of their first letter share one component: one
    of the placeholders is left undeclared. *)
Theorem C18_shared_component_refuted : ∃ r1 r2,
  placeholder (route_path r2) "Tenant" ∧ oo_params (op0 r2) = [ref_prm "Tenant"; Prm "Tenant" "path" true (Some (PSch "" "string")) ""] ∧
  dynamic_components [o_dyn r1; o_dyn r2] !! "TenantParam" = Some (comp_prm "tenant").
Proof.
  exists (route_of "/{tenant}/x" [] ["tenant"]), (route_of "/{Tenant}/y" [] ["Tenant"]). split; [|vm_compute; done].
  split; [exists "T"%char, "enant"; done|]. exists "/", "/y". done.
Qed.
Print Assumptions C18_shared_component_refuted.
Definition ex_route : oroute :=
  ORoute "/api" "/{tenant}/users/{id:[0-9]+}/{slug}" "POST"
    [Prm "q" "query" false (Some (string_sch "")) ""; Prm "slug" "path" true (Some (PSch "" "uuid")) "";
     Prm "slug" "path" true (Some (string_sch "")) ""; Prm "title" "form" false None ""]
    ["tenant"] None false ∅ None "".
Example C18_example : oo_params (op0 ex_route) =
  [Prm "q" "query" false (Some (string_sch "")) ""; Prm "slug" "path" true (Some (PSch "" "uuid")) "";
   Prm "" "" false None "#/components/parameters/TenantParam"; Prm "id" "path" true (Some (PSch "[0-9]+" "string")) ""] ∧
  placeholder (route_path ex_route) "tenant" ∧ handler_params (o_params ex_route) ∧ placeholders_distinct (route_path ex_route) ∧ uncapitalised "tenant" ∧
  dynamic_components (o_dyn <$> [ex_route]) !! "TenantParam" = Some (Prm "tenant" "path" true (Some (string_sch "")) "").
Proof.
  split; [vm_compute; done|]. split; [split; [exists "t"%char, "enant"; done|exists "/api/", "/users/{id}/{slug}"; vm_compute; done]|].
  split; [|split; [apply NoDup_distinct; vm_compute brace_names; apply (bool_decide_eq_true_1 (NoDup _)); vm_compute; done|
            split; [exists "t"%char, "enant"; done|vm_compute; done]]].
  intros p Hp. unfold ex_route in Hp. cbn [o_params] in Hp.
  repeat (apply elem_of_cons in Hp as [->|Hp]; [split; [done|split; [done|apply free_of_spec; vm_compute; done]]|]). by apply elem_of_nil in Hp.
Qed.

(** ** C20 *)

(** The operation under a path and method is the one of the last route registered
    with them; there is no other operation. *)
Theorem C20_last_route_wins plain txt iter routes path method o :
  (build_paths plain txt iter routes !! path ≫= (λ item, item !! method)) = Some o ↔
  method ∈ ["GET"; "POST"; "PUT"; "DELETE"; "PATCH"; "OPTIONS"; "HEAD"] ∧
  ∃ r, last_for routes path method r ∧ o = operation_of plain txt iter r.
Proof. apply table_op. Qed.
Print Assumptions C20_last_route_wins.
(** The paths are those of the routes. *)
Theorem C20_paths_are_registered plain txt iter routes path :
  is_Some (build_paths plain txt iter routes !! path) ↔ ∃ r, r ∈ routes ∧ route_path r = path.
Proof. apply table_path. Qed.
Print Assumptions C20_paths_are_registered.
(** What an operation says about body, responses and security comes from its route
    alone. *)
Theorem C20_operation_fields plain txt iter r :
  let o := operation_of plain txt iter r in
  oo_security o = o_security r ∧ oo_responses o = build_responses plain txt iter (o_responses r) ∧ oo_meta o = o_meta r ∧
  (∀ ct s, o_request r = Some (ct, s) → oo_body o = Some (BodyDecoded ct s)).
Proof.
  cbv zeta. unfold operation_of. destruct (o_request r) as [[ct s]|] eqn:E.
  - destruct (resolve_form _ _ _ _) as [ps f] eqn:Ef. cbn [oo_security oo_responses oo_meta oo_body].
    split; [done|]. split; [done|]. split; [done|]. intros ct' s' [= <- <-].
    unfold resolve_form in Ef. destruct (negb _ && negb _); [by injection Ef as <- <-|]. rewrite andb_false_r in Ef. by injection Ef as <- <-.
  - destruct (resolve_form _ _ _ _) as [ps f]. cbn [oo_security oo_responses oo_meta oo_body]. done.
Qed.
Print Assumptions C20_operation_fields.
Definition r20 (path method meta : string) : oroute := ORoute "/v1" path method [] [] None false ∅ None meta.
Example C20_example :
  let b := build_paths plain_no no_text id [r20 "/a" "get" "1"; r20 "/a" "POST" "2"; r20 "a" "GET" "3"; r20 "/a" "PURGE" "4"] in
  (oo_meta <$> (b !! "/v1/a" ≫= (λ i, i !! "GET")), oo_meta <$> (b !! "/v1/a" ≫= (λ i, i !! "POST")),
   oo_meta <$> (b !! "/v1/a" ≫= (λ i, i !! "PURGE"))) = (Some "3", Some "2", None).
Proof. vm_compute. done. Qed.

(** ** C21 *)
Section responses.
Context (plain : string → bool) (txt : Z → string) (iter : list string → list string) (Hiter : is_order iter).
Context (info : gmap string resp) (Hkeys : ∀ r, info !! "default" = Some r → ¬ known r).
Local Notation out := (build_responses plain txt iter info).
Lemma keys_neg r : info !! "default" = Some r → (rp_status r < 0)%Z.
Proof. intros H%Hkeys. unfold known in H. lia. Qed.
Lemma render_body r o : render_response txt r = o → (ro_content o = None ↔ no_body (rp_status r)) ∧
  (∀ c, ro_content o = Some c → c = (rp_ctype r, rp_schema r)).
Proof.
  intros <-. unfold render_response. cbv zeta.
  assert (bodyless (rp_status r) = true ↔ no_body (rp_status r)) as Hb.
  { unfold bodyless, no_body. rewrite !orb_true_iff, andb_true_iff, !bool_decide_eq_true. tauto. }
  destruct (bodyless (rp_status r)); cbn [ro_content].
  - split; [|done]. split; [by intros _; apply Hb|done].
  - split; [split; [done|]; intros H; by apply Hb in H|]. by intros c [= <-].
Qed.
(** Every discovered status with a code is documented under its key, with its own
    body, and without a body exactly when the status forbids one. *)
Theorem C21_known_statuses_documented k r : info !! k = Some r → known r →
  ∃ o, out !! k = Some o ∧
    ro_content o = if decide (no_body (rp_status r)) then None else Some (rp_ctype r, rp_schema r).
Proof.
  intros Hk Hr. assert (k ≠ "default") as Hd by (intros ->; by apply Hkeys in Hk).
  assert (info ≠ ∅) as Hne by (intros E; by rewrite E, lookup_empty in Hk).
  rewrite (out_other info keys_neg plain txt iter Hiter Hne k Hd).
  assert (known_at info k = Some r) as -> by by apply known_at_Some. exists (render_response txt r). split; [done|].
  destruct (render_body r _ eq_refl) as (H1 & H2). destruct (decide (no_body (rp_status r))) as [H|H]; [by apply H1|].
  destruct (ro_content (render_response txt r)) as [c|]; [|by exfalso; apply H, H1]. f_equal. by apply H2.
Qed.
(** Nothing else is documented: an entry other than the default one is a discovered
    status. *)
Theorem C21_nothing_else k o : out !! k = Some o → k ≠ "default" → ∃ r, info !! k = Some r ∧ known r.
Proof.
  intros Ho Hk. destruct (decide (info = ∅)) as [E|Hne].
  - unfold build_responses in Ho. rewrite decide_True in Ho by done. by rewrite lookup_singleton_ne in Ho.
  - rewrite (out_other info keys_neg plain txt iter Hiter Hne k Hk) in Ho. destruct (known_at info k) as [r|] eqn:E; [|done].
    exists r. by apply known_at_Some.
Qed.
(** The default entry stands for the preferred one of the responses with unknown
    status (or says that nothing was found). *)
Theorem C21_default_entry o : out !! "default" = Some o →
  info = ∅ ∨ ∃ k w, info !! k = Some w ∧ ¬ known w ∧ ro_content o = Some (rp_ctype w, rp_schema w) ∧
    ∀ k' r, info !! k' = Some r → ¬ known r → preferred w r.
Proof.
  intros Ho. destruct (decide (info = ∅)) as [E|Hne]; [by left|right].
  rewrite (out_default info plain txt iter Hne) in Ho. pose proof (chosen_default info keys_neg iter Hiter) as Hc.
  destruct (fold_left (choose info) _ ∅ !! "default") as [w|]; [|done]. destruct Hc as ([k Hk] & Hs & Hp). destruct (_ && _); [done|]. injection Ho as <-.
  exists k, w. split; [done|]. split; [unfold known; lia|]. split.
  - unfold render_response. cbv zeta. assert (bodyless (rp_status w) = false) as ->; [|done].
    apply not_true_iff_false. unfold bodyless. rewrite !orb_true_iff, andb_true_iff, !bool_decide_eq_true. lia.
  - intros k' r Hr Hu. apply (Hp k'); [done|]. unfold known in Hu. lia.
Qed.
(** If some status is unknown there is a default entry, unless its body says nothing
    new next to a status that is known. *)
Theorem C21_unknown_statuses_partial k r : info !! k = Some r → ¬ known r →
  is_Some (out !! "default") ∨
  ∃ k' w, info !! k' = Some w ∧ ¬ known w ∧ (∀ k'' r'', info !! k'' = Some r'' → ¬ known r'' → preferred w r'') ∧
    (∃ k1 r1, info !! k1 = Some r1 ∧ known r1) ∧
    (generic_response plain w = true ∨ ∃ k1 r1, info !! k1 = Some r1 ∧ known r1 ∧ rp_schema r1 = rp_schema w).
Proof.
  intros Hk Hr. assert (info ≠ ∅) as Hne by (intros E; by rewrite E, lookup_empty in Hk).
  rewrite (out_default info plain txt iter Hne). pose proof (chosen_default info keys_neg iter Hiter) as Hc.
  pose proof (dropped_spec info keys_neg plain iter Hiter) as Hdrop.
  destruct (fold_left (choose info) _ ∅ !! "default") as [w|]; [|by apply Hc in Hk]. specialize (Hdrop w eq_refl). destruct Hc as ([k' Hk'] & Hs & Hp).
  destruct (_ && _); [right|by left]. destruct Hdrop as [Hdrop _]. destruct (Hdrop eq_refl) as [H1 H2].
  exists k', w. split; [done|]. split; [unfold known; lia|]. split; [|done].
  intros k'' r'' Hr'' Hu. apply (Hp k''); [done|]. unfold known in Hu. lia.
Qed.
(** The response map is never empty. *)
Theorem C21_never_empty : out ≠ ∅.
Proof.
  destruct (decide (info = ∅)) as [E|Hne].
  - unfold build_responses. rewrite decide_True by done. apply map_non_empty_singleton.
  - destruct (map_choose info Hne) as (k & r & Hr). destruct (decide (known r)) as [Hkn|Hun].
    + destruct (C21_known_statuses_documented k r Hr Hkn) as (o & Ho & _). intros E. by rewrite E, lookup_empty in Ho.
    + destruct (C21_unknown_statuses_partial k r Hr Hun) as [[o Ho]|(_ & _ & _ & _ & _ & (k1 & r1 & H1 & H2) & _)].
      * intros E. by rewrite E, lookup_empty in Ho.
      * destruct (C21_known_statuses_documented k1 r1 H1 H2) as (o & Ho & _). intros E. by rewrite E, lookup_empty in Ho.
Qed.
End responses.
(** The result does not depend on the order in which Go walks the map. *)
Theorem C21_order_independent plain txt iter iter' info : is_order iter → is_order iter' →
  build_responses plain txt iter info = build_responses plain txt iter' info.
Proof. apply responses_order. Qed.
Print Assumptions C21_known_statuses_documented.
Print Assumptions C21_nothing_else.
Print Assumptions C21_default_entry.
Print Assumptions C21_unknown_statuses_partial.
Print Assumptions C21_never_empty.
Print Assumptions C21_order_independent.
Definition ref_sch (s : string) : sch := Sch s [] 0 0 false "".
(** Two different bodies whose status is unknown: only one of them is documented. *)
Theorem C21_all_bodies_represented_refuted : ∃ info a b,
  info !! "-1" = Some a ∧ info !! "-2" = Some b ∧ rp_schema a ≠ rp_schema b ∧ ¬ known a ∧ ¬ known b ∧
  ∀ k o, build_responses plain_no no_text id info !! k = Some o → ro_content o = Some (rp_ctype b, rp_schema b).
Proof.
  set (a := Resp (Some (ref_sch "User")) "User" "application/json" (-1)).
  set (b := Resp (Some (ref_sch "Team")) "Team" "application/json" (-2)).
  exists (<["-1" := a]> {["-2" := b]}), a, b. split; [by rewrite lookup_insert|].
  split; [by rewrite lookup_insert_ne, lookup_singleton|]. split; [done|].
  split; [unfold known; cbn; lia|]. split; [unfold known; cbn; lia|].
  assert (build_responses plain_no no_text id (<["-1" := a]> {["-2" := b]}) =
          {["default" := Rsp "Status code could not be determined" (Some (rp_ctype b, rp_schema b))]}) as ->.
  { apply map_eq. intros k. destruct (decide (k = "default")) as [->|Hk]; [vm_compute; done|].
    rewrite lookup_singleton_ne by done. destruct (_ !! k) as [o|] eqn:E; [|done]. exfalso.
    destruct (λ H1 H2, C21_nothing_else plain_no no_text id H1 _ H2 k o E Hk) as (r & Hr & Hkn).
    - by intros l.
    - intros r' Hr'. by rewrite lookup_insert_ne, lookup_singleton_ne in Hr'.
    - apply lookup_insert_Some in Hr as [[_ <-]|[_ Hr]]; [unfold known in Hkn; cbn in Hkn; lia|].
      apply lookup_singleton_Some in Hr as [_ <-]. unfold known in Hkn. cbn in Hkn. lia. }
  intros k o [<- <-]%lookup_singleton_Some. done.
Qed.
Print Assumptions C21_all_bodies_represented_refuted.
Definition ex_info : gmap string resp :=
  list_to_map [("200", Resp (Some (ref_sch "User")) "User" "application/json" 200);
               ("204", Resp (Some (ref_sch "User")) "User" "application/json" 204);
               ("-1", Resp (Some (ref_sch "Error")) "Error" "application/json" (-1));
               ("-2", Resp (Some (Sch "" [] 0 0 false "object")) "map" "application/json" (-2))].
Example C21_example :
  (λ k, ro_content <$> build_responses plain_no no_text reverse ex_info !! k) <$> ["200"; "204"; "default"; "-1"] =
  [Some (Some ("application/json", Some (ref_sch "User"))); Some None; Some (Some ("application/json", Some (ref_sch "Error"))); None].
Proof. vm_compute. done. Qed.

(** ** C52: form values *)

(** No parameter keeps one of the internal form locations, and the parameters that
    are not form values are passed on unchanged and first. *)
Theorem C52_no_internal_location_left m ps has mp p : p ∈ (resolve_form m ps has mp).1 → pr_in p ≠ "form" ∧ pr_in p ≠ "formFile".
Proof.
  assert (∀ q, form_sentinel (pr_in q) = false → pr_in q ≠ "form" ∧ pr_in q ≠ "formFile") as F.
  { intros q [H1%bool_decide_eq_false H2%bool_decide_eq_false]%orb_false_iff. done. }
  unfold resolve_form. destruct (existsb _ ps) eqn:E; cbn [negb andb].
  - destruct (takes_body m && negb has); cbn [fst].
    + intros [Hp _]%elem_of_list_filter. by apply F.
    + intros [[Hp _]%elem_of_list_filter|Hp]%elem_of_app; [by apply F|]. apply elem_of_list_fmap in Hp as (q & -> & _). done.
  - destruct mp; cbn [negb].
    + destruct (takes_body m && negb has); cbn [fst].
      * intros [Hp _]%elem_of_list_filter. by apply F.
      * intros [[Hp _]%elem_of_list_filter|Hp]%elem_of_app; [by apply F|]. apply elem_of_list_fmap in Hp as (q & -> & _). done.
    + cbn [fst]. intros Hp. apply F. destruct (form_sentinel (pr_in p)) eqn:Es; [|done]. exfalso.
      apply not_true_iff_false in E. apply E. apply existsb_exists. exists p. split; [by apply elem_of_list_In|done].
Qed.
Theorem C52_other_parameters_kept m ps has mp :
  ∃ rest, (resolve_form m ps has mp).1 = filter (λ p, ¬ (pr_in p = "form" ∨ pr_in p = "formFile")) ps ++ rest ∧
    ∀ p, p ∈ rest → pr_in p = "query".
Proof.
  assert (∀ l : list prm, filter (λ p, form_sentinel (pr_in p) = false) l = filter (λ p, ¬ (pr_in p = "form" ∨ pr_in p = "formFile")) l) as F.
  { intros l. apply list_filter_iff. intros p. rewrite <- not_true_iff_false. unfold form_sentinel, in_form, in_form_file.
    by rewrite orb_true_iff, !bool_decide_eq_true. }
  unfold resolve_form. destruct (negb _ && negb mp) eqn:E.
  - exists []. split; [|by intros ? ?%elem_of_nil]. rewrite app_nil_r. cbn [fst]. apply andb_true_iff in E as [E%negb_true_iff _].
    rewrite <- F. clear F. induction ps as [|p ps IH]; [done|]. cbn [existsb] in E. apply orb_false_iff in E as [E1 E2].
    rewrite filter_cons_True by done. f_equal. by apply IH.
  - destruct (takes_body m && negb has); cbn [fst].
    + exists []. split; [by rewrite app_nil_r|by intros ? ?%elem_of_nil].
    + eexists. split; [by rewrite F|]. intros p (q & -> & _)%elem_of_list_fmap. done.
Qed.
(** On a method with a body and no decoded body, the named form values are exactly
    the properties of the form body, and no parameter is added. *)
Theorem C52_form_body m ps mp f : takes_body m = true → (resolve_form m ps false mp).2 = Some f →
  (∀ n, is_Some (fb_props f !! n) ↔ n ≠ "" ∧ ∃ p, p ∈ ps ∧ pr_name p = n ∧ (pr_in p = "form" ∨ pr_in p = "formFile")) ∧
  (∀ n, n ∈ fb_required f ↔ n ≠ "" ∧ ∃ p, p ∈ ps ∧ pr_name p = n ∧ (pr_in p = "form" ∨ pr_in p = "formFile") ∧ pr_required p = true) ∧
  fb_ctype f = (if mp then "multipart/form-data" else "application/x-www-form-urlencoded").
Proof.
  intros Hm. unfold resolve_form. destruct (negb _ && negb mp); [done|]. rewrite Hm. cbn [andb negb snd]. intros [= <-]. cbn [fb_props fb_required fb_ctype].
  set (form := filter _ ps).
  assert (∀ p, p ∈ form ↔ p ∈ ps ∧ (pr_in p = "form" ∨ pr_in p = "formFile")) as Hf.
  { intros p. unfold form. rewrite elem_of_list_filter. unfold form_sentinel. rewrite orb_true_iff, !bool_decide_eq_true. unfold in_form, in_form_file. tauto. }
  split; [|split; [|done]].
  - intros n. assert (is_Some (fold_left form_prop form ∅ !! n) ↔ n ≠ "" ∧ ∃ p, p ∈ form ∧ pr_name p = n) as ->.
    { clear Hf. clearbody form. induction form as [|p l IH] using rev_ind.
      - cbn. rewrite lookup_empty. split; [by intros []|]. by intros (_ & p & ?%elem_of_nil & _).
      - rewrite fold_left_app. cbn [fold_left]. unfold form_prop at 1. destruct (decide (pr_name p = "")) as [Hp|Hp].
        + rewrite IH. split; intros (Hn & q & Hq & E); (split; [done|]); exists q; (split; [|done]).
          * apply elem_of_app. by left.
          * apply elem_of_app in Hq as [Hq| ->%elem_of_list_singleton]; [done|]. congruence.
        + rewrite lookup_insert_is_Some, IH. split.
          * intros [E|(_ & Hn & q & Hq & E)].
            -- split; [congruence|]. exists p. split; [apply elem_of_app; right; left|done].
            -- split; [done|]. exists q. split; [apply elem_of_app; by left|done].
          * intros (Hn & q & [Hq| ->%elem_of_list_singleton]%elem_of_app & E); [|by left].
            destruct (decide (pr_name p = n)); [by left|]. right. split; [done|]. split; [done|]. eauto. }
    split; intros (Hn & p & H); (split; [done|]); exists p; [destruct H as [H1 H2]; apply Hf in H1 as [? ?]; done|].
    destruct H as (H1 & H2 & H3). split; [by apply Hf|done].
  - intros n. rewrite ssort_perm, elem_of_list_fmap. split.
    + intros (p & -> & [[Hn Hr] Hp]%elem_of_list_filter). split; [done|]. exists p. apply Hf in Hp as [? ?]. done.
    + intros (Hn & p & H1 & H2 & H3 & H4). exists p. split; [done|]. apply elem_of_list_filter. split; [by rewrite H2|]. by apply Hf.
Qed.
(** Otherwise a form value is documented as a query parameter and nothing else
    changes about it. *)
Theorem C52_query_fallback m ps has mp p : takes_body m && negb has = false →
  p ∈ ps → pr_in p = "form" →
  Prm (pr_name p) "query" (pr_required p) (pr_schema p) (pr_ref p) ∈ (resolve_form m ps has mp).1 ∧ (resolve_form m ps has mp).2 = None.
Proof.
  intros Hm Hp Hi. unfold resolve_form.
  assert (existsb (λ p, form_sentinel (pr_in p)) ps = true) as ->.
  { apply existsb_exists. exists p. split; [by apply elem_of_list_In|]. by rewrite Hi. }
  rewrite Hm. cbn [negb andb fst snd]. split; [|done]. apply elem_of_app. right.
  apply elem_of_list_fmap. exists p. split; [done|]. apply elem_of_list_filter. split; [by rewrite Hi|]. apply elem_of_list_filter. by rewrite Hi.
Qed.
(** A file read by a handler that also decodes a body (or on a GET) is documented
    nowhere. *)
Theorem C52_every_value_documented_refuted : ∃ p, pr_in p = "formFile" ∧ pr_name p = "avatar" ∧
  resolve_form "POST" [p] true true = ([], None).
Proof. exists (Prm "avatar" "formFile" true None ""). vm_compute. done. Qed.
Print Assumptions C52_no_internal_location_left.
Print Assumptions C52_other_parameters_kept.
Print Assumptions C52_form_body.
Print Assumptions C52_query_fallback.
Print Assumptions C52_every_value_documented_refuted.
Definition ex_form : list prm :=
  [Prm "page" "query" false None ""; Prm "name" "form" true None ""; Prm "avatar" "formFile" false (Some (PSch "" "binary")) ""; Prm "" "form" true None ""].
Example C52_example :
  (resolve_form "post" ex_form false true).1 = [Prm "page" "query" false None ""] ∧
  (fb_required <$> (resolve_form "post" ex_form false true).2) = Some ["name"] ∧
  (λ n, (resolve_form "post" ex_form false true).2 ≫= λ f, fb_props f !! n) <$> ["name"; "avatar"; "page"] =
    [Some (PSch "" "string"); Some (PSch "" "binary"); None] ∧
  (resolve_form "GET" ex_form false true).1 = [Prm "page" "query" false None ""; Prm "name" "query" true None ""; Prm "" "query" true None ""].
Proof. vm_compute. done. Qed.

(** ** C53: ServeMux patterns *)

(** A pattern with a method, quoted or not, splits into the method and the path. *)
Theorem C53_method_and_path_partial m p gap q1 q2 :
  m ∈ ["GET"; "POST"; "PUT"; "DELETE"; "PATCH"; "OPTIONS"; "HEAD"; "CONNECT"; "TRACE"] →
  pattern_path p → all_of spaces gap → all_of quotes q1 → all_of quotes q2 →
  split_method (q1 +:+ m +:+ " " +:+ gap +:+ p +:+ q2) = (m, p).
Proof. apply split_method_ok. Qed.
(** A pattern without a method passes through. *)
Theorem C53_plain_path p q1 q2 : pattern_path p → free_of " "%char p → all_of quotes q1 → all_of quotes q2 →
  split_method (q1 +:+ p +:+ q2) = ("", p).
Proof. apply split_method_plain. Qed.
(** Wildcards become placeholders, the end anchor disappears, the rest stays. *)
Theorem C53_normalized ms : (∀ m, m ∈ ms → mux_ok m) →
  normalize_servemux (foldr (λ m s, show_mux m +:+ s) "" ms) = foldr (λ m s, openapi_mux m +:+ s) "" ms.
Proof. apply normalize_show. Qed.
(** A host in the pattern is not recognised: it becomes a segment of the documented
    path. *)
Theorem C53_host_refuted : ∃ raw, raw = "GET example.com/items" ∧
  split_method raw = ("GET", "example.com/items") ∧
  convert_path (join_paths "" (normalize_servemux (split_method raw).2)) = "/example.com/items".
Proof. exists "GET example.com/items". vm_compute. done. Qed.
Print Assumptions C53_method_and_path_partial.
Print Assumptions C53_plain_path.
Print Assumptions C53_normalized.
Print Assumptions C53_host_refuted.
Example C53_example : split_method "'GET  /files/{path...}'" = ("GET", "/files/{path...}") ∧
  normalize_servemux "/files/{dir}/{path...}" = "/files/{dir}/{path}" ∧ normalize_servemux "/{$}" = "/" ∧
  (∀ m, m ∈ [MuxLit "/files/"; MuxVar "dir"; MuxLit "/"; MuxRest "path"; MuxEnd] → mux_ok m).
Proof.
  split; [vm_compute; done|]. split; [vm_compute; done|]. split; [vm_compute; done|].
  intros m Hm. repeat (apply elem_of_cons in Hm as [->|Hm]; [cbn|]); [..|by apply elem_of_nil in Hm].
  - apply free_of_spec. vm_compute. done.
  - exists "d"%char, "ir". done.
  - apply free_of_spec. vm_compute. done.
  - exists "p"%char, "ath". done.
  - done.
Qed.
