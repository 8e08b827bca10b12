(** * The properties about value wrappers and embedding types. *)
From Coq Require Import Ascii.
From stdpp Require Import sorting.
From stdpp Require Import base list strings gmap relations.
From Coq Require Import ZArith.
From Verif Require Import StrLib StrOrder SccSpec StatModel WrapModel WrapSpec WrapProofs2 WrapProps ValModel ValSpec ValProofs EmbedProofs.

(** ** C79: value wrappers *)
Section values.
Context (method_of : wmethod → option (list string * (string → list sarg))) (function_of : wmethod → option (string → list sarg)).
Context (m_resp : rspat → wedge → bool) (m_req : rqpat → wedge → bool) (m_par : prpat → wedge → bool) (modpath : string) (embed : wmethod → string).
Notation found := (value_found method_of function_of m_resp m_req m_par modpath embed).
Notation passes := (passes method_of function_of).

(** Everything said about a method rests on a call in it: its status, type and default
    status, the body it decodes and the parameter it reads each on a call that a
    configured pattern or the pattern of another method found describes, by the
    parameter passed on there.  Whoever is complete has something to apply. *)
Theorem C79_sound iters (c : vconf) (es : list wedge) (k : string) (d : vwrap) :
  (∀ n, is_order (iters n)) → (∀ e, e ∈ es → dotless (we_recv e) ∧ dotless (we_name e)) →
  let F := found iters c es in
  F !! k = Some d →
  ∃ w, k = method_key w ∧ (∃ e, e ∈ es ∧ written_in modpath e w) ∧ vw_recv d = fq_recv w ∧ vw_name d = wm_name w ∧
    (∀ r, vw_resp d = Some r → resp_reading method_of function_of embed w (resp_call m_resp modpath c es F w) r) ∧
    (∀ r, vw_req d = Some r → req_reading method_of function_of embed w (req_call m_req modpath embed c es F w) r) ∧
    (∀ r, vw_par d = Some r → par_reading method_of function_of embed w (par_call m_par modpath embed c es F w) r) ∧
    (vw_complete d = true → (∃ r, vw_resp d = Some r ∧ rs_type r = true) ∨ is_Some (vw_req d) ∨ is_Some (vw_par d)).
Proof.
  intros Ho Hdot F HF.
  assert (inv method_of function_of m_resp m_req m_par modpath embed es (resp_known c F) (req_known embed c F) (par_known embed c F) F) as Hi.
  { apply (rounds_inv method_of function_of m_resp m_req m_par modpath embed es Hdot c F detect_rounds iters Ho c ∅); [done| | | |].
    - intros q Hq. by left.
    - intros q Hq. by left.
    - intros q Hq. by left.
    - intros k0 d0 H0. by rewrite lookup_empty in H0. }
  destruct (Hi k d HF) as (w & -> & Hm & O1 & O2 & O3 & O4 & O5 & O6). exists w. split; [done|]. split; [exact Hm|]. split; [done|]. split; [done|].
  split; [exact O3|]. split; [exact O4|]. split; [exact O5|exact O6].
Qed.

(** A method with a call that a configured pattern describes is described by it: every
    role the pattern has and the method passes on is there. *)
Theorem C79_direct iters (c : vconf) (es : list wedge) (e : wedge) (w : wmethod) :
  e ∈ es → written_in modpath e w → let F := found iters c es in
  (∀ q, q ∈ vc_resps c → m_resp q e = true → ∃ d r, F !! method_key w = Some d ∧ vw_resp d = Some r ∧
     (∀ i, rs_status q = true → passes w e (rs_status_idx q) i → rs_status r = true) ∧
     (∀ i, rs_type q = true → passes w e (rs_type_idx q) i → rs_type r = true) ∧ (rs_default q ≠ 0%Z → rs_default r ≠ 0%Z)) ∧
  (∀ q i, q ∈ vc_reqs c → m_req q e = true → rq_type q = true → passes w e (rq_type_idx q) i → ∃ d, F !! method_key w = Some d ∧ is_Some (vw_req d)) ∧
  (∀ q i, q ∈ vc_pars c → m_par q e = true → pr_in q ≠ "" → pr_mapkey q = false → passes w e (pr_idx q) i →
     ∃ d, F !! method_key w = Some d ∧ is_Some (vw_par d)).
Proof.
  intros He Hw F.
  assert (grows (value_round method_of function_of m_resp m_req m_par modpath embed c es ∅) F) as HG by apply first_round_grows.
  split; [|split].
  - intros q Hq Hm. destruct (round_resp method_of function_of m_resp m_req m_par modpath embed c es ∅ e w q He Hw Hq Hm) as (m0 & Hg).
    assert (grows (merge_response method_of function_of embed m0 w q e) F) as Hg' by (by etrans). unfold merge_response in Hg'.
    set (r0 := merge_roles method_of function_of _ w q e) in Hg'.
    destruct (Hg' _ _ (lookup_insert _ _ _)) as (d & Hd & _ & _ & _ & G & _). cbn [vw_resp] in G. destruct (G _ eq_refl) as (r & Hr & (W1 & W2 & W3 & W4 & W5)).
    exists d, r. split; [done|]. split; [done|].
    pose proof (merge_roles_gives method_of function_of (match vw_resp (shell m0 w e) with Some r => r | None => RsPat (call_regex w) (embed w) false 0 false (-1) false 0 end) w q e) as (G1 & G2 & G3).
    fold r0 in G1, G2, G3. split; [|split].
    + intros i Hs Hp. apply W3. by apply (G1 i).
    + intros i Hs Hp. apply W4. by apply (G2 i).
    + intros Hs. rewrite W5; by apply G3.
  - intros q i Hq Hm Ht Hp. destruct (round_req method_of function_of m_resp m_req m_par modpath embed c es ∅ e w q He Hw Hq Hm) as (m0 & Hg).
    assert (grows (derive_request method_of function_of embed m0 w q e) F) as Hg' by (by etrans). unfold derive_request in Hg'. rewrite Ht in Hg'.
    destruct (passes_index method_of function_of _ _ _ _ Hp) as [i' Ei]. rewrite Ei in Hg'.
    destruct (Hg' _ _ (lookup_insert _ _ _)) as (d & Hd & _ & _ & _ & _ & G & _). exists d. split; [done|]. apply G. cbn [vw_req]. by eexists.
  - intros q i Hq Hm Hn Hk Hp. destruct (round_par method_of function_of m_resp m_req m_par modpath embed c es ∅ e w q He Hw Hq Hm) as (m0 & Hg).
    assert (grows (derive_param method_of function_of embed m0 w q e) F) as Hg' by (by etrans). unfold derive_param in Hg'.
    rewrite (bool_decide_eq_false_2 (pr_in q = "")), Hk in Hg' by done. cbn [orb] in Hg'.
    destruct (passes_index method_of function_of _ _ _ _ Hp) as [i' Ei]. rewrite Ei in Hg'.
    destruct (Hg' _ _ (lookup_insert _ _ _)) as (d & Hd & _ & _ & _ & _ & _ & G). exists d. split; [done|]. apply G. cbn [vw_par]. by eexists.
Qed.

(** The report lists exactly the methods found, by receiver and name; reading the map in
    another order at the end gives the same list. *)
Lemma value_le_total a b : value_le a b ∨ value_le b a.
Proof.
  unfold value_le. destruct (decide (vw_recv a = vw_recv b)) as [E|E].
  - rewrite decide_True by done. apply (total string_le).
  - rewrite decide_False by congruence. apply (total string_le).
Qed.
Lemma value_le_trans : Transitive value_le.
Proof.
  intros a b c. unfold value_le. destruct (decide (vw_recv a = vw_recv b)) as [E|E]; destruct (decide (vw_recv b = vw_recv c)) as [E'|E'].
  - rewrite decide_True by congruence. apply transitivity.
  - rewrite decide_False by congruence. intros _. by rewrite E.
  - rewrite decide_False by congruence. intros H _. by rewrite <- E'.
  - intros H H'. destruct (decide (vw_recv a = vw_recv c)) as [E''|E''].
    + exfalso. apply E. rewrite <- E'' in H'. by apply (anti_symm string_le).
    + by etrans.
Qed.
Theorem C79_listed iters (c : vconf) (es : list wedge) iter iter2 : (∀ n, is_order (iters n)) → is_order iter → is_order iter2 →
  (∀ e, e ∈ es → dotless (we_recv e) ∧ dotless (we_name e)) → let F := found iters c es in
  (∀ d, d ∈ value_wrappers iter F ↔ ∃ k, F !! k = Some d) ∧ StronglySorted value_le (value_wrappers iter F) ∧
  value_wrappers iter F = value_wrappers iter2 F.
Proof.
  intros Ho Hi Hi2 Hdot F.
  assert (Total value_le) as Ht by (intros a b; apply value_le_total). pose proof value_le_trans as Htr.
  assert (∀ it, is_order it → ∀ d, d ∈ value_wrappers it F ↔ ∃ k, F !! k = Some d) as Hel.
  { intros it Hit d. unfold value_wrappers. rewrite merge_sort_Permutation, elem_of_list_fmap. split.
    - intros ([k d'] & -> & H). rewrite (Hit _) in H. exists k. by apply elem_of_map_to_list.
    - intros [k H]. exists (k, d). split; [done|]. rewrite (Hit _). by apply elem_of_map_to_list. }
  assert (∀ it, StronglySorted value_le (value_wrappers it F)) as Hss.
  { intros it. apply StronglySorted_merge_sort; apply _. }
  split; [by apply Hel|]. split; [apply Hss|].
  apply (sorted_perm_eq value_le); [|apply Hss|apply Hss|].
  - intros a b Ha Hb Hab Hba. apply (Hel iter Hi) in Ha as [k Ha]. apply (Hel iter Hi) in Hb as [k' Hb].
    destruct (C79_sound iters c es k a Ho Hdot Ha) as (w & Hk & _ & Hr & Hn & _). destruct (C79_sound iters c es k' b Ho Hdot Hb) as (w' & Hk' & _ & Hr' & Hn' & _).
    assert (vw_recv a = vw_recv b ∧ vw_name a = vw_name b) as [E1 E2].
    { unfold value_le in Hab, Hba. destruct (decide (vw_recv a = vw_recv b)) as [E|E].
      - rewrite decide_True in Hba by done. split; [done|]. by apply (anti_symm string_le).
      - rewrite decide_False in Hba by congruence. exfalso. apply E. by apply (anti_symm string_le). }
    assert (k = k') as <-. { rewrite Hk, Hk'. unfold method_key. congruence. } congruence.
  - unfold value_wrappers. rewrite !merge_sort_Permutation. by rewrite (Hi _), (Hi2 _).
Qed.
End values.
Print Assumptions C79_sound.
Print Assumptions C79_direct.
Print Assumptions C79_listed.

(** [func (c *Context) JSON(status int, v any)] that writes the header and encodes,
    [Bind(v any)] that decodes and [ID(name string)] that reads a path parameter. *)
Definition ctx_params (w : wmethod) : option (list string * (string → list sarg)) :=
  if bool_decide (wm_name w = "JSON") then Some (["status"; "v"], λ _, [])
  else if bool_decide (wm_name w = "Fetch") then Some (["name"; "v"], λ _, [])
  else if bool_decide (wm_name w = "Swap") then Some (["v"; "status"], λ _, [])
  else if bool_decide (wm_name w = "Reply") then Some (["status"; "v"], λ _, [])
  else Some (["name"], λ _, []).
Definition in_ctx (recv name callee : string) (args : list string) : wedge := WEdge recv web name "" callee (Some ∘ ident <$> args).
Definition resp_by_name (q : rspat) (e : wedge) : bool := bool_decide (rs_call q = "^" +:+ we_callee e +:+ "$").
Definition req_by_name (q : rqpat) (e : wedge) : bool := bool_decide (rq_call q = "^" +:+ we_callee e +:+ "$").
Definition par_by_name (q : prpat) (e : wedge) : bool := bool_decide (pr_call q = "^" +:+ we_callee e +:+ "$").
Definition http_conf : vconf :=
  VConf [RsPat "^WriteHeader$" "" true 0 false (-1) false 0; RsPat "^Encode$" "" false 0 true 0 true 0]
    [RqPat "^Decode$" "" true 0 true] [PrPat "^Param$" "" "path" 0 false].
Definition ctx_found := value_found ctx_params no_function resp_by_name req_by_name par_by_name app recv_regex.
Definition same_order (n : nat) (l : list (string * vwrap)) : list (string * vwrap) := l.
Definition ctx_regex : string := "^example\.com/app/web\.\*?Context$".
Definition ctx_edges : list wedge :=
  [in_ctx "*Context" "JSON" "WriteHeader" ["status"]; in_ctx "*Context" "JSON" "Encode" ["v"]; in_ctx "*Context" "ID" "Param" ["name"];
   in_ctx "*Context" "Get" "ID" ["name"]; in_ctx "*Context" "Bind" "Decode" ["name"]].
Example C79_example :
  let F := ctx_found same_order http_conf ctx_edges in
  value_wrappers id F =
  [VWrap "example.com/app/web.*Context" "Bind" ".Decode" None (Some (RqPat "^Bind$" ctx_regex true 0 true)) None true;
   VWrap "example.com/app/web.*Context" "Get" ".ID" None None (Some (PrPat "^Get$" ctx_regex "path" 0 false)) true;
   VWrap "example.com/app/web.*Context" "ID" ".Param" None None (Some (PrPat "^ID$" ctx_regex "path" 0 false)) true;
   VWrap "example.com/app/web.*Context" "JSON" ".WriteHeader" (Some (RsPat "^JSON$" ctx_regex true 0 true 1 true 0)) None None true] ∧
  (∀ e, e ∈ ctx_edges → dotless (we_recv e) ∧ dotless (we_name e)) ∧ (∀ n, is_order (same_order n)).
Proof.
  split; [by vm_compute|]. split; [|by intros n l].
  intros e He. unfold ctx_edges in He. rewrite !elem_of_cons, elem_of_nil in He. destruct He as [-> | [-> | [-> | [-> | [-> | []]]]]]; by vm_compute.
Qed.

(** Full statement, false: what is derived does not depend on the order of the calls —
    whether a method with a status and a parameter is complete, and applied at all,
    depends on which of the two calls comes last. *)
Theorem C79_call_order_refuted :
  ∃ c es es' k d d', es ≡ₚ es' ∧ ctx_found same_order c es !! k = Some d ∧ ctx_found same_order c es' !! k = Some d' ∧
    vw_resp d = vw_resp d' ∧ vw_req d = vw_req d' ∧ vw_par d = vw_par d' ∧ is_Some (vw_par d) ∧ vw_complete d = true ∧ vw_complete d' = false.
Proof.
  set (a := in_ctx "*Context" "Fetch" "WriteHeader" ["v"]). set (b := in_ctx "*Context" "Fetch" "Param" ["name"]).
  exists http_conf, [a; b], [b; a], "example.com/app/web.*Context.Fetch". do 2 eexists. split; [apply perm_swap|]. split; [vm_compute; reflexivity|].
  split; [vm_compute; reflexivity|]. cbn. split; [done|]. split; [done|]. split; [done|]. split; [by eexists|done].
Qed.
Print Assumptions C79_call_order_refuted.

(** Full statement, false: calls of a complete response wrapper are wrappers in turn —
    not when it became complete in a round that found no new method. *)
Theorem C79_early_stop_refuted :
  ∃ c es k d r e w, let F := ctx_found same_order c es in
    F !! k = Some d ∧ vw_complete d = true ∧ vw_resp d = Some r ∧ e ∈ es ∧ written_in app e w ∧ resp_by_name r e = true ∧ F !! method_key w = None.
Proof.
  set (e := in_ctx "*Context" "Reply" "JSON" ["status"; "v"]).
  set (es := [in_ctx "*Context" "JSON" "WriteHeader" ["status"]; in_ctx "*Context" "JSON" "EncodeTo" ["v"]; in_ctx "*Enc" "EncodeTo" "Encode" ["name"]; e]).
  exists http_conf, es, "example.com/app/web.*Context.JSON". do 2 eexists. exists e, (WMethod web "*Context" "Reply"). cbv zeta.
  split; [vm_compute; reflexivity|]. cbn [vw_complete vw_resp]. split; [done|]. split; [reflexivity|]. split; [right; right; right; left|].
  split; [apply (WrapProofs.written_spec ctx_params no_function); by vm_compute|]. split; by vm_compute.
Qed.
Print Assumptions C79_early_stop_refuted.

(** Full statement, false: every role of a complete wrapper is passed on — a method that
    answers and reads a parameter is followed for its answer only. *)
Theorem C79_second_role_refuted :
  ∃ c es k d p e w i, let F := ctx_found same_order c es in
    F !! k = Some d ∧ vw_complete d = true ∧ vw_par d = Some p ∧ e ∈ es ∧ written_in app e w ∧ par_by_name p e = true ∧
    pr_in p ≠ "" ∧ pr_mapkey p = false ∧ passes ctx_params no_function w e (pr_idx p) i ∧ ∀ d', F !! method_key w = Some d' → vw_par d' = None.
Proof.
  set (e := in_ctx "*Context" "Get" "Fetch" ["name"; "nothing"]).
  set (es := [in_ctx "*Context" "Fetch" "Param" ["name"]; in_ctx "*Context" "Fetch" "Encode" ["v"]; e]).
  exists http_conf, es, "example.com/app/web.*Context.Fetch". do 2 eexists. exists e, (WMethod web "*Context" "Get"), 0. cbv zeta.
  split; [vm_compute; reflexivity|]. cbn [vw_complete vw_par]. split; [done|]. split; [reflexivity|]. split; [right; right; left|].
  split; [apply (WrapProofs.written_spec ctx_params no_function); by vm_compute|]. split; [by vm_compute|]. split; [done|]. split; [done|].
  split; [apply index_some; by vm_compute|]. intros d' Hd. vm_compute in Hd. by injection Hd as <-.
Qed.
Print Assumptions C79_second_role_refuted.

(** Full statement, false: what is derived does not depend on the order of the map —
    when two methods found match a call and give its arguments different roles, the one
    the map delivers first decides. *)
Definition any_swap (q : rspat) (e : wedge) : bool :=
  resp_by_name q e || (bool_decide (we_callee e = "Swap") && bool_decide (rs_call q = "^JSON$")).
Theorem C79_map_order_refuted :
  ∃ m_resp c es iters iters' k d d' r r', (∀ n, is_order (iters n)) ∧ (∀ n, is_order (iters' n)) ∧
    let F := value_found ctx_params no_function m_resp req_by_name par_by_name app recv_regex in
    F iters c es !! k = Some d ∧ F iters' c es !! k = Some d' ∧ vw_resp d = Some r ∧ vw_resp d' = Some r' ∧ vw_complete d = true ∧ vw_complete d' = true ∧
    rs_type_idx r ≠ rs_type_idx r'.
Proof.
  set (es := [in_ctx "*Base" "JSON" "WriteHeader" ["status"]; in_ctx "*Base" "JSON" "Encode" ["v"];
              in_ctx "*Context" "Swap" "WriteHeader" ["status"]; in_ctx "*Context" "Swap" "Encode" ["v"];
              in_ctx "*Context" "Reply" "Swap" ["status"; "v"]]).
  exists any_swap, http_conf, es, same_order, (λ _, reverse), "example.com/app/web.*Context.Reply". do 4 eexists.
  split; [by intros n l|]. split; [intros n l; apply reverse_Permutation|]. cbv zeta.
  split; [vm_compute; reflexivity|]. split; [vm_compute; reflexivity|]. cbn [vw_resp vw_complete]. split; [reflexivity|]. split; [reflexivity|]. by vm_compute.
Qed.
Print Assumptions C79_map_order_refuted.

(** ** C80: embedding types *)
(** The receiver expression of a derived pattern names, sorted and once each, the
    declaring type and only types that embed it, directly or through others; every type
    at most four embeddings away is named. *)
Theorem C80_embedding (pkg : string) (types : list (string * list string)) (recv : string) :
  let b := trim_prefix "*" recv in let names := embedding_names pkg types recv in
  b ∈ names ∧ NoDup names ∧ StronglySorted string_le names ∧
  (∀ x, x ∈ names → rtc (embeds pkg types) x b) ∧
  ((∀ t, pkg ≠ "*" +:+ t) → (∀ x, rtc (embeds pkg types) x b → bare x) → ∀ k x, k ≤ 4 → nsteps (embeds pkg types) k x b → x ∈ names).
Proof.
  cbv zeta. unfold embedding_names. set (b := trim_prefix "*" recv).
  assert (∀ x, x ∈ merge_sort string_le (embed_rounds pkg types detect_rounds [b]) ↔ x ∈ embed_rounds pkg types detect_rounds [b]) as Hel.
  { intros x. by rewrite merge_sort_Permutation. }
  split; [apply Hel, rounds_keeps; by apply elem_of_list_singleton|].
  split; [rewrite merge_sort_Permutation; apply rounds_nodup, NoDup_singleton|].
  split; [apply (StronglySorted_merge_sort string_le)|].
  split.
  - intros x Hx%Hel. eapply rounds_sound; [|exact Hx]. intros y ->%elem_of_list_singleton. apply rtc_refl.
  - intros Hp Hb k x Hk Hs. apply Hel. apply (rounds_complete pkg types detect_rounds Hp k [b] x b); [done|by apply elem_of_list_singleton|done|done].
Qed.
Print Assumptions C80_embedding.

(** gitea: [Context] embeds [*Base], [APIContext] and [PrivateContext] embed [*Base] and
    [Context]. *)
Definition gitea_types : list (string * list string) :=
  [("APIContext", ["*example.com/app/web.Context"]); ("Base", []); ("Context", ["*Base"]); ("Other", ["log.Base"])].
Example C80_example :
  embedding_names web gitea_types "*Base" = ["APIContext"; "Base"; "Context"] ∧
  embedding_regex web gitea_types "*Base" = "^example\.com/app/web\.\*?(APIContext|Base|Context)$" ∧
  nsteps (embeds web gitea_types) 2 "APIContext" "Base" ∧ (∀ x, rtc (embeds web gitea_types) x "Base" → bare x).
Proof.
  split; [by vm_compute|]. split; [by vm_compute|]. split.
  - apply nsteps_l with "Context"; [|apply nsteps_l with "Base"; [|apply nsteps_O]].
    + exists ["*example.com/app/web.Context"], "*example.com/app/web.Context". split; [left|]. split; [left|]. right. right. by right.
    + exists ["*Base"], "*Base". split; [right; right; left|]. split; [left|]. right. by left.
  - assert (∀ t u, embeds web gitea_types t u → t ∈ ["APIContext"; "Context"; "Other"]) as Hin.
    { intros t u (es & s & H & Hs & _). unfold gitea_types in H. rewrite !elem_of_cons, elem_of_nil in H.
      destruct H as [[= -> ->] | [[= -> ->] | [[= -> ->] | [[= -> ->] | []]]]]; [left|by apply elem_of_nil in Hs|right; left|right; right; left]. }
    intros x Hx. apply rtc_inv in Hx as [->|(y & Hxy & _)]; [by split; [by vm_compute|]|]. apply Hin in Hxy.
    rewrite !elem_of_cons, elem_of_nil in Hxy. destruct Hxy as [-> | [-> | [-> | []]]]; (split; [by vm_compute|done]).
Qed.

(** Full statement, false: every type that embeds the declaring type is named — not the
    fifth of a chain, when each type comes before the one it embeds. *)
Theorem C80_deep_refuted :
  ∃ pkg types recv x, rtc (embeds pkg types) x recv ∧ x ∉ embedding_names pkg types recv.
Proof.
  set (types := [("A", ["B"]); ("B", ["C"]); ("C", ["D"]); ("D", ["E"]); ("E", ["Base"])] : list (string * list string)).
  assert (∀ t u, (t, [u]) ∈ types → embeds web types t u) as H.
  { intros t u Hin. exists [u], u. split; [done|]. split; [left|by left]. }
  exists web, types, "Base", "A". split.
  - apply rtc_l with "B"; [apply H; left|]. apply rtc_l with "C"; [apply H; right; left|]. apply rtc_l with "D"; [apply H; right; right; left|].
    apply rtc_l with "E"; [apply H; right; right; right; left|]. apply rtc_once, H. right; right; right; right; left.
  - assert (embedding_names web types "Base" = ["B"; "Base"; "C"; "D"; "E"]) as -> by (by vm_compute). apply (bool_decide_unpack _). by vm_compute.
Qed.
Print Assumptions C80_deep_refuted.
