(** * Paths, parameters, responses and operations of the document
    (internal/spec/mapper.go). *)
From Coq Require Import Ascii.
From stdpp Require Import sorting.
From stdpp Require Import base list strings gmap.
From Verif Require Import StrOrder StrLib StrSplit DecLib RouteModel.

Definition c_lbrace : ascii := "{"%char.
Definition c_rbrace : ascii := "}"%char.
Definition c_colon : ascii := ":"%char.

(** The classes [a-zA-Z_] and [a-zA-Z0-9_] of the expressions at mapper.go 509 and
    912. *)
Definition in_range (lo hi c : ascii) : bool :=
  Nat.leb (nat_of_ascii lo) (nat_of_ascii c) && Nat.leb (nat_of_ascii c) (nat_of_ascii hi).
Definition ident_start (c : ascii) : bool :=
  in_range "a" "z" c || in_range "A" "Z" c || bool_decide (c = "_"%char).
Definition ident_char (c : ascii) : bool := ident_start c || in_range "0" "9" c.

(** The inner loop that looks for the closing brace, mapper.go 928-938 and 964-974,
    from the byte after the opening one; [d] is [depth - 1].  The text inside and
    the text after the closing brace; [None]: unbalanced. *)
Fixpoint close_brace (d : nat) (s : string) : option (string * string) :=
  match s with
  | "" => None
  | String c s =>
    if decide (c = c_lbrace) then
      match close_brace (S d) s with Some (a, b) => Some (String c a, b) | None => None end
    else if decide (c = c_rbrace) then
      match d with
      | 0 => Some ("", s)
      | S d => match close_brace d s with Some (a, b) => Some (String c a, b) | None => None end
      end
    else match close_brace d s with Some (a, b) => Some (String c a, b) | None => None end
  end.

(** Cutting at the first colon, mapper.go 942-945 and 980-982. *)
Definition before_colon (s : string) : string := take_until (λ c, bool_decide (c = c_colon)) s.
Definition after_colon (s : string) : string := str_drop (S (String.length (before_colon s))) s.

(** [forEachPathParam], mapper.go 923-948: the (name, pattern) pairs in order.
    [fuel] bounds the iterations, the length of the path suffices. *)
Fixpoint path_params (fuel : nat) (s : string) : list (string * string) :=
  match fuel with
  | 0 => []
  | S fuel =>
    match s with
    | "" => []
    | String c s1 =>
      if decide (c = c_lbrace) then
        match close_brace 0 s1 with
        | None => []
        | Some (inner, rest) => (before_colon inner, after_colon inner) :: path_params fuel rest
        end
      else path_params fuel s1
    end
  end.
Definition for_each_path_param (path : string) : list (string * string) := path_params (String.length path) path.

(** [stripParamPatterns], mapper.go 952-987. *)
Fixpoint strip_loop (fuel : nat) (s : string) : string :=
  match fuel with
  | 0 => ""
  | S fuel =>
    match s with
    | "" => ""
    | String c s1 =>
      if decide (c = c_lbrace) then
        match close_brace 0 s1 with
        | None => s
        | Some (inner, rest) => String c_lbrace (before_colon inner +:+ String c_rbrace (strip_loop fuel rest))
        end
      else String c (strip_loop fuel s1)
    end
  end.
Definition strip_param_patterns (path : string) : string :=
  if contains_byte c_lbrace path then strip_loop (String.length path) path else path.

(** [ReplaceAllString] with the expression of mapper.go 912 (a colon, then an
    identifier, greedily) and the template of line 915 (the identifier in braces).
    [inside] holds while an identifier is being copied. *)
Definition starts_ident (s : string) : bool := match s with String c _ => ident_start c | "" => false end.
Fixpoint colon_replace (inside : bool) (s : string) : string :=
  match s with
  | "" => if inside then String c_rbrace "" else ""
  | String c s =>
    if inside && ident_char c then String c (colon_replace true s)
    else
      let out := if bool_decide (c = c_colon) && starts_ident s then String c_lbrace (colon_replace true s)
                 else String c (colon_replace false s) in
      if inside then String c_rbrace out else out
  end.

(** [convertPathToOpenAPI], mapper.go 901-918. *)
Definition convert_path (path : string) : string := colon_replace false (strip_param_patterns path).

(** [pathParamPatterns], mapper.go 991-1003. *)
Definition path_param_patterns (path : string) : gmap string string :=
  fold_left (λ m np, if bool_decide (np.1 = "") || bool_decide (np.2 = "") then m else <[np.1 := np.2]> m)
    (for_each_path_param path) ∅.

(** [pathPlaceholders], extractor.go 2170-2178. *)
Definition path_placeholders (path : string) : list string :=
  filter (λ n, n ≠ "") (fst <$> for_each_path_param path).

(** ** Parameters *)

(** [Schema] of a parameter, openapi.go 143-177: the pattern is kept apart from the
    rest. *)
Record psch := PSch { ps_pattern : string; ps_rest : string }.
Definition string_sch (pattern : string) : psch := PSch pattern "string".
(** [Parameter], openapi.go 100-109; the description and the extensions are left
    out. *)
Record prm := Prm { pr_name : string; pr_in : string; pr_required : bool; pr_schema : option psch; pr_ref : string }.

(** [FindAllStringSubmatch] with the expression of mapper.go 509: the identifiers
    directly enclosed in braces.  What a match consumes after its opening brace
    contains no further opening brace, so looking on right behind the opening brace
    finds the same matches. *)
Fixpoint ident_run (s : string) : string :=
  match s with "" => "" | String c s => if ident_char c then String c (ident_run s) else "" end.
Definition name_here (s : string) : list string :=
  if starts_ident s && has_prefix (String c_rbrace "") (str_drop (String.length (ident_run s)) s)
  then [ident_run s] else [].
Fixpoint brace_names (s : string) : list string :=
  match s with
  | "" => []
  | String c s => (if decide (c = c_lbrace) then name_here s else []) ++ brace_names s
  end.

(** strings.ToUpper and ToLower on ASCII text. *)
Definition upper_char (c : ascii) : ascii := if in_range "a" "z" c then ascii_of_nat (nat_of_ascii c - 32) else c.
Definition lower_char (c : ascii) : ascii := if in_range "A" "Z" c then ascii_of_nat (nat_of_ascii c + 32) else c.
Fixpoint to_upper (s : string) : string := match s with "" => "" | String c s => String (upper_char c) (to_upper s) end.

(** [dynamicParamComponentName], mapper.go 592-598.  The first byte is upper-cased;
    Go function names start with an ASCII letter or underscore here. *)
Definition dynamic_component (name : string) : string :=
  match name with
  | "" => "PathParam"
  | String c s => String (upper_char c) s +:+ "Param"
  end.
Definition param_ref_prefix : string := "#/components/parameters/".
(** [dynamicParamRef], mapper.go 602-604. *)
Definition dynamic_ref (name : string) : string := param_ref_prefix +:+ dynamic_component name.
(** [refTargetName], mapper.go 609-620. *)
Definition ref_target (ref : string) : string :=
  if has_prefix param_ref_prefix ref then
    match trim_suffix "Param" (trim_prefix param_ref_prefix ref) with
    | "" => ""
    | String c s => String (lower_char c) s
    end
  else "".

(** The names a parameter list covers: [paramMap], mapper.go 494-506.  (A path
    parameter with an empty name sets the empty key, which no placeholder asks
    for.) *)
Definition covered_by (p : prm) : list string :=
  (if decide (pr_in p = "path") then [pr_name p] else []) ++
  (if decide (pr_ref p = "") then [] else if decide (ref_target (pr_ref p) = "") then [] else [ref_target (pr_ref p)]).
Definition covered_names (params : list prm) : gset string := list_to_set (concat (covered_by <$> params)).

(** [ensureAllPathParams], mapper.go 493-530. *)
Definition synthesized (patterns : gmap string string) (name : string) : prm :=
  Prm name "path" true (Some (string_sch (default "" (patterns !! name)))) "".
Definition ensure_all (path : string) (params : list prm) (patterns : gmap string string) : list prm :=
  params ++ (synthesized patterns <$> filter (λ n, n ∉ covered_names params) (brace_names path)).

(** [appendDynamicParamRefs], mapper.go 535-558 ([covered] differs from
    ensureAllPathParams only in skipping empty names). *)
Definition dyn_covered (params : list prm) : gset string := covered_names params ∖ {[ "" ]}.
Definition dyn_step (st : gset string * list prm) (name : string) : gset string * list prm :=
  if decide (name ∈ st.1) then st else ({[name]} ∪ st.1, st.2 ++ [Prm "" "" false None (dynamic_ref name)]).
Definition append_dynamic (params : list prm) (dynamic : list string) : list prm :=
  match dynamic with [] => params | _ => (fold_left dyn_step dynamic (dyn_covered params, params)).2 end.

(** [addDynamicPathParamComponents], mapper.go 563-588, over all routes' dynamic
    names: the component parameters by key. *)
Definition dynamic_components (dyns : list (list string)) : gmap string prm :=
  fold_left (λ m name, match m !! dynamic_component name with
                       | Some _ => m
                       | None => <[dynamic_component name := Prm name "path" true (Some (string_sch "")) ""]> m
                       end) (concat dyns) ∅.

(** [deduplicateParameters], mapper.go 623-634. *)
Fixpoint dedup_prms (seen : gset string) (params : list prm) : list prm :=
  match params with
  | [] => []
  | p :: params =>
    let key := pr_name p +:+ ":" +:+ pr_in p in
    if decide (key ∈ seen) then dedup_prms seen params else p :: dedup_prms ({[key]} ∪ seen) params
  end.

(** ** Form values *)

(** [isFormSentinel], mapper.go 783-785, with the constants of config.go. *)
Definition in_form : string := "form".
Definition in_form_file : string := "formFile".
Definition form_sentinel (loc : string) : bool := bool_decide (loc = in_form) || bool_decide (loc = in_form_file).
(** [methodTakesRequestBody], mapper.go 683-690. *)
Definition takes_body (method : string) : bool :=
  let m := to_upper method in bool_decide (m = "POST") || bool_decide (m = "PUT") || bool_decide (m = "PATCH").
(** The form body: media type, properties and required names. *)
Record form_body := FormBody { fb_ctype : string; fb_props : gmap string psch; fb_required : list string }.
(** One form field, mapper.go 736-756. *)
Definition form_prop (m : gmap string psch) (p : prm) : gmap string psch :=
  if decide (pr_name p = "") then m else <[pr_name p := default (string_sch "") (pr_schema p)]> m.
(** [resolveFormParams], mapper.go 712-779. *)
Definition resolve_form (method : string) (params : list prm) (has_body multipart : bool) : list prm * option form_body :=
  if negb (existsb (λ p, form_sentinel (pr_in p)) params) && negb multipart then (params, None)
  else
    let kept := filter (λ p, form_sentinel (pr_in p) = false) params in
    let form := filter (λ p, form_sentinel (pr_in p) = true) params in
    if takes_body method && negb has_body then
      (kept, Some (FormBody (if multipart then "multipart/form-data" else "application/x-www-form-urlencoded")
                     (fold_left form_prop form ∅)
                     (ssort (pr_name <$> filter (λ p, pr_name p ≠ "" ∧ pr_required p = true) form))))
    else
      (kept ++ ((λ p, Prm (pr_name p) "query" (pr_required p) (pr_schema p) (pr_ref p)) <$>
                  filter (λ p, pr_in p ≠ in_form_file) form), None).

(** ** Responses *)

(** [Response], openapi.go 119-125: the content is one media type or none. *)
Record rsp := Rsp { ro_desc : string; ro_content : option (string * option sch) }.

(** [isBodylessStatus], mapper.go 876-878. *)
Definition bodyless (code : Z) : bool :=
  (bool_decide (100 ≤ code)%Z && bool_decide (code < 200)%Z) || bool_decide (code = 204%Z) ||
  bool_decide (code = 205%Z) || bool_decide (code = 304%Z).

Section responses.
(** [plain_rest]: the fields summarised in [sc_rest] have no anyOf, no additional
    properties and a type that is empty or object; [status_text]: http.StatusText. *)
Context (plain_rest : string → bool) (status_text : Z → string).

(** [isGenericObjectResponse], mapper.go 668-678. *)
Definition generic_response (r : resp) : bool :=
  match rp_schema r with
  | None => true
  | Some s =>
    if negb (bool_decide (sc_ref s = "")) || Nat.ltb 0 (length (sc_props s)) || Nat.ltb 0 (sc_allof s) ||
       Nat.ltb 0 (sc_oneof s) || sc_items s then false
    else plain_rest (sc_rest s)
  end.
Global Instance sch_eq_dec : EqDecision sch.
Proof. solve_decision. Defined.
(** [uninformativeDefault], mapper.go 641-651; [sameRenderedBody], 656-663, compares
    the YAML texts, here the schemas themselves. *)
Definition uninformative (def : resp) (chosen : gmap string resp) : bool :=
  generic_response def ||
  existsb (λ kr, negb (bool_decide (kr.1 = "default")) && bool_decide (rp_schema kr.2 = rp_schema def)) (map_to_list chosen).
(** The loop over the sorted keys, mapper.go 816-829. *)
Definition choose (info : gmap string resp) (chosen : gmap string resp) (k : string) : gmap string resp :=
  match info !! k with
  | None => chosen
  | Some r =>
    if bool_decide (rp_status r < 0)%Z
    then match prefer_response (chosen !! "default") (Some r) with
         | Some w => <["default" := w]> chosen
         | None => chosen
         end
    else <[k := r]> chosen
  end.
(** One documented response, mapper.go 845-867. *)
Definition render_response (r : resp) : rsp :=
  let text := status_text (rp_status r) in
  let d := if bool_decide (rp_status r < 0)%Z || bool_decide (text = "") then "Status code could not be determined" else text in
  if bodyless (rp_status r) then Rsp d None else Rsp d (Some (rp_ctype r, rp_schema r)).
(** [buildResponses], mapper.go 787-870.  Response infos are never nil. *)
Definition build_responses (iter : list string → list string) (info : gmap string resp) : gmap string rsp :=
  if decide (info = ∅) then
    {[ "default" := Rsp "Default response (no response found)" (Some ("application/json", Some (Sch "" [] 0 0 false "object"))) ]}
  else
    let chosen := fold_left (choose info) (ssort (iter (fst <$> map_to_list info))) ∅ in
    let chosen := match chosen !! "default" with
                  | Some def => if Nat.ltb 1 (size chosen) && uninformative def chosen then delete "default" chosen else chosen
                  | None => chosen
                  end in
    render_response <$> chosen.

(** ** Operations *)

(** The fields of [RouteInfo], extractor.go 38-115, that buildPathsFromRoutes reads;
    [o_meta] is everything that only goes into identifiers and texts. *)
Record oroute := ORoute {
  o_mount : string; o_path : string; o_method : string; o_params : list prm; o_dyn : list string;
  o_request : option (string * option sch); o_multipart : bool; o_responses : gmap string resp;
  o_security : option (list requirement); o_meta : string
}.
(** [Operation], openapi.go 81-98.  The request body is a decoded one or a form. *)
Inductive body := BodyDecoded (ctype : string) (s : option sch) | BodyForm (f : form_body).
Record oper := Oper {
  oo_meta : string; oo_params : list prm; oo_body : option body; oo_responses : gmap string rsp;
  oo_security : option (list requirement)
}.
(** The operation of one route, mapper.go 384-480. *)
Definition operation_of (iter : list string → list string) (r : oroute) : oper :=
  let raw := join_paths (o_mount r) (o_path r) in
  let decoded := match o_request r with Some (ct, s) => Some (BodyDecoded ct s) | None => None end in
  let '(params, form) := resolve_form (o_method r) (o_params r) (match decoded with Some _ => true | None => false end) (o_multipart r) in
  let body := match form with Some f => Some (BodyForm f) | None => decoded end in
  let params := append_dynamic (dedup_prms ∅ params) (o_dyn r) in
  Oper (o_meta r) (ensure_all (convert_path raw) params (path_param_patterns raw)) body
    (build_responses iter (o_responses r)) (o_security r).
(** [setOperationOnPathItem], mapper.go 881-898.  A path item is a map from the
    seven method names to operations. *)
Definition methods : list string := ["GET"; "POST"; "PUT"; "DELETE"; "PATCH"; "OPTIONS"; "HEAD"].
Definition set_operation {O} (item : gmap string O) (method : string) (op : O) : gmap string O :=
  if decide (to_upper method ∈ methods) then <[to_upper method := op]> item else item.
(** [buildPathsFromRoutes], mapper.go 381-487. *)
Definition route_path (r : oroute) : string := convert_path (join_paths (o_mount r) (o_path r)).
Definition add_route (iter : list string → list string) (paths : gmap string (gmap string oper)) (r : oroute)
  : gmap string (gmap string oper) :=
  <[route_path r := set_operation (default ∅ (paths !! route_path r)) (o_method r) (operation_of iter r)]> paths.
Definition build_paths (iter : list string → list string) (routes : list oroute) : gmap string (gmap string oper) :=
  fold_left (add_route iter) routes ∅.
End responses.

(** ** ServeMux patterns *)

(** [isHTTPMethod], pattern_matchers.go 392-400. *)
Definition http_methods : list string :=
  ["GET"; "POST"; "PUT"; "DELETE"; "PATCH"; "OPTIONS"; "HEAD"; "CONNECT"; "TRACE"].
(** strings.Trim with the cut set of the two quote characters, and
    strings.TrimSpace on ASCII white space. *)
Fixpoint trim_left_any (cs : string) (s : string) : string :=
  match s with "" => "" | String c s' => if mem_byte c cs then trim_left_any cs s' else s end.
Fixpoint trim_right_any (cs : string) (s : string) : string :=
  match s with
  | "" => ""
  | String c s =>
    match trim_right_any cs s with
    | "" => if mem_byte c cs then "" else String c ""
    | s' => String c s'
    end
  end.
Definition trim_any (cs s : string) : string := trim_right_any cs (trim_left_any cs s).
Definition quotes : string := String "034"%char (String "039"%char "").
Definition spaces : string := String "009"%char (String "010"%char (String "011"%char (String "012"%char (String "013"%char (String " "%char ""))))).
(** [splitMethodFromPath], pattern_matchers.go 369-380. *)
Definition split_method (raw : string) : string * string :=
  let raw := trim_any quotes raw in
  let before := take_until (λ c, bool_decide (c = " "%char)) raw in
  if negb (contains_byte " "%char raw) || bool_decide (before = "") then ("", raw)
  else
    let candidate := to_upper (trim_any spaces before) in
    if decide (candidate ∈ http_methods) then (candidate, trim_any spaces (str_drop (S (String.length before)) raw))
    else ("", raw).
(** [normalizeServeMuxPath], pattern_matchers.go 385-389, first step: the trailing
    wildcard of an identifier in braces. *)
Fixpoint unwild (fuel : nat) (s : string) : string :=
  match fuel with
  | 0 => s
  | S fuel =>
    match s with
    | "" => ""
    | String c s1 =>
      let run := ident_run s1 in
      let rest := str_drop (String.length run) s1 in
      if bool_decide (c = c_lbrace) && starts_ident s1 && has_prefix "...}" rest
      then String c_lbrace (run +:+ String c_rbrace (unwild fuel (str_drop 4 rest)))
      else String c (unwild fuel s1)
    end
  end.
(** Second step: strings.ReplaceAll removing the end anchor. *)
Fixpoint drop_anchor (fuel : nat) (s : string) : string :=
  match fuel with
  | 0 => s
  | S fuel =>
    if has_prefix "{$}" s then drop_anchor fuel (str_drop 3 s)
    else match s with "" => "" | String c s1 => String c (drop_anchor fuel s1) end
  end.
Definition normalize_servemux (path : string) : string :=
  let p := unwild (String.length path) path in drop_anchor (String.length p) p.
