(** * Security: middleware to requirements, scheme catalogue, presets
    (internal/spec/security.go, config_security.go, parts of extractor.go,
    reachability.go and mapper.go).

    Simplifications.  A security requirement, a Go map from scheme name to scope
    list, is a [gmap]; Go's map iteration is the oracle [iter].  A scheme's own
    contents are an abstract type.  [cachedRegex] followed by [MatchString] is the
    oracle [re] ([None]: does not compile).  How middleware values are found in the
    call tree (collectNodeSecurity, collectChainSecurity) is GuardModel.v's: here the
    lists of middleware are inputs. *)
From Coq Require Import Ascii.
From stdpp Require Import sorting.
From stdpp Require Import base list strings gmap.
From Verif Require Import StrLib StrOrder.

Notation requirement := (gmap string (list string)).

(** [MiddlewareRef], security.go 28-33. *)
Record mref := MRef { mr_fn : string; mr_pkg : string; mr_recv : string; mr_pos : string }.
Global Instance mref_eq_dec : EqDecision mref.
Proof. solve_decision. Defined.

(** [MiddlewareRef.String], security.go 36-51. *)
Definition mref_string (r : mref) : string :=
  (if decide (mr_pkg r = "") then "" else mr_pkg r +:+ ".") +:+
  (if decide (mr_recv r = "") then "" else "(" +:+ mr_recv r +:+ ").") +:+
  (if decide (mr_fn r = "") then "<anonymous>" else mr_fn r).

(** [MiddlewareRef.empty], security.go 54-56. *)
Definition mref_empty (r : mref) : bool :=
  bool_decide (mr_fn r = "") && bool_decide (mr_pkg r = "") && bool_decide (mr_recv r = "").

(** [SecurityMapping], config.go 545-568. *)
Record smapping := SMapping {
  sm_fnre : string; sm_pkgre : string; sm_recvre : string;
  sm_schemes : list requirement; sm_anyof : list (list requirement);
  sm_public : bool; sm_skip : bool }.

(** [middlewareBaseID], security.go 254-262. *)
Definition middleware_base_id (r : mref) : string :=
  if decide (mr_pkg r = "" ∨ mr_fn r = "") then ""
  else if decide (mr_recv r = "") then mr_pkg r +:+ "." +:+ mr_fn r
  else mr_pkg r +:+ "." +:+ trim_prefix "*" (mr_recv r) +:+ "." +:+ mr_fn r.

(** [dedupMiddlewareRefs], extractor.go 686-701 (the early return for at most one
    entry gives the same list). *)
Fixpoint dedup_refs_go (seen : list string) (refs : list mref) : list mref :=
  match refs with
  | [] => []
  | r :: refs =>
    if decide (mref_string r ∈ seen) then dedup_refs_go seen refs
    else r :: dedup_refs_go (mref_string r :: seen) refs
  end.
Definition dedup_refs (refs : list mref) : list mref := dedup_refs_go [] refs.

Section matching.
Context (re : string → string → option bool).

(** [SecurityMapping.matches], security.go 267-284. *)
Definition re_field (expr value : string) : bool :=
  if decide (expr = "") then true else match re expr value with Some b => b | None => false end.
Definition sm_matches (m : smapping) (r : mref) : bool :=
  re_field (sm_fnre m) (mr_fn r) && re_field (sm_pkgre m) (mr_pkg r) && re_field (sm_recvre m) (mr_recv r).

(** [anyMappingMatches], security.go 242-249. *)
Definition any_mapping_matches (r : mref) (mappings : list smapping) : bool :=
  existsb (λ m, sm_matches m r) mappings.

Section resolve.
Context (iter : list (string * list string) → list (string * list string)).

(** The inner [for k, v := range reqObj] loop, security.go 323-327 and 332-334. *)
Definition put_all (acc r : requirement) : requirement :=
  fold_left (λ acc kv, <[kv.1 := kv.2]> acc) (iter (map_to_list r)) acc.

(** The state of the loops: combined, alternatives, public. *)
Record rstate := RState { rs_combined : requirement; rs_alts : list requirement; rs_public : bool }.

(** One group of [SchemesAnyOf], security.go 329-338. *)
Definition add_group (alts : list requirement) (grp : list requirement) : list requirement :=
  let alt := fold_left put_all grp ∅ in
  if decide (alt = ∅) then alts else alts ++ [alt].
(** One matching mapping, security.go 313-338. *)
Definition apply_mapping (st : rstate) (m : smapping) : rstate :=
  if sm_skip m then st
  else RState (fold_left put_all (sm_schemes m) (rs_combined st))
              (fold_left add_group (sm_anyof m) (rs_alts st))
              (rs_public st || sm_public m).
(** The loop over the mappings for one middleware, security.go 307-340. *)
Fixpoint mapping_loop (mappings : list smapping) (r : mref) (matched : bool) (st : rstate) : bool * rstate :=
  match mappings with
  | [] => (matched, st)
  | m :: ms => if sm_matches m r then mapping_loop ms r true (apply_mapping st m) else mapping_loop ms r matched st
  end.
(** The loop over the middleware, security.go 306-344. *)
Fixpoint ref_loop (refs : list mref) (mappings : list smapping) (st : rstate) (unresolved : list mref)
  : rstate * list mref :=
  match refs with
  | [] => (st, unresolved)
  | r :: refs =>
    let '(matched, st) := mapping_loop mappings r false st in
    ref_loop refs mappings st (if matched then unresolved else unresolved ++ [r])
  end.

(** [securityRequirementKey], security.go 375-390. *)
Definition requirement_key (keys : list string → list string) (r : requirement) : string :=
  foldr (λ n acc, n +:+ "=" +:+ str_join "," (default [] (r !! n)) +:+ ";" +:+ acc) ""
    (merge_sort string_le (keys ((map_to_list r).*1))).

(** [dedupSecurityRequirements], security.go 356-371. *)
Fixpoint dedup_reqs_go (keys : list string → list string) (seen : list string) (reqs : list requirement)
  : list requirement :=
  match reqs with
  | [] => []
  | r :: reqs =>
    if decide (requirement_key keys r ∈ seen) then dedup_reqs_go keys seen reqs
    else r :: dedup_reqs_go keys (requirement_key keys r :: seen) reqs
  end.
Definition dedup_reqs (keys : list string → list string) (reqs : list requirement) : list requirement :=
  match reqs with [] | [_] => reqs | _ => dedup_reqs_go keys [] reqs end.

(** [resolveSecurity], security.go 302-351. *)
Definition resolve_security (keys : list string → list string) (refs : list mref) (mappings : list smapping)
  : list requirement * bool * list mref :=
  let '(st, unresolved) := ref_loop refs mappings (RState ∅ [] false) [] in
  let reqs := (if decide (rs_combined st = ∅) then [] else [rs_combined st]) ++ rs_alts st in
  (dedup_reqs keys reqs, rs_public st, unresolved).

(** [expandMiddlewareRefs], extractor.go 778-799, with [middlewareMatchesThrough]
    as a parameter; the metadata is present. *)
Fixpoint expand_loop (through : string → list mref) (mappings : list smapping) (refs : list mref) : list mref :=
  match refs with
  | [] => []
  | r :: refs =>
    (if any_mapping_matches r mappings then [r]
     else if decide (middleware_base_id r = "") then [r]
     else match through (middleware_base_id r) with [] => [r] | l => l end)
    ++ expand_loop through mappings refs
  end.
Definition expand_refs (through : string → list mref) (mappings : list smapping) (refs : list mref) : list mref :=
  match mappings with [] => refs | _ => dedup_refs (expand_loop through mappings refs) end.

(** [applyRouteSecurity], extractor.go 709-766, from the collected middleware on;
    [None] is the Go nil of an operation that inherits the document's security,
    the second component is what is recorded as unresolved. *)
Definition apply_route_security (keys : list string → list string) (through : string → list mref)
    (mappings : list smapping) (definite speculative : list mref) : option (list requirement) * list mref :=
  let d := dedup_refs definite in
  let '(reqs1, public1, unresolved) :=
    match d with [] => ([], false, []) | _ => resolve_security keys (expand_refs through mappings d) mappings end in
  let sp := dedup_refs speculative in
  let '(reqs2, public2, _) :=
    match sp with [] => ([], false, []) | _ => resolve_security keys (expand_refs through mappings sp) mappings end in
  let reqs := dedup_reqs keys (reqs1 ++ reqs2) in
  (if public1 || public2 then Some [] else match reqs with [] => None | _ => Some reqs end, unresolved).
End resolve.

(** ** Looking through wrappers *)
Section through.
Context (mappings : list smapping).
(** The callee identities of [meta.Callers] and of [parentFnIndex];
    [calleeMiddlewareRef], extractor.go 825-834, is applied already. *)
Context (callers parents : gmap string (list mref)).
(** What one function's scan goes through, reachability.go 135-136. *)
Definition mw_edges (key : string) : list mref := default [] (callers !! key) ++ default [] (parents !! key).

(** [middlewareMatchesThrough], reachability.go 104-144.  The memo is threaded, the
    stack is an argument because the deferred delete restores it.  The Go function
    has no fuel; [None] is running out of it. *)
Notation memo := (gmap string (list mref)).
Definition scan_edge (rec : string → memo → option (list mref * memo)) (st : option (list mref * memo)) (callee : mref)
  : option (list mref * memo) :=
  '(found, mm) ← st;
  if mref_empty callee then Some (found, mm)
  else if any_mapping_matches callee mappings then Some (found ++ [callee], mm)
  else if decide (middleware_base_id callee = "") then Some (found, mm)
  else '(l, mm) ← rec (middleware_base_id callee) mm; Some (found ++ l, mm).
Fixpoint matches_through (fuel : nat) (stack : gset string) (key : string) (mm : memo) : option (list mref * memo) :=
  match mm !! key with
  | Some cached => Some (cached, mm)
  | None =>
    if decide (key ∈ stack) then Some ([], mm)
    else match fuel with
    | 0 => None
    | S fuel =>
      '(found, mm) ← fold_left (scan_edge (matches_through fuel ({[ key ]} ∪ stack))) (mw_edges key) (Some ([], mm));
      let found := dedup_refs found in
      Some (found, <[key := found]> mm)
    end
  end.
(** A sequence of top-level queries, as extraction makes them. *)
Fixpoint query_all (fuel : nat) (keys : list string) (mm : memo) : option memo :=
  match keys with
  | [] => Some mm
  | k :: ks => '(_, mm) ← matches_through fuel ∅ k mm; query_all fuel ks mm
  end.
End through.

(** ** Presets *)
Section presets.
Context {S : Type}.
(** [securityLibraryBundle], config_security.go 125-129. *)
Record bundle := Bundle { bd_imports : list string; bd_mappings : list smapping; bd_schemes : gmap string S }.
(** The fields of [APISpecConfig] concerned. *)
Record scfg := SCfg {
  sc_mappings : list smapping; sc_schemes : gmap string S; sc_preset : gmap string S; sc_applied : bool;
  sc_security : list requirement }.

(** [collectImports], config_security.go 303-326: the import paths of all files, in
    the order the maps happen to deliver them, without blanks, once each, sorted.
    A nil metadata has none. *)
Definition collect_imports (paths : list string) : list string :=
  merge_sort string_le (remove_dups (filter (λ p, p ≠ "") paths)).

(** [anyImportMatches], config_security.go 329-342. *)
Definition any_import_matches (imports regexes : list string) : bool :=
  existsb (λ expr, existsb (λ imp, match re expr imp with Some b => b | None => false end) imports) regexes.

(** One bundle, config_security.go 283-295.  The catalogue keeps an entry that is
    already there, so the order of the range over [bundle.Schemes] cannot matter. *)
Definition apply_bundle (imports : list string) (c : scfg) (b : bundle) : scfg :=
  if any_import_matches imports (bd_imports b)
  then SCfg (sc_mappings c ++ bd_mappings b) (sc_schemes c) (sc_preset c ∪ bd_schemes b) (sc_applied c) (sc_security c)
  else c.
(** [ApplySecurityPresets], config_security.go 267-299; [bundles] is the library
    table followed by the skip table. *)
Definition apply_presets (bundles : list bundle) (c : scfg) (paths : list string) : scfg :=
  if sc_applied c then c
  else match collect_imports paths with
  | [] => c
  | imports =>
    let c := fold_left (apply_bundle imports) bundles c in
    SCfg (sc_mappings c) (sc_schemes c) (sc_preset c) true (sc_security c)
  end.
End presets.
End matching.

(** ** The scheme catalogue *)
Section catalogue.
Context {S : Type}.
(** [collect], mapper.go 348-354, over the document's and every route's requirements
    (a route that inherits has none), mapper.go 355-358. *)
Definition referenced_names (doc : list requirement) (routes : list (list requirement)) : gset string :=
  list_to_set (concat ((λ r : requirement, (map_to_list r).*1) <$> (doc ++ concat routes))).
(** One round of the loop over [referenced], mapper.go 361-370. *)
Definition reconcile_step (preset : gmap string S) (st : gmap string S * list string) (name : string)
  : gmap string S * list string :=
  let '(out, dangling) := st in
  match out !! name with
  | Some _ => st
  | None => match preset !! name with Some d => (<[name := d]> out, dangling) | None => (out, dangling ++ [name]) end
  end.
(** [reconcileSecuritySchemes], mapper.go 340-378: the catalogue and the sorted names
    that are logged. *)
Definition reconcile (iter : list string → list string) (c : @scfg S) (routes : list (list requirement))
  : gmap string S * list string :=
  let '(out, dangling) :=
    fold_left (reconcile_step (sc_preset c)) (iter (elements (referenced_names (sc_security c) routes)))
      (sc_schemes c, []) in
  (out, merge_sort string_le dangling).
End catalogue.

(** ** The library table *)
Inductive preset_scheme := BearerJWT | BasicScheme | APIKeyScheme.
(** The three builders, config_security.go 142-150. *)
Definition preset_mapping (scheme fn pkg : string) : smapping :=
  SMapping fn pkg "" [{[ scheme := [] ]}] [] false false.
Definition p_bearer := preset_mapping "bearerAuth".
Definition p_basic := preset_mapping "basicAuth".
Definition p_apikey := preset_mapping "apiKeyAuth".
(** [securityLibraryBundles], config_security.go 141-210. *)
Definition library_bundles : list (@bundle preset_scheme) :=
  [ Bundle ["^github\.com/labstack/echo(/v\d+)?/middleware$"]
      [p_bearer "^JWT(WithConfig)?$" "^github\.com/labstack/echo(/v\d+)?/middleware$";
       p_basic "^BasicAuth(WithConfig)?$" "^github\.com/labstack/echo(/v\d+)?/middleware$";
       p_apikey "^KeyAuth(WithConfig)?$" "^github\.com/labstack/echo(/v\d+)?/middleware$"]
      (<["bearerAuth" := BearerJWT]> (<["basicAuth" := BasicScheme]> {[ "apiKeyAuth" := APIKeyScheme ]}));
    Bundle ["^github\.com/labstack/echo-jwt(/v\d+)?$"]
      [p_bearer "^(JWT|WithConfig)$" "^github\.com/labstack/echo-jwt(/v\d+)?$"] {[ "bearerAuth" := BearerJWT ]};
    Bundle ["^github\.com/appleboy/gin-jwt(/v\d+)?$"]
      [p_bearer "^MiddlewareFunc$" "^github\.com/appleboy/gin-jwt(/v\d+)?$"] {[ "bearerAuth" := BearerJWT ]};
    Bundle ["^github\.com/gin-gonic/gin$"]
      [p_basic "^BasicAuth(ForRealm)?$" "^github\.com/gin-gonic/gin$"] {[ "basicAuth" := BasicScheme ]};
    Bundle ["^github\.com/gofiber/(contrib/jwt|jwt(/v\d+)?)$"]
      [p_bearer "^New$" "^github\.com/gofiber/(contrib/jwt|jwt(/v\d+)?)$"] {[ "bearerAuth" := BearerJWT ]};
    Bundle ["^github\.com/gofiber/fiber(/v\d+)?/middleware/(basicauth|keyauth)$"]
      [p_basic "^New$" "^github\.com/gofiber/fiber(/v\d+)?/middleware/basicauth$";
       p_apikey "^New$" "^github\.com/gofiber/fiber(/v\d+)?/middleware/keyauth$"]
      (<["basicAuth" := BasicScheme]> {[ "apiKeyAuth" := APIKeyScheme ]});
    Bundle ["^github\.com/golang-jwt/jwt(/v\d+)?$"; "^github\.com/dgrijalva/jwt-go$"]
      [p_bearer "^Parse(WithClaims|FromRequest|FromRequestWithClaims)?$" "^github\.com/(golang-jwt/jwt(/v\d+)?|dgrijalva/jwt-go)$"]
      {[ "bearerAuth" := BearerJWT ]};
    Bundle ["^github\.com/auth0/go-jwt-middleware(/v\d+)?$"]
      [p_bearer "^New$" "^github\.com/auth0/go-jwt-middleware(/v\d+)?$"] {[ "bearerAuth" := BearerJWT ]} ].
