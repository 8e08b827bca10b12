(** * Merging framework configurations (internal/spec/config_merge.go) and what a
    pattern matches (pattern_matchers.go, recv_forms.go, call_scope.go). *)
From Coq Require Import Ascii.
From stdpp Require Import base list strings gmap.
From Verif Require Import StrLib StrSplit RouteModel.

(** The fields shared by RoutePattern, RequestBodyPattern, ResponsePattern,
    ParamPattern, MountPattern and SecurityPattern (config.go 251-560).
    [p_kind] is ParamIn for parameters and Scope for security patterns, [p_lists]
    the four caller/callee filter lists, [p_hints] all extraction hints. *)
Record pat := Pat {
  p_call : string; p_fn : string; p_recv : string; p_recvrx : string;
  p_kind : string;
  p_lists : list string * list string * list string * list string;
  p_hints : string
}.

(** APISpecConfig (config.go 562-600), the parts MergeFrameworkConfigs touches;
    [c_rest] is everything it leaves to the primary. *)
Record cfg := Cfg {
  c_routes : list pat; c_reqs : list pat; c_resps : list pat; c_params : list pat;
  c_mounts : list pat; c_secs : list pat;
  c_ext : list (string * string);
  c_typerx : list string; c_bodyacc : list string;
  c_implicit : Z;
  c_rest : string
}.

Definition nul : ascii := Ascii.zero.
(** [patternKey], config_merge.go 319-321. *)
Definition pattern_key (parts : list string) : string := str_join (String nul "") parts.
(** [routePatternKey], config_merge.go 315-317. *)
Definition route_key (p : pat) : string := pattern_key [p_call p; p_fn p; p_recv p; p_recvrx p].
(** The key of request-body, response and mount patterns, config_merge.go 224, 228, 236. *)
Definition short_key (p : pat) : string := pattern_key [p_call p; p_recvrx p; ""].
(** The key of parameter patterns, config_merge.go 232. *)
Definition param_key (p : pat) : string :=
  pattern_key [p_call p; p_recvrx p +:+ String nul "" +:+ p_recv p; p_kind p].
(** The key of security patterns, config_merge.go 240. *)
Definition sec_key (p : pat) : string := pattern_key [p_call p; p_recvrx p; p_kind p].

(** One of the loops of config_merge.go 251-296: append what is not yet seen. *)
Definition append_new {A} (key : A → string) (acc : gset string * list A) (p : A) : gset string * list A :=
  if decide (key p ∈ acc.1) then acc else ({[key p]} ∪ acc.1, acc.2 ++ [p]).
(** The [seen] map and the list through all secondaries; the seen map starts with
    the primary's keys, config_merge.go 218-245. *)
Definition merge_list {A} (key : A → string) (primary : list A) (secondaries : list (list A)) : list A :=
  (fold_left (λ st l, fold_left (append_new key) l st) secondaries
     (list_to_set (key <$> primary) : gset string, primary)).2.

(** [MergeFrameworkConfigs], config_merge.go 214-309.  The loops for the different
    lists do not interact, so each list is merged over all secondaries.  A nil
    primary or secondary is outside the model (nil secondaries are skipped). *)
Definition merge_configs (primary : cfg) (secs : list cfg) : cfg :=
  Cfg (merge_list route_key (c_routes primary) (c_routes <$> secs))
      (merge_list short_key (c_reqs primary) (c_reqs <$> secs))
      (merge_list short_key (c_resps primary) (c_resps <$> secs))
      (merge_list param_key (c_params primary) (c_params <$> secs))
      (merge_list short_key (c_mounts primary) (c_mounts <$> secs))
      (merge_list sec_key (c_secs primary) (c_secs <$> secs))
      (merge_list fst (c_ext primary) (c_ext <$> secs))
      (fold_left append_unique (c_typerx <$> secs) (c_typerx primary))
      (fold_left append_unique (c_bodyacc <$> secs) (c_bodyacc primary))
      (fold_left (λ cur s, if decide (cur = 0%Z) then s else cur) (c_implicit <$> secs) (c_implicit primary))
      (c_rest primary).

(** [SecondaryView], config_merge.go 154-202: the scoped patterns. *)
Definition scoped (p : pat) : Prop := p_recv p ≠ "" ∨ p_recvrx p ≠ "".
Global Instance scoped_dec p : Decision (scoped p).
Proof. unfold scoped. apply _. Defined.
Definition secondary_view (c : cfg) : cfg :=
  Cfg (filter scoped (c_routes c)) (filter scoped (c_reqs c)) (filter scoped (c_resps c))
      (filter scoped (c_params c)) (filter scoped (c_mounts c)) (filter scoped (c_secs c))
      (c_ext c) (c_typerx c) (c_bodyacc c) (c_implicit c) "".

(** A call: its name, the enclosing function's name, its receiver forms (recorded
    first, then as written) and the four values of matchCallScope. *)
Record call := Call {
  k_name : string; k_caller : string; k_forms : list string;
  k_scope : string * string * string * string
}.

(** [matchesAny], call_scope.go 80-93; [rx pattern value] is regexp matching, false
    for a pattern that does not compile. *)
Definition matches_any (rx : string → string → bool) (patterns : list string) (value : string) : bool :=
  match patterns with
  | [] => true
  | _ => existsb (λ p, negb (bool_decide (p = "")) && rx p value) patterns
  end.
(** [matchCallScope], call_scope.go 61-73. *)
Definition match_scope (rx : string → string → bool) (p : pat) (c : call) : bool :=
  let '(l1, l2, l3, l4) := p_lists p in
  let '(v1, v2, v3, v4) := k_scope c in
  matches_any rx l1 v1 && matches_any rx l2 v2 && matches_any rx l3 v3 && matches_any rx l4 v4.
(** [matchesRecvType], recv_forms.go 67-95. *)
Definition matches_recv (rx : string → string → bool) (forms : list string) (exact regex : string) : bool :=
  if bool_decide (regex = "") && bool_decide (exact = "") then true
  else
    let forms := match forms with [] => [""] | _ => forms end in
    if bool_decide (regex = "") then existsb (λ f, bool_decide (exact = f)) forms
    else existsb (rx regex) forms.
(** [MatchNode] of route, request, security (pattern_matchers.go 417-452, 952-995,
    808-840) and response matchers, for a node with an edge.  The mount matcher
    adds a gate on the router argument and IsMount. *)
Definition matches (rx : string → string → bool) (p : pat) (c : call) : bool :=
  match_scope rx p c &&
  (bool_decide (p_call p = "") || rx (p_call p) (k_name c)) &&
  (bool_decide (p_fn p = "") || rx (p_fn p) (k_caller c)) &&
  matches_recv rx (k_forms c) (p_recv p) (p_recvrx p).
