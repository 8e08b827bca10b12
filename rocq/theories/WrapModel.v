(** * Router wrappers: which parameter an argument comes from
    (internal/spec/wrapper_params.go) and the patterns derived for a project's own
    router type (internal/spec/wrapper_detect.go). *)
From Coq Require Import Ascii.
From stdpp Require Import sorting.
From stdpp Require Import base list strings gmap.
From Coq Require Import ZArith.
From Verif Require Import StrLib StrOrder StrSplit PathModel StatModel.

(** ** Parameters (wrapper_params.go)
    A [CallArgument] is the [sarg] of StatModel.v: name, X, Sel, Fun and Args are
    what is read of it. *)

(** [wrapperExprDepth] and [wrapperAssignHops], wrapper_params.go 44, 50. *)
Definition expr_depth : nat := 6.
Definition assign_hops : nat := 4.

(** [identsIn], wrapper_params.go 177-192. *)
Fixpoint idents_in (depth : nat) (a : sarg) : list string :=
  match depth with
  | 0 => []
  | S depth =>
    (if bool_decide (s_name a ≠ "") then [s_name a] else []) ++
    concat (omap (λ c : option sarg, idents_in depth <$> c) ([s_x a; s_sel a; s_fn a] ++ s_args a))
  end.

(** [matchParam], wrapper_params.go 160-172. *)
Definition match_param (params names : list string) : option nat :=
  head (omap (λ n, if bool_decide (n = "") then None else fst <$> list_find (λ p, p = n) params) names).

(** [wrapperMethod] and its [fqRecv], wrapper_detect.go 277-284. *)
Record wmethod := WMethod { wm_pkg : string; wm_recv : string; wm_name : string }.
Definition fq_recv (w : wmethod) : string := wm_pkg w +:+ "." +:+ wm_recv w.
Definition method_key (w : wmethod) : string := fq_recv w +:+ "." +:+ wm_name w.

Section params.
(** [methodOf], wrapper_params.go 135-157: the parameters of the method in order and
    the values assigned to its variables; and [findFunctionByName] in the package
    and under the name of the method, with the values assigned to the variables of
    the function it finds.  The cache of [paramsOf] is left out. *)
Context (method_of : wmethod → option (list string * (string → list sarg))).
Context (function_of : wmethod → option (string → list sarg)).

(** [paramsOf], wrapper_params.go 98-112. *)
Definition params_of (w : wmethod) : list string := match method_of w with Some (ps, _) => ps | None => [] end.
(** [assignmentsOf], wrapper_params.go 119-132. *)
Definition assignments_of (w : wmethod) (name : string) : list sarg :=
  if bool_decide (name = "") then []
  else
    match (match method_of w with Some (_, asg) => asg name | None => [] end) with
    | [] => match function_of w with Some asg => asg name | None => [] end
    | vs => vs
    end.

(** One hop back, wrapper_params.go 81-92: the names for the next hop and the names
    seen. *)
Fixpoint hop_back (w : wmethod) (names : list string) (seen : gset string) : list string * gset string :=
  match names with
  | [] => ([], seen)
  | n :: names =>
    if bool_decide (n = "" ∨ n ∈ seen) then hop_back w names seen
    else
      let '(next, seen') := hop_back w names ({[ n ]} ∪ seen) in
      (concat (idents_in expr_depth <$> assignments_of w n) ++ next, seen')
  end.
(** The loop of [indexOf], wrapper_params.go 75-94. *)
Fixpoint index_hops (hops : nat) (w : wmethod) (names : list string) (seen : gset string) : option nat :=
  match hops with
  | 0 => None
  | S hops =>
    match names with
    | [] => None
    | _ =>
      match match_param (params_of w) names with
      | Some i => Some i
      | None => let '(next, seen) := hop_back w names seen in index_hops hops w next seen
      end
    end
  end.
(** [indexOf], wrapper_params.go 62-95. *)
Definition index_of (w : wmethod) (arg : option sarg) : option nat :=
  match arg with
  | None => None
  | Some a => if bool_decide (params_of w = []) then None else index_hops assign_hops w (idents_in expr_depth a) ∅
  end.

(** ** Router wrappers (wrapper_detect.go) *)

(** [RoutePattern], config.go: the fields the derivation reads or writes; the other
    conditions of a pattern only matter to the match, which is arbitrary below. *)
Record rpat := RPat {
  rp_call : string; rp_recv : string;
  rp_path : bool; rp_path_idx : Z; rp_handler : bool; rp_handler_idx : Z;
  rp_verb : bool; rp_verb_idx : Z; rp_verb_call : bool; rp_verb_handler : bool; rp_verb_path : bool }.
(** [CallGraphEdge], internal/metadata/types.go: what is read of it. *)
Record wedge := WEdge {
  we_recv : string; we_pkg : string; we_name : string;
  we_callee_pkg : string; we_callee : string; we_args : list (option sarg) }.
(** [DetectedWrapper], wrapper_detect.go 29-54, for a registrar. *)
Record dwrap := DWrap { dw_recv : string; dw_methods : list string; dw_via : string; dw_pat : rpat; dw_complete : bool }.

(** regexp.QuoteMeta. *)
Fixpoint quote_meta (s : string) : string :=
  match s with
  | "" => ""
  | String c s =>
    if bool_decide (c ∈ ["\"; "."; "+"; "*"; "?"; "("; ")"; "|"; "["; "]"; "{"; "}"; "^"; "$"]%char)
    then String "\" (String c (quote_meta s)) else String c (quote_meta s)
  end.
(** [recvTypeRegexForNames], wrapper_detect.go 390-400; with one name it is
    [recvTypeRegexFor], 385-387. *)
Definition recv_regex_names (pkg : string) (names : list string) : string :=
  "^" +:+ quote_meta pkg +:+ "\.\*?" +:+
  match quote_meta <$> names with
  | [n] => n
  | ns => "(" +:+ str_join "|" ns +:+ ")"
  end +:+ "$".
Definition recv_regex (w : wmethod) : string := recv_regex_names (wm_pkg w) [trim_prefix "*" (wm_recv w)].

(** [wrapperMethodOf], wrapper_detect.go 293-303. *)
Definition wrapper_method_of (modpath : string) (e : wedge) : option wmethod :=
  if bool_decide (we_recv e = "") then None
  else if bool_decide (we_pkg e = "") || bool_decide (modpath = "") || negb (has_prefix modpath (we_pkg e)) then None
  else Some (WMethod (we_pkg e) (we_recv e) (we_name e)).

(** [argAt], wrapper_detect.go 713-718, and the same closure in 318-323. *)
Definition arg_at (e : wedge) (i : Z) : option sarg :=
  if bool_decide (i < 0)%Z then None else mjoin (we_args e !! Z.to_nat i).

(** [innerVerbArgIndex], wrapper_detect.go 366-381; [None] is -1. *)
Definition inner_verb_arg_index (p : rpat) : option Z :=
  if rp_verb_call p || rp_verb_handler p || rp_verb_path p then None
  else if rp_verb p then Some (rp_verb_idx p)
  else if rp_path p && bool_decide (rp_verb_idx p = rp_path_idx p) then None
  else if rp_handler p && bool_decide (rp_verb_idx p = rp_handler_idx p) then None
  else Some (rp_verb_idx p).

(** [isHTTPMethod], pattern_matchers.go 392-400, of an upper-cased name. *)
Definition named_for_verb (name : string) : bool :=
  bool_decide (to_upper name ∈ ["GET"; "POST"; "PUT"; "DELETE"; "PATCH"; "OPTIONS"; "HEAD"; "CONNECT"; "TRACE"]).

(** [deriveWrapper], wrapper_detect.go 307-357.  A negative verb index leads to no
    argument, so it needs no case of its own. *)
Definition derive_wrapper (w : wmethod) (inner : rpat) (e : wedge) : dwrap :=
  let path := if rp_path inner then index_of w (arg_at e (rp_path_idx inner)) else None in
  let handler := if rp_handler inner then index_of w (arg_at e (rp_handler_idx inner)) else None in
  let verb := match inner_verb_arg_index inner with Some i => index_of w (arg_at e i) | None => None end in
  let idx (o : option nat) : Z := match o with Some i => Z.of_nat i | None => 0%Z end in
  DWrap (fq_recv w) [wm_name w] (we_callee_pkg e +:+ "." +:+ we_callee e)
    (RPat ("^" +:+ quote_meta (wm_name w) +:+ "$") (recv_regex w)
       (bool_decide (is_Some path)) (idx path) (bool_decide (is_Some handler)) (idx handler)
       (bool_decide (is_Some verb)) (idx verb)
       (bool_decide (verb = None) && named_for_verb (wm_name w)) false false)
    (bool_decide (is_Some path) && bool_decide (is_Some handler)).

(** [matcher.MatchNode] of a pattern on an edge, and CurrentModulePath. *)
Context (matches : rpat → wedge → bool) (modpath : string).

(** The inner loop of [derivationRound], wrapper_detect.go 255-272, on the patterns
    left: the wrapper to record, if any. *)
Fixpoint first_match (w : wmethod) (e : wedge) (seeds : list rpat) (found : gmap string dwrap) : option dwrap :=
  match seeds with
  | [] => None
  | p :: seeds =>
    if matches p e
    then match found !! method_key w with
         | Some _ => first_match w e seeds found
         | None => Some (derive_wrapper w p e)
         end
    else first_match w e seeds found
  end.
(** [derivationRound], wrapper_detect.go 241-275. *)
Fixpoint derivation_round (seeds : list rpat) (es : list wedge) (found : gmap string dwrap) : list rpat * gmap string dwrap :=
  match es with
  | [] => ([], found)
  | e :: es =>
    match wrapper_method_of modpath e with
    | None => derivation_round seeds es found
    | Some w =>
      match first_match w e seeds found with
      | None => derivation_round seeds es found
      | Some d =>
        let '(derived, found') := derivation_round seeds es (<[ method_key w := d ]> found) in
        ((if dw_complete d then [dw_pat d] else []) ++ derived, found')
      end
    end
  end.
(** The rounds of [DetectRouterWrappers], wrapper_detect.go 96-102, and their bound,
    58. *)
Fixpoint derivation_rounds (n : nat) (seeds : list rpat) (es : list wedge) (found : gmap string dwrap) : gmap string dwrap :=
  match n with
  | 0 => found
  | S n =>
    let '(derived, found) := derivation_round seeds es found in
    match derived with [] => found | _ => derivation_rounds n derived es found end
  end.
Definition detect_rounds : nat := 4.
Definition detect_found (seeds : list rpat) (es : list wedge) : gmap string dwrap :=
  derivation_rounds detect_rounds seeds es ∅.
End params.

(** ** Grouping (wrapper_detect.go 457-509) *)

(** The key of a group, wrapper_detect.go 462 and [rolesKey] 493-500: the tuple the
    string is printed from. *)
Definition group_key (d : dwrap) : string * (bool * Z * bool * Z * bool * Z * bool) * bool :=
  (dw_recv d, (rp_path (dw_pat d), rp_path_idx (dw_pat d), rp_handler (dw_pat d), rp_handler_idx (dw_pat d),
               rp_verb (dw_pat d), rp_verb_idx (dw_pat d), rp_verb_call (dw_pat d)), dw_complete d).
Notation gkey := (string * (bool * Z * bool * Z * bool * Z * bool) * bool)%type.
(** The first loop, wrapper_detect.go 461-470, over the wrappers in the order the
    map delivers them. *)
Definition add_to_group (groups : gmap gkey dwrap) (d : dwrap) : gmap gkey dwrap :=
  match groups !! group_key d with
  | None => <[ group_key d := d ]> groups
  | Some g => <[ group_key d := DWrap (dw_recv g) (dw_methods g ++ dw_methods d) (dw_via g) (dw_pat g) (dw_complete g) ]> groups
  end.
(** The second loop, wrapper_detect.go 473-481. *)
Definition finish_group (g : dwrap) : dwrap :=
  let ms := merge_sort string_le (dw_methods g) in
  let p := dw_pat g in
  DWrap (dw_recv g) ms (dw_via g)
    (RPat ("^(" +:+ str_join "|" (quote_meta <$> ms) +:+ ")$") (rp_recv p) (rp_path p) (rp_path_idx p) (rp_handler p) (rp_handler_idx p)
       (rp_verb p) (rp_verb_idx p) (rp_verb_call p) (rp_verb_handler p) (rp_verb_path p))
    (dw_complete g).
(** The order of the result, wrapper_detect.go 484-489. *)
Definition wrap_le (a b : dwrap) : Prop :=
  if decide (dw_recv a = dw_recv b) then string_le (rp_call (dw_pat a)) (rp_call (dw_pat b)) else string_le (dw_recv a) (dw_recv b).
Global Instance wrap_le_dec a b : Decision (wrap_le a b).
Proof. unfold wrap_le. destruct (decide (dw_recv a = dw_recv b)); apply _. Defined.
(** [groupWrappers], wrapper_detect.go 459-491: [iter] and [iter'] are the orders of the two maps. *)
Definition group_wrappers (iter : list (string * dwrap) → list (string * dwrap)) (iter' : list (gkey * dwrap) → list (gkey * dwrap))
    (found : gmap string dwrap) : list dwrap :=
  merge_sort wrap_le (finish_group <$> (iter' (map_to_list (foldl add_to_group ∅ (iter (map_to_list found)).*2))).*2).
