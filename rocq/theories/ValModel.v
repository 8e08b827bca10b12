(** * Value wrappers: a project's own responders, decoders and parameter readers
    (internal/spec/wrapper_detect.go 402-455, 511-718). *)
From Coq Require Import Ascii.
From stdpp Require Import sorting.
From stdpp Require Import base list strings gmap.
From Coq Require Import ZArith.
From Verif Require Import StrLib StrOrder PathModel StatModel WrapModel.

(** [ResponsePattern], [RequestBodyPattern] and [ParamPattern], config.go 271-420: the
    fields the derivation reads or writes. *)
Record rspat := RsPat { rs_call : string; rs_recv : string; rs_status : bool; rs_status_idx : Z; rs_type : bool; rs_type_idx : Z; rs_deref : bool; rs_default : Z }.
Record rqpat := RqPat { rq_call : string; rq_recv : string; rq_type : bool; rq_type_idx : Z; rq_deref : bool }.
Record prpat := PrPat { pr_call : string; pr_recv : string; pr_in : string; pr_idx : Z; pr_mapkey : bool }.
(** [DetectedWrapper], wrapper_detect.go 29-54, of a value wrapper. *)
Record vwrap := VWrap { vw_recv : string; vw_name : string; vw_via : string; vw_resp : option rspat; vw_req : option rqpat; vw_par : option prpat; vw_complete : bool }.
(** The three lists of patterns a round works with. *)
Record vconf := VConf { vc_resps : list rspat; vc_reqs : list rqpat; vc_pars : list prpat }.

Section values.
Context (method_of : wmethod → option (list string * (string → list sarg))) (function_of : wmethod → option (string → list sarg)).
(** [MatchNode] of the three kinds of patterns, CurrentModulePath, and the receiver
    expression of [embeddingRecvRegex]. *)
Context (m_resp : rspat → wedge → bool) (m_req : rqpat → wedge → bool) (m_par : prpat → wedge → bool) (modpath : string) (embed : wmethod → string).
Notation index w e i := (index_of method_of function_of w (arg_at e i)).

(** [wrapperShell], wrapper_detect.go 624-635. *)
Definition shell (by_method : gmap string vwrap) (w : wmethod) (e : wedge) : vwrap :=
  match by_method !! method_key w with
  | Some d => d
  | None => VWrap (fq_recv w) (wm_name w) (we_callee_pkg e +:+ "." +:+ we_callee e) None None None false
  end.
Definition call_regex (w : wmethod) : string := "^" +:+ quote_meta (wm_name w) +:+ "$".

(** The roles of one inner response call, wrapper_detect.go 650-663. *)
Definition merge_roles (r : rspat) (w : wmethod) (inner : rspat) (e : wedge) : rspat :=
  let r := if rs_status inner && negb (rs_status r) then
      match index w e (rs_status_idx inner) with
      | Some i => RsPat (rs_call r) (rs_recv r) true (Z.of_nat i) (rs_type r) (rs_type_idx r) (rs_deref r) (rs_default r)
      | None => r
      end else r in
  let r := if rs_type inner && negb (rs_type r) then
      match index w e (rs_type_idx inner) with
      | Some i => RsPat (rs_call r) (rs_recv r) (rs_status r) (rs_status_idx r) true (Z.of_nat i) (rs_deref inner) (rs_default r)
      | None => r
      end else r in
  if negb (bool_decide (rs_default inner = 0%Z)) && bool_decide (rs_default r = 0%Z)
  then RsPat (rs_call r) (rs_recv r) (rs_status r) (rs_status_idx r) (rs_type r) (rs_type_idx r) (rs_deref r) (rs_default inner)
  else r.
(** [mergeResponseRoles], wrapper_detect.go 640-668. *)
Definition merge_response (by_method : gmap string vwrap) (w : wmethod) (inner : rspat) (e : wedge) : gmap string vwrap :=
  let d := shell by_method w e in
  let r := match vw_resp d with Some r => r | None => RsPat (call_regex w) (embed w) false 0 false (-1) false 0 end in
  let r := merge_roles r w inner e in
  <[ method_key w := VWrap (vw_recv d) (vw_name d) (vw_via d) (Some r) (vw_req d) (vw_par d) (rs_type r) ]> by_method.
(** [deriveRequestWrapper], wrapper_detect.go 672-689. *)
Definition derive_request (by_method : gmap string vwrap) (w : wmethod) (inner : rqpat) (e : wedge) : gmap string vwrap :=
  if rq_type inner then
    match index w e (rq_type_idx inner) with
    | None => by_method
    | Some i =>
      let d := shell by_method w e in
      <[ method_key w := VWrap (vw_recv d) (vw_name d) (vw_via d) (vw_resp d)
           (Some (RqPat (call_regex w) (embed w) true (Z.of_nat i) (rq_deref inner))) (vw_par d) true ]> by_method
    end
  else by_method.
(** [deriveParamWrapper], wrapper_detect.go 694-710. *)
Definition derive_param (by_method : gmap string vwrap) (w : wmethod) (inner : prpat) (e : wedge) : gmap string vwrap :=
  if bool_decide (pr_in inner = "") || pr_mapkey inner then by_method
  else
    match index w e (pr_idx inner) with
    | None => by_method
    | Some i =>
      let d := shell by_method w e in
      <[ method_key w := VWrap (vw_recv d) (vw_name d) (vw_via d) (vw_resp d) (vw_req d)
           (Some (PrPat (call_regex w) (embed w) (pr_in inner) (Z.of_nat i) false)) true ]> by_method
    end.

(** The body of the loop over the edges, wrapper_detect.go 592-619. *)
Definition value_edge (c : vconf) (by_method : gmap string vwrap) (e : wedge) : gmap string vwrap :=
  match wrapper_method_of modpath e with
  | None => by_method
  | Some w =>
    let by_method := foldl (λ m q, if m_resp q e then merge_response m w q e else m) by_method (vc_resps c) in
    let by_method := foldl (λ m q, if m_req q e then derive_request m w q e else m) by_method (vc_reqs c) in
    foldl (λ m q, if m_par q e then derive_param m w q e else m) by_method (vc_pars c)
  end.
(** [detectValueRound], wrapper_detect.go 577-621. *)
Definition value_round (c : vconf) (es : list wedge) (by_method : gmap string vwrap) : gmap string vwrap := foldl (value_edge c) by_method es.

(** [seedsFrom], wrapper_detect.go 557-573; [iter] is the order of the map. *)
Definition seeds_from (iter : list (string * vwrap) → list (string * vwrap)) (by_method : gmap string vwrap) : vconf :=
  let ws := filter (λ d, vw_complete d = true) (iter (map_to_list by_method)).*2 in
  VConf (omap vw_resp ws)
    (omap (λ d, match vw_resp d with Some _ => None | None => vw_req d end) ws)
    (omap (λ d, match vw_resp d, vw_req d with None, None => vw_par d | _, _ => None end) ws).
(** The rounds of [detectValueWrappers], wrapper_detect.go 533-541; every round reads
    the map in an order of its own. *)
Fixpoint value_rounds (n : nat) (iters : nat → list (string * vwrap) → list (string * vwrap)) (c : vconf) (es : list wedge)
    (by_method : gmap string vwrap) : gmap string vwrap :=
  match n with
  | 0 => by_method
  | S n =>
    let by_method' := value_round c es by_method in
    if bool_decide (size by_method' = size by_method) then by_method'
    else value_rounds n iters (seeds_from (iters n) by_method') es by_method'
  end.
Definition value_found (iters : nat → list (string * vwrap) → list (string * vwrap)) (c : vconf) (es : list wedge) : gmap string vwrap :=
  value_rounds detect_rounds iters c es ∅.
End values.

(** The result, wrapper_detect.go 543-553: sorted by receiver and name. *)
Definition value_le (a b : vwrap) : Prop :=
  if decide (vw_recv a = vw_recv b) then string_le (vw_name a) (vw_name b) else string_le (vw_recv a) (vw_recv b).
Global Instance value_le_dec a b : Decision (value_le a b).
Proof. unfold value_le. destruct (decide (vw_recv a = vw_recv b)); apply _. Defined.
Definition value_wrappers (iter : list (string * vwrap) → list (string * vwrap)) (by_method : gmap string vwrap) : list vwrap :=
  merge_sort value_le (iter (map_to_list by_method)).*2.

(** ** Embedding types (wrapper_detect.go 402-455) *)
(** The types of a package in the order they are scanned (files sorted, then types
    sorted): the name and the names of the embedded types. *)
Section embedding.
Context (pkg : string) (types : list (string * list string)).
(** [strings.TrimPrefix(strings.TrimPrefix(name, "*"), w.pkg+".")], wrapper_detect.go 430. *)
Definition embedded_name (s : string) : string := trim_prefix (pkg +:+ ".") (trim_prefix "*" s).
(** One scan, wrapper_detect.go 421-438: the names and whether they grew. *)
Fixpoint embed_scan (ts : list (string * list string)) (names : list string) : list string * bool :=
  match ts with
  | [] => (names, false)
  | (t, embeds) :: ts =>
    if bool_decide (t ∈ names) then embed_scan ts names
    else if existsb (λ s, bool_decide (embedded_name s ∈ names)) embeds
    then ((embed_scan ts (names ++ [t])).1, true)
    else embed_scan ts names
  end.
(** The rounds, wrapper_detect.go 420-442. *)
Fixpoint embed_rounds (n : nat) (names : list string) : list string :=
  match n with
  | 0 => names
  | S n => let '(names', grew) := embed_scan types names in if grew then embed_rounds n names' else names'
  end.
(** [embeddingRecvRegex], wrapper_detect.go 411-445: the names, and the expression. *)
Definition embedding_names (recv : string) : list string := merge_sort string_le (embed_rounds detect_rounds [trim_prefix "*" recv]).
Definition embedding_regex (recv : string) : string := recv_regex_names pkg (embedding_names recv).
End embedding.
