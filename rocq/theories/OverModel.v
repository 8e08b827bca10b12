(** * User overrides (internal/spec/extractor.go). *)
From stdpp Require Import base list strings gmap.
From Verif Require Import StrLib DecLib SccModel RouteModel PathModel.

(** [Override] (config.go 664-671). *)
Record override := Override {
  ov_fn : string; ov_summary : string; ov_description : string; ov_status : Z; ov_type : string; ov_tags : list string
}.

(** The fields of [RouteInfo] that overrides read or write; [v_rest] stands for all the
    others.  Response infos are never nil and not shared between keys. *)
Record vroute := VRoute {
  v_fn : string; v_summary : string; v_tags : list string; v_responses : gmap string resp; v_rest : oroute
}.

(** [strings.CutPrefix] with a non-empty rest, as used by [preprocessingBodyType]. *)
Definition cut_mark (mark s : string) : string :=
  if has_prefix mark s && negb (bool_decide (str_drop (String.length mark) s = "")) then str_drop (String.length mark) s else s.
(** [preprocessingBodyType] (extractor.go 2307-2318). *)
Definition body_type (s : string) : string := cut_mark "&" (cut_mark "*" (cut_mark "[]" s)).

Definition set_status (z : Z) (r : resp) : resp := Resp (rp_schema r) (rp_body r) (rp_ctype r) z.
Definition set_body (b : string) (r : resp) : resp := Resp (rp_schema r) b (rp_ctype r) (rp_status r).

(** One turn of the loop of [ApplyOverrides] (extractor.go 3575-3592). *)
Definition apply_override (r : vroute) (o : override) : vroute :=
  if decide (ov_fn o = v_fn r) then
    let summary := if decide (ov_summary o = "") then v_summary r else ov_summary o in
    let responses :=
      if decide (ov_status o = 0%Z) then v_responses r
      else alter (set_status (ov_status o)) (itoa (ov_status o)) (v_responses r) in
    let responses := if decide (ov_type o = "") then responses else set_body (body_type (ov_type o)) <$> responses in
    let tags := match ov_tags o with [] => v_tags r | tags => tags end in
    VRoute (v_fn r) summary tags responses (v_rest r)
  else r.
(** [ApplyOverrides] (extractor.go 3574-3593). *)
Definition apply_overrides (os : list override) (r : vroute) : vroute := foldl apply_override r os.
(** [HasOverride] (extractor.go 3596-3603). *)
Definition has_override (os : list override) (fn : string) : bool := existsb (λ o, bool_decide (ov_fn o = fn)) os.

(** What the document shows of these fields: summary (the doc comment's when empty) and tags
    (mapper.go 410-427) and responses (mapper.go 787-870). *)
Definition shown_summary (doc : string) (r : vroute) : string := if decide (v_summary r = "") then doc else v_summary r.
