(** * Specification vocabulary for value wrappers. *)
From Coq Require Import Ascii.
From stdpp Require Import base list strings gmap relations.
From Coq Require Import ZArith.
From Verif Require Import StrLib StatModel WrapModel WrapSpec ValModel.

Section spec.
Context (method_of : wmethod → option (list string * (string → list sarg))) (function_of : wmethod → option (string → list sarg)).
Context (m_resp : rspat → wedge → bool) (m_req : rqpat → wedge → bool) (m_par : prpat → wedge → bool) (modpath : string) (embed : wmethod → string).

(** A response pattern a method was described by says no more than another: every role
    it has is there with the same position. *)
Definition within (q r : rspat) : Prop :=
  rs_call q = rs_call r ∧ rs_recv q = rs_recv r ∧
  (rs_status q = true → rs_status r = true ∧ rs_status_idx r = rs_status_idx q) ∧
  (rs_type q = true → rs_type r = true ∧ rs_type_idx r = rs_type_idx q ∧ rs_deref r = rs_deref q) ∧
  (rs_default q ≠ 0%Z → rs_default r = rs_default q).

(** A pattern of the configuration, or one a method found was described by. *)
Definition resp_known (c : vconf) (found : gmap string vwrap) (q : rspat) : Prop :=
  q ∈ vc_resps c ∨ ∃ k d r, found !! k = Some d ∧ vw_resp d = Some r ∧ within q r.
Definition req_known (c : vconf) (found : gmap string vwrap) (q : rqpat) : Prop :=
  q ∈ vc_reqs c ∨ ∃ w d r, found !! method_key w = Some d ∧ vw_req d = Some r ∧ rq_call q = "^" +:+ quote_meta (wm_name w) +:+ "$" ∧ rq_recv q = embed w.
Definition par_known (c : vconf) (found : gmap string vwrap) (q : prpat) : Prop :=
  q ∈ vc_pars c ∨ ∃ w d r, found !! method_key w = Some d ∧ vw_par d = Some r ∧ pr_call q = "^" +:+ quote_meta (wm_name w) +:+ "$" ∧ pr_recv q = embed w.

(** A call in a method that a pattern describes. *)
Definition resp_call (c : vconf) (es : list wedge) (found : gmap string vwrap) (w : wmethod) (e : wedge) (q : rspat) : Prop :=
  e ∈ es ∧ written_in modpath e w ∧ m_resp q e = true ∧ resp_known c found q.
Definition req_call (c : vconf) (es : list wedge) (found : gmap string vwrap) (w : wmethod) (e : wedge) (q : rqpat) : Prop :=
  e ∈ es ∧ written_in modpath e w ∧ m_req q e = true ∧ req_known c found q.
Definition par_call (c : vconf) (es : list wedge) (found : gmap string vwrap) (w : wmethod) (e : wedge) (q : prpat) : Prop :=
  e ∈ es ∧ written_in modpath e w ∧ m_par q e = true ∧ par_known c found q.
(** What a derived wrapper may say about a method, [call] being the calls in it that patterns
    describe. *)
Definition resp_reading (w : wmethod) (call : wedge → rspat → Prop) (r : rspat) : Prop :=
  rs_call r = "^" +:+ quote_meta (wm_name w) +:+ "$" ∧ rs_recv r = embed w ∧ (∃ e q, call e q) ∧
  (rs_status r = true → ∃ e q i, call e q ∧ rs_status q = true ∧ passes method_of function_of w e (rs_status_idx q) i ∧ rs_status_idx r = Z.of_nat i) ∧
  (rs_type r = true → ∃ e q i, call e q ∧ rs_type q = true ∧ passes method_of function_of w e (rs_type_idx q) i ∧ rs_type_idx r = Z.of_nat i ∧ rs_deref r = rs_deref q) ∧
  (rs_default r ≠ 0%Z → ∃ e q, call e q ∧ rs_default q = rs_default r).
Definition req_reading (w : wmethod) (call : wedge → rqpat → Prop) (r : rqpat) : Prop :=
  ∃ e q i, call e q ∧ rq_type q = true ∧ passes method_of function_of w e (rq_type_idx q) i ∧
    r = RqPat ("^" +:+ quote_meta (wm_name w) +:+ "$") (embed w) true (Z.of_nat i) (rq_deref q).
Definition par_reading (w : wmethod) (call : wedge → prpat → Prop) (r : prpat) : Prop :=
  ∃ e q i, call e q ∧ pr_in q ≠ "" ∧ pr_mapkey q = false ∧ passes method_of function_of w e (pr_idx q) i ∧
    r = PrPat ("^" +:+ quote_meta (wm_name w) +:+ "$") (embed w) (pr_in q) (Z.of_nat i) false.
End spec.

(** ** Embedding *)
(** A type of the list embeds another: [u], [*u], [pkg.u] or [*pkg.u] is among its
    embedded fields. *)
Definition embeds (pkg : string) (types : list (string * list string)) (t u : string) : Prop :=
  ∃ es s, (t, es) ∈ types ∧ s ∈ es ∧ (s = u ∨ s = "*" +:+ u ∨ s = pkg +:+ "." +:+ u ∨ s = "*" +:+ pkg +:+ "." +:+ u).
(** The bare name of a type. *)
Definition bare (s : string) : Prop := dotless s ∧ ∀ t, s ≠ "*" +:+ t.
