(** * Group mounts of a house router (internal/spec/wrapper_detect.go 109-236) and the
    application of what was derived (internal/engine/engine.go 1486-1564). *)
From Coq Require Import Ascii.
From stdpp Require Import sorting.
From stdpp Require Import base list strings gmap.
From Coq Require Import ZArith.
From Verif Require Import StrLib StrOrder PairModel StatModel WrapModel.

(** A parameter of a method's signature: the kinds [groupShape] tells apart
    (KindFuncType, KindIdent), the name and the type, wrapper_detect.go 192-202. *)
Inductive gkind := GFunc | GIdent | GOther.
Record gparam := GParam { gp_kind : gkind; gp_name : string; gp_type : string }.

(** The loop of [groupShape], wrapper_detect.go 191-203: [path] is [None] for -1. *)
Fixpoint group_scan (i : nat) (ps : list gparam) (path : option nat) (f : string) : option nat * string :=
  match ps with
  | [] => (path, f)
  | p :: ps =>
    match gp_kind p with
    | GFunc => group_scan (S i) ps path (if bool_decide (f = "") then gp_name p else f)
    | GIdent =>
      group_scan (S i) ps
        (match path with Some j => Some j | None => if bool_decide (gp_type p = "string") then Some i else None end) f
    | GOther => group_scan (S i) ps path f
    end
  end.
(** [groupShape], wrapper_detect.go 190-205. *)
Definition group_shape (ps : list gparam) : option (nat * string) :=
  match group_scan 0 ps None "" with
  | (Some i, f) => if bool_decide (f = "") then None else Some (i, f)
  | (None, _) => None
  end.

(** [splitFQRecv], wrapper_detect.go 230-236. *)
Definition split_fq (fq : string) : option (string * string) :=
  match split_last "." fq with
  | Some (pkg, recv) => if bool_decide (pkg = "") || bool_decide (recv = "") then None else Some (pkg, recv)
  | None => None
  end.

(** The part of [DetectedWrapper] a mount fills, wrapper_detect.go 164-176; the
    constant fields are left out. *)
Record gmount := GMount { mt_recv : string; mt_name : string; mt_call : string; mt_regex : string; mt_path : nat }.
(** The order of the mounts, wrapper_detect.go 179-184. *)
Definition mount_le (a b : gmount) : Prop :=
  if decide (mt_recv a = mt_recv b) then string_le (mt_name a) (mt_name b) else string_le (mt_recv a) (mt_recv b).
Global Instance mount_le_dec a b : Decision (mount_le a b).
Proof. unfold mount_le. destruct (decide (mt_recv a = mt_recv b)); apply _. Defined.

Section mounts.
(** [methodsOf], wrapper_detect.go 208-227, for a package and a bare type name: the
    names and parameters of the methods in file order. *)
Context (methods_of : string → string → list (string * list gparam)).
(** The call graph. *)
Context (es : list wedge).

(** [types], wrapper_detect.go 122-127; no router carries a mount. *)
Definition router_types (routers : list dwrap) : gset string :=
  list_to_set (dw_recv <$> filter (λ w, dw_complete w = true) routers).
(** [calls[key][callee]], wrapper_detect.go 134-146. *)
Definition calls_by_name (key callee : string) : bool :=
  existsb (λ e, negb (bool_decide (we_recv e = "")) &&
                bool_decide (we_pkg e +:+ "." +:+ we_recv e +:+ "." +:+ we_name e = key) && bool_decide (we_callee e = callee)) es.
(** The body of the loop over the types, wrapper_detect.go 150-177. *)
Definition mounts_of (fq : string) : list gmount :=
  match split_fq fq with
  | None => []
  | Some (pkg, recv) =>
    omap (λ m : string * list gparam,
      match group_shape m.2 with
      | None => None
      | Some (i, f) =>
        if calls_by_name (fq +:+ "." +:+ m.1) f
        then Some (GMount fq m.1 ("^" +:+ quote_meta m.1 +:+ "$") (recv_regex (WMethod pkg recv m.1)) i)
        else None
      end) (methods_of pkg (trim_prefix "*" recv))
  end.
(** [detectGroupMounts], wrapper_detect.go 121-186; [iter] is the order of the map. *)
Definition group_mounts (iter : list string → list string) (routers : list dwrap) : list gmount :=
  merge_sort mount_le (concat (mounts_of <$> iter (elements (router_types routers)))).
End mounts.

(** ** Applying what was derived *)
(** [addPatternOnce], engine.go 1555-1564. *)
Definition add_once {A} (identity : A → string * string) (l : list A) (x : A) : list A * bool :=
  if existsb (λ y, bool_decide (identity y = identity x)) l then (l, false) else (x :: l, true).

Section apply.
(** The five kinds of patterns, with the call and receiver expressions of each, and
    whether a response pattern has a role (TypeFromArg or StatusFromArg). *)
Context {M R Q P T : Type} (idM : M → string * string) (idR : R → string * string) (idQ : Q → string * string)
  (idP : P → string * string) (idT : T → string * string) (described : R → bool).
(** [DetectedWrapper], wrapper_detect.go 29-54, and the pattern lists of the framework
    configuration. *)
Record awrap := AWrap { aw_complete : bool; aw_mount : option M; aw_resp : option R; aw_req : option Q; aw_param : option P; aw_route : T }.
Record fwconf := FwConf { fc_mounts : list M; fc_resps : list R; fc_reqs : list Q; fc_params : list P; fc_routes : list T }.

(** One optional role: the list and how many were added. *)
Definition add_role {A} (identity : A → string * string) (l : list A) (x : option A) : list A * nat :=
  match x with
  | None => (l, 0)
  | Some x => let '(l, b) := add_once identity l x in (l, if b then 1 else 0)
  end.
(** The response that counts, engine.go 1517. *)
Definition resp_role (w : awrap) : option R := match aw_resp w with Some r => if described r then Some r else None | None => None end.
(** [roled], engine.go 1507-1546. *)
Definition route_role (w : awrap) : option T :=
  match aw_mount w, resp_role w, aw_req w, aw_param w with None, None, None, None => Some (aw_route w) | _, _, _, _ => None end.
(** The body of the loop, engine.go 1504-1546. *)
Definition apply_one (c : fwconf * nat) (w : awrap) : fwconf * nat :=
  if aw_complete w then
    let '(ms, n1) := add_role idM (fc_mounts c.1) (aw_mount w) in
    let '(rs, n2) := add_role idR (fc_resps c.1) (resp_role w) in
    let '(qs, n3) := add_role idQ (fc_reqs c.1) (aw_req w) in
    let '(ps, n4) := add_role idP (fc_params c.1) (aw_param w) in
    let '(ts, n5) := add_role idT (fc_routes c.1) (route_role w) in
    (FwConf ms rs qs ps ts, c.2 + n1 + n2 + n3 + n4 + n5)
  else c.
(** [applyDetectedWrappers], engine.go 1501-1549. *)
Definition apply_wrappers (c : fwconf) (ws : list awrap) : fwconf * nat := foldl apply_one (c, 0) ws.
End apply.
Arguments AWrap {_ _ _ _ _}.
Arguments FwConf {_ _ _ _ _}.

(** The registrars of one run, engine.go 765-766: derive, then apply the complete
    ones.  Mounts and value wrappers are left out. *)
Definition route_run (method_of : wmethod → option (list string * (string → list sarg))) (function_of : wmethod → option (string → list sarg))
    (matches : rpat → wedge → bool) (modpath : string) (es : list wedge) (config : list rpat) : list rpat :=
  foldl (λ l w, if dw_complete w then (add_once (λ p, (rp_call p, rp_recv p)) l (dw_pat w)).1 else l) config
    (group_wrappers id id (detect_found method_of function_of matches modpath config es)).
