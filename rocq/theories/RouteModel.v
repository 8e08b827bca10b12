(** * Routes: joining paths, choosing between analyses, merging and dropping
    duplicates, selecting a matcher (internal/spec/extractor.go). *)
From Coq Require Import Ascii.
From stdpp Require Import base list strings gmap.
From Verif Require Import StrOrder StrLib StrSplit.

Definition slash : ascii := "/"%char.

(** [joinPaths], extractor.go 2181-2188. *)
Definition join_paths (a b : string) : string :=
  let a := trim_right slash a in
  let b := trim_left slash b in
  if decide (a = "") then "/" +:+ b else a +:+ "/" +:+ b.

(** [mountSegments], extractor.go 429-435. *)
Definition mount_segments (p : string) : list string :=
  let p := trim slash p in
  if decide (p = "") then [] else split_byte slash p.

(** [isSubsequence], extractor.go 439-452: the loop over [b] with the index into
    [a] represented by what is left of [a]. *)
Fixpoint subseq_loop (a b : list string) : bool :=
  match b with
  | [] => false
  | x :: b' =>
    match a with
    | [] => true
    | y :: a' =>
      if decide (x = y) then
        match a' with [] => true | _ => subseq_loop a' b' end
      else subseq_loop a b'
    end
  end.
Definition is_subsequence (a b : list string) : bool :=
  match a with [] => true | _ => subseq_loop a b end.

(** The parts of [Schema], openapi.go 143-177, that decide concreteness; how many
    allOf / oneOf members there are is kept, their contents are in [sc_rest]. *)
Record sch := Sch {
  sc_ref : string; sc_props : list string; sc_allof : nat; sc_oneof : nat; sc_items : bool; sc_rest : string
}.

(** [ResponseInfo], extractor.go 157-192, and [RequestInfo] 137-154, without the
    call site. *)
Record resp := Resp { rp_schema : option sch; rp_body : string; rp_ctype : string; rp_status : Z }.
Record reqi := Reqi { rq_schema : option sch; rq_body : string; rq_ctype : string }.

(** [responseIsConcrete], extractor.go 1646-1652, and [requestIsConcrete],
    extractor.go 1591-1597: the same test on the schema; nil is not concrete. *)
Definition schema_concrete (s : option sch) : bool :=
  match s with
  | None => false
  | Some s =>
    negb (bool_decide (sc_ref s = "")) || Nat.ltb 0 (length (sc_props s)) || Nat.ltb 0 (sc_allof s) || sc_items s
  end.
Definition response_concrete (r : resp) : bool := schema_concrete (rp_schema r).
Definition request_concrete (r : reqi) : bool := schema_concrete (rq_schema r).

(** [preferResponseInfo], extractor.go 1624-1642. *)
Definition prefer_response (cur next : option resp) : option resp :=
  match cur, next with
  | None, _ => next
  | Some _, None => cur
  | Some c, Some n =>
    if eqb (response_concrete n) (response_concrete c) then
      (if string_lt (rp_body n) (rp_body c) then next else cur)
    else if response_concrete n then next else cur
  end.

(** [preferRequestInfo], extractor.go 1572-1587. *)
Definition prefer_request (cur next : option reqi) : option reqi :=
  match cur, next with
  | None, _ => next
  | Some _, None => cur
  | Some c, Some n =>
    if request_concrete n && negb (request_concrete c) then next
    else if request_concrete c && negb (request_concrete n) then cur
    else next
  end.

(** A [SecurityRequirement], openapi.go 255: scheme name to scopes. *)
Notation requirement := (list (string * list string)).

(** [RouteInfo], extractor.go 38-115, reduced to the fields that are compared or
    merged.  [Security] distinguishes nil (None) from empty (Some []). *)
Record route := Route {
  rt_fn : string; rt_method : string; rt_path : string; rt_mount : string;
  rt_used : gmap string (option sch);
  rt_response : gmap string (option resp);
  rt_request : option reqi;
  rt_params : list string;
  rt_tags : list string;
  rt_security : option (list requirement)
}.

(** [mergeRouteExtraction], extractor.go 997-1024.  Each range loop writes every
    key once, so it is a pointwise merge of the two maps. *)
Definition used_merge (e n : option (option sch)) : option (option sch) :=
  match e, n with
  | _, None => e
  | Some (Some s), Some _ => e
  | _, Some _ => n
  end.
Definition response_merge (e n : option (option resp)) : option (option resp) :=
  match n with
  | None => e
  | Some r => Some (prefer_response (default None e) r)
  end.
Definition or_when_empty {A} (e n : list A) : list A := match e with [] => n | _ => e end.
(** [len(existing.Security) == 0] holds of nil and of the empty slice. *)
Definition security_merge (e n : option (list requirement)) : option (list requirement) :=
  match e with Some (_ :: _) => e | _ => n end.
Definition merge_route (e n : route) : route :=
  Route (rt_fn e) (rt_method e) (rt_path e) (rt_mount e)
    (merge used_merge (rt_used e) (rt_used n))
    (merge response_merge (rt_response e) (rt_response n))
    (prefer_request (rt_request e) (rt_request n))
    (or_when_empty (rt_params e) (rt_params n))
    (or_when_empty (rt_tags e) (rt_tags n))
    (security_merge (rt_security e) (rt_security n)).

(** The grouping key, extractor.go 366, 371. *)
Definition same_group (a b : route) : bool :=
  bool_decide (rt_fn a = rt_fn b) && bool_decide (rt_method a = rt_method b) && bool_decide (rt_path a = rt_path b).

(** [drop[i]], extractor.go 377-394: some other route of the group has a strictly
    longer segment list containing this one's.  A route never satisfies the test
    against itself, so [i == j] needs no separate treatment. *)
Definition dropped_in (routes : list route) (r : route) : bool :=
  existsb (λ r', same_group r r' &&
     Nat.ltb (length (mount_segments (rt_mount r))) (length (mount_segments (rt_mount r'))) &&
     is_subsequence (mount_segments (rt_mount r)) (mount_segments (rt_mount r'))) routes.

(** [dropSubsumedMountPrefixes], extractor.go 365-425.  Groups do not interact,
    so the result is the same for every order of the range over [groups]: each
    surviving route absorbs the dropped routes of its group in index order.
    Routes are values here; in Go they are distinct pointers. *)
Definition drop_subsumed (routes : list route) : list route :=
  let dropped := filter (λ r, dropped_in routes r = true) routes in
  let kept := filter (λ r, dropped_in routes r = false) routes in
  (λ k, fold_left merge_route (filter (λ d, same_group k d = true) dropped) k) <$> kept.

(** ** Matcher selection *)

(** A route matcher that accepts the node: its priority and what ExtractRoute
    does ([None]: returns false). *)
Record rmatcher (A : Type) := RMatcher { rm_priority : Z; rm_extract : option A }.
Arguments RMatcher {A}. Arguments rm_priority {A}. Arguments rm_extract {A}.

(** [executeRoutePattern], extractor.go 520-536, over the accepting matchers in
    matcher order.  State: bestPriority, found and the last successful
    extraction.  (Fields a failed extraction may leave in routeInfo are not
    modelled.) *)
Definition route_step {A} (st : Z * bool * option A) (m : rmatcher A) : Z * bool * option A :=
  let '(best, found, info) := st in
  if negb found || Z.ltb best (rm_priority m) then
    match rm_extract m with
    | Some x => (rm_priority m, true, Some x)
    | None => (best, false, info)
    end
  else st.
Definition execute_route {A} (ms : list (rmatcher A)) : bool * option A :=
  let '(_, found, info) := fold_left route_step ms (0%Z, false, None) in (found, info).

(** [executeMountPattern], extractor.go 499-517, over the matching matchers. *)
Definition mount_step {A} (st : Z * option A) (m : Z * A) : Z * option A :=
  match st.2 with
  | None => (m.1, Some m.2)
  | Some _ => if Z.ltb st.1 m.1 then (m.1, Some m.2) else st
  end.
Definition execute_mount {A} (ms : list (Z * A)) : option A := (fold_left mount_step ms (0%Z, None)).2.

(** The mount path handed to nested nodes, extractor.go 839-843. *)
Definition mount_down (mountPath info : string) : string :=
  if decide (info = "") then mountPath
  else if bool_decide (mountPath = "") || negb (has_suffix info mountPath) then join_paths mountPath info
  else mountPath.

(** The mount path a route gets: the prefixes met on the way down, then the
    route's own (extractor.go 911-914; [own] is routeInfo.MountPath). *)
Definition route_mount (prefixes : list string) (own : string) : string :=
  let mp := fold_left mount_down prefixes "" in
  if decide (mp = "") then own else join_paths mp own.

(** [appendUniqueStrings], extractor.go 1056-1077. *)
Fixpoint unique_loop (seen : gset string) (l : list string) : list string :=
  match l with
  | [] => []
  | s :: l' => if decide (s ∈ seen) then unique_loop seen l' else s :: unique_loop ({[s]} ∪ seen) l'
  end.
Definition append_unique (base extras : list string) : list string :=
  match extras with [] => base | _ => unique_loop ∅ (base ++ extras) end.
