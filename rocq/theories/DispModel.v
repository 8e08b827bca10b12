(** * Splitting one registration into several verbs (internal/spec/method_dispatch.go,
    internal/metadata/method_dispatch.go). *)
From Coq Require Import Ascii.
From stdpp Require Import base list strings gmap.
From Verif Require Import StrLib PathModel PairModel.

(** [MethodBranch] (internal/metadata/types.go 960-964): the verbs of one arm and its lines. *)
Record branch := Branch { br_methods : list string; br_start : nat; br_end : nat }.

Section disp.
  (** [B] is the rest of a response or request, [R] the rest of a route; both are only copied. *)
  Context {B R : Type}.
  (** A [ResponseInfo] or [RequestInfo] (extractor.go 140-175) with its call site. *)
  Record located := Located { lo_file : string; lo_line : nat; lo_body : B }.
  (** [RouteInfo] (extractor.go 40-135): the fields these passes touch. *)
  Record route := Route {
    rt_package : string; rt_function : string; rt_method : string; rt_explicit : bool;
    rt_suffix : string; rt_extra : list string;
    rt_response : gmap string (option located); rt_request : option located; rt_rest : R }.

  (** The first loop of [splitRouteByMethodBranches] (method_dispatch.go 76-88): the verbs in
      order of first mention, each with the line ranges of its branches. *)
  Definition note_verb (b : branch) (acc : list string * gmap string (list (nat * nat))) (m : string) :=
    let '(order, ranges) := acc in
    (match ranges !! m with Some _ => order | None => order ++ [m] end,
     <[m := default [] (ranges !! m) ++ [(br_start b, br_end b)]]> ranges).
  Definition collect (bs : list branch) : list string * gmap string (list (nat * nat)) :=
    foldl (λ acc b, foldl (note_verb b) acc (br_methods b)) ([], ∅) bs.

  (** [insideHandler], [inRanges], [belongsTo] (method_dispatch.go 93-114). *)
  Definition inside_handler (handler_file file : string) (line : nat) : bool :=
    negb (bool_decide (handler_file = "")) && bool_decide (0 < line) && bool_decide (file = handler_file).
  Definition in_ranges (rs : list (nat * nat)) (line : nat) : bool :=
    existsb (λ r, bool_decide (r.1 ≤ line) && bool_decide (line ≤ r.2)) rs.
  Definition belongs_to (handler_file : string) (rs : list (nat * nat)) (x : located) : bool :=
    if negb (inside_handler handler_file (lo_file x) (lo_line x)) then true else in_ranges rs (lo_line x).

  (** The route of one verb (method_dispatch.go 118-133). *)
  Definition verb_route (rt : route) (handler_file : string) (rs : list (nat * nat)) (m : string) : route :=
    Route (rt_package rt) (rt_function rt) m (rt_explicit rt) m (rt_extra rt)
      (omap (λ o, match o with Some r => if belongs_to handler_file rs r then Some (Some r) else None | None => None end) (rt_response rt))
      (match rt_request rt with Some r => if belongs_to handler_file rs r then Some r else None | None => None end)
      (rt_rest rt).
  (** [splitRouteByMethodBranches] (method_dispatch.go 76-136). *)
  Definition split_route (rt : route) (bs : list branch) (handler_file : string) : list route :=
    let '(order, ranges) := collect bs in
    match order with
    | [] => [rt]
    | _ => (λ m, verb_route rt handler_file (default [] (ranges !! m)) m) <$> order
    end.

  (** [fileOfPosition] (method_dispatch.go 141-152). *)
  Definition file_of_position (pos : string) : string :=
    match split_last ":" pos with
    | None => pos
    | Some (rest, _) => match split_last ":" rest with None => rest | Some (file, _) => file end
    end.
  (** [methodDispatchFor] (method_dispatch.go 52-72). [find] is [findFunctionByName] on the
      metadata of the route: the branches and the position of the function. *)
  Definition dispatch_for (find : string → string → option (list branch * string)) (rt : route) : list branch * string :=
    if bool_decide (rt_function rt = "") then ([], "")
    else if rt_explicit rt then ([], "")
    else
      let bare := if bool_decide (rt_package rt = "") then rt_function rt else trim_prefix (rt_package rt +:+ ".") (rt_function rt) in
      match find (rt_package rt) bare with
      | None => ([], "")
      | Some (bs, pos) => match bs with [] => ([], "") | _ => (bs, file_of_position pos) end
      end.
  (** [splitMethodDispatchRoutes] (method_dispatch.go 36-47). *)
  Definition split_routes find (rts : list route) : list route :=
    flat_map (λ rt, let '(bs, file) := dispatch_for find rt in match bs with [] => [rt] | _ => split_route rt bs file end) rts.

  (** [expandMultiVerbRoutes] (method_dispatch.go 163-180). *)
  Definition expand_route (rt : route) : list route :=
    match rt_extra rt with
    | [] => [rt]
    | extra => (λ m, Route (rt_package rt) (rt_function rt) m (rt_explicit rt) m [] (rt_response rt) (rt_request rt) (rt_rest rt)) <$> (rt_method rt :: extra)
    end.
  Definition expand_routes (rts : list route) : list route := flat_map expand_route rts.

  (** The operation identifier (mapper.go 398-405); [base] stands for the text computed from
      the package and the function. *)
  Definition operation_id (base : string → string → string) (rt : route) : string :=
    let id := base (rt_package rt) (rt_function rt) in
    if bool_decide (rt_suffix rt = "") then id else id +:+ "_" +:+ rt_suffix rt.
End disp.
Arguments located : clear implicits.
Arguments route : clear implicits.

(** ** Finding the branches (internal/metadata/method_dispatch.go)

    The statements of a handler. A site is a line with a call that writes a response or reads the
    request. [Nest] is any other compound statement. [Choice] is an if/else-if chain or a switch:
    its arms, each with the lines its range is taken from, and its else or default part; [sw]
    holds of a switch on the method of the request. An arm is guarded by comparing the method with
    some operands, [Is ops] (a constant string, or [None] for any other expression), or by
    anything else. Conditions, initialisers and tags hold no site; a switch on something else has
    only [Other] guards. *)
Inductive test := Other | Is (ops : list (option string)).
Inductive stmt :=
| Site (line : nat)
| Nest (body : list stmt)
| Choice (sw : bool) (arms : list (test * (nat * nat) * list stmt)) (rest : list stmt).

(** [httpMethodVerbs] (internal/metadata/method_dispatch.go 26-29). *)
Definition http_verbs : list string := ["GET"; "POST"; "PUT"; "DELETE"; "PATCH"; "HEAD"; "OPTIONS"; "CONNECT"; "TRACE"].
(** [constMethodVerb] (method_dispatch.go 105-115), ASCII upper-casing. *)
Definition const_verb (op : option string) : option string :=
  match op with
  | Some raw => let v := to_upper raw in if bool_decide (v ∈ http_verbs) then Some v else None
  | None => None
  end.
(** [caseMethodVerbs] (method_dispatch.go 93-101) and [ifMethodEqVerb] (143-155). *)
Definition guard_verbs (g : test) : list string := match g with Is ops => omap const_verb ops | Other => [] end.
(** The branches of the arms of one statement (method_dispatch.go 52-68, 120-134): arms that name
    no verb give none. *)
Definition arm_branches (arms : list (test * (nat * nat) * list stmt)) : list branch :=
  omap (λ a, match guard_verbs a.1.1 with [] => None | vs => Some (Branch vs a.1.2.1 a.1.2.2) end) arms.
(** [detectMethodDispatch] (method_dispatch.go 43-78) with [methodIfBranches] (120-139): a switch
    on the method is never entered, a chain only when none of its arms names a verb. *)
Fixpoint detect (s : stmt) : list branch :=
  match s with
  | Site _ => []
  | Nest body => flat_map detect body
  | Choice sw arms rest =>
      let found := arm_branches arms in
      if sw then found
      else match found with
           | [] => flat_map (λ a, flat_map detect a.2) arms ++ flat_map detect rest
           | _ => found
           end
  end.
Definition detect_body (body : list stmt) : list branch := flat_map detect body.
