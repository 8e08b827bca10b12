(** * Pairing response fragments (internal/spec/extractor.go), source positions
    (internal/metadata/position.go). *)
From Coq Require Import Ascii.
From stdpp Require Import base numbers list strings gmap.
From Verif Require Import StrOrder StrLib StrSplit DecLib StableSort IdModel RouteModel.

(** [chainSep], extractor.go 1115. *)
Definition chain_sep : ascii := "031"%char.

(** [candidateKey], extractor.go 1127-1144. *)
Definition key_part (frame : string) : string := itoa_nat (String.length frame) +:+ String ":" frame.
Fixpoint write_parts (chain : list string) : string :=
  match chain with [] => "" | frame :: chain => key_part frame +:+ write_parts chain end.
Definition candidate_key (chain : list string) (callee : string) : string :=
  write_parts chain +:+ key_part callee.

(** [frameChainKey], extractor.go 1146-1158, for a node with an edge whose caller
    has base identity [caller_base]: the loop from the innermost frame outwards,
    on the reversed chain. *)
Fixpoint frame_scan (caller_base : string) (rev_chain : list string) : string :=
  match rev_chain with
  | [] => ""
  | f :: outer =>
    if decide (strip_to_base f = caller_base) then str_join (String chain_sep "") (reverse rev_chain)
    else frame_scan caller_base outer
  end.
Definition frame_chain_key (chain : list string) (caller_base : string) : string :=
  frame_scan caller_base (reverse chain).

(** strings.LastIndexByte together with the two slices around the byte found. *)
Fixpoint split_last (c : ascii) (s : string) : option (string * string) :=
  match s with
  | "" => None
  | String x s =>
    match split_last c s with
    | Some (a, b) => Some (String x a, b)
    | None => if decide (x = c) then Some ("", s) else None
    end
  end.

(** [calleePosition], extractor.go 1542-1565, on the callee's instance identity. *)
Definition callee_position (id : string) : string * Z * Z :=
  match split_last "@" id with
  | None => (id, 0%Z, 0%Z)
  | Some (_, pos) =>
    match split_last ":" pos with
    | None => (pos, 0%Z, 0%Z)
    | Some (rest, c) =>
      match split_last ":" rest with
      | None => (rest, 0%Z, atoi c)
      | Some (file, l) => (file, atoi l, atoi c)
      end
    end
  end.

(** [formatPosition], position.go 176-196; [token.Position.IsValid] is [Line > 0]. *)
Definition format_position (file : string) (line col : Z) : string :=
  if bool_decide (0 < line)%Z then
    (if decide (file = "") then "" else file +:+ ":") +:+ itoa line +:+
    (if decide (col = 0%Z) then "" else ":" +:+ itoa col)
  else if decide (file = "") then "-" else file.

(** [fragment], extractor.go 1344-1351.  [ResponseInfo]'s ImplicitStatus and
    StatusUnresolved are here because [resp] leaves them out; File and Line of the
    response are the fragment's own. *)
Record frag := Frag {
  fr_resp : resp; fr_implicit : Z; fr_unres : bool;
  fr_chain : string; fr_caller : string; fr_pos : string * Z * Z
}.
Definition fr_status (f : frag) : Z := rp_status (fr_resp f).
Definition fr_body (f : frag) : string := rp_body (fr_resp f).
(** [resp.StatusCode = z]. *)
Definition with_status (z : Z) (f : frag) : frag :=
  Frag (Resp (rp_schema (fr_resp f)) (rp_body (fr_resp f)) (rp_ctype (fr_resp f)) z)
    (fr_implicit f) (fr_unres f) (fr_chain f) (fr_caller f) (fr_pos f).
(** [resp.ImplicitStatus = 0]. *)
Definition no_implicit (f : frag) : frag :=
  Frag (fr_resp f) 0 (fr_unres f) (fr_chain f) (fr_caller f) (fr_pos f).

(** A [responseCandidate], extractor.go 1109-1112, together with what
    extractResponsesMatched yields for it: the extraction is run against an empty
    response map, so it is a function of the candidate alone (extractor.go
    1356-1358).  Each response comes with its ImplicitStatus and StatusUnresolved;
    nil responses are [None]. *)
Record cand := Cand {
  cd_chain : string; cd_site : string; cd_caller : string; cd_resps : list (option (resp * Z * bool))
}.

(** The inner loop over one candidate's responses, extractor.go 1362-1380. *)
Definition resp_ignored (r : resp) (unres : bool) : bool :=
  bool_decide (rp_body r = "") && bool_decide (rp_status r < 100)%Z && negb unres.
Definition normal_status (z : Z) : Z := if bool_decide (z < 0)%Z then (-1)%Z else z.
Definition dedupe_key (c : cand) (status : Z) (body : string) : string :=
  cd_chain c +:+ String chain_sep (cd_site c +:+ String chain_sep (itoa status +:+ String chain_sep body)).
Definition add_resp (c : cand) (st : gset string * list frag) (o : option (resp * Z * bool)) : gset string * list frag :=
  match o with
  | None => st
  | Some (r, implicit, unres) =>
    if resp_ignored r unres then st
    else
      let status := normal_status (rp_status r) in
      let key := dedupe_key c status (rp_body r) in
      if decide (key ∈ st.1) then st
      else ({[key]} ∪ st.1,
            st.2 ++ [Frag (Resp (rp_schema r) (rp_body r) (rp_ctype r) status) implicit unres
                       (cd_chain c) (cd_caller c) (callee_position (cd_site c))])
  end.
Definition add_cand (st : gset string * list frag) (c : cand) : gset string * list frag :=
  fold_left (add_resp c) (cd_resps c) st.
(** extractor.go 1353-1381. *)
Definition collect_frags (cands : list cand) : list frag := (fold_left add_cand cands (∅, [])).2.

(** The order of the fragments, extractor.go 1384-1392. *)
Definition pos_lt (p q : string * Z * Z) : bool :=
  if decide (p.1.1 = q.1.1) then
    (if decide (p.1.2 = q.1.2) then bool_decide (p.2 < q.2)%Z else bool_decide (p.1.2 < q.1.2)%Z)
  else string_lt p.1.1 q.1.1.
Definition sort_frags (l : list frag) : list frag := stable_sort fr_pos pos_lt l.

(** [preferResponseInfo], extractor.go 1624-1642, on fragments. *)
Definition prefer_frag (cur next : frag) : frag :=
  if eqb (response_concrete (fr_resp next)) (response_concrete (fr_resp cur)) then
    (if string_lt (fr_body next) (fr_body cur) then next else cur)
  else if response_concrete (fr_resp next) then next else cur.

(** [store], extractor.go 1394-1407.  Slots are the numbers themselves instead of
    their decimal spelling. *)
Definition store (m : gmap Z frag) (f : frag) : gmap Z frag :=
  match m !! fr_status f with
  | None => <[fr_status f := f]> m
  | Some e =>
    if bool_decide (fr_body e = "") && negb (bool_decide (fr_body f = "")) then <[fr_status f := f]> m
    else if negb (bool_decide (fr_body e = "")) && bool_decide (fr_body f = "") then m
    else <[fr_status f := prefer_frag e f]> m
  end.

(** The pairing loop, extractor.go 1409-1447.  [pending] and [pendingStatus] always
    have the same keys and are one map; what is stored is collected in order and
    stored afterwards (nothing reads the response map during the loop). *)
Record pstate := PState { ps_stored : list frag; ps_pending : gmap string Z; ps_unres : gset string; ps_unpaired : list frag }.
Definition status_known (z : Z) : bool := bool_decide (100 ≤ z)%Z && bool_decide (z < 600)%Z.
Definition pair_step (st : pstate) (f : frag) : pstate :=
  let known := status_known (fr_status f) in
  if known && bool_decide (fr_body f = "") then
    PState (ps_stored st ++ [f]) (<[fr_chain f := fr_status f]> (ps_pending st)) (ps_unres st) (ps_unpaired st)
  else if known then PState (ps_stored st ++ [f]) (ps_pending st) (ps_unres st) (ps_unpaired st)
  else if fr_unres f then PState (ps_stored st) (ps_pending st) ({[fr_chain f]} ∪ ps_unres st) (ps_unpaired st)
  else if negb (bool_decide (fr_body f = "")) then
    let f := if decide (fr_chain f ∈ ps_unres st) then no_implicit f else f in
    match ps_pending st !! fr_chain f with
    | Some z => PState (ps_stored st ++ [with_status z f]) (delete (fr_chain f) (ps_pending st)) (ps_unres st) (ps_unpaired st)
    | None => PState (ps_stored st) (ps_pending st) (ps_unres st) (ps_unpaired st ++ [f])
    end
  else st.
Definition pair_loop (l : list frag) : pstate := fold_left pair_step l (PState [] ∅ ∅ []).

(** The unpaired bodies, extractor.go 1449-1489. *)
Definition depth_of (depths : gmap string nat) (f : frag) : nat := default (N.to_nat (2 ^ 20)) (depths !! fr_caller f).
Fixpoint min_depth (best : option nat) (l : list nat) : option nat :=
  match l with
  | [] => best
  | d :: l => min_depth (match best with None => Some d | Some b => if decide (d < b) then Some d else best end) l
  end.
Definition final_step (st : Z * list frag) (f : frag) : Z * list frag :=
  if bool_decide (0 < fr_implicit f)%Z then (st.1, st.2 ++ [with_status (fr_implicit f) f])
  else let unknown := (st.1 + 1)%Z in (unknown, st.2 ++ [with_status (- unknown) f]).
Definition final_unpaired (depths : gmap string nat) (l : list frag) : list frag :=
  (fold_left final_step
    (filter (λ f, min_depth None (depth_of depths <$> l) = Some (depth_of depths f)) l) (0%Z, [])).2.

(** [pairAndFillResponses], extractor.go 1343-1490.  [saved] is route.Response on
    entry, [depths] the result of handlerCallDepths. *)
Definition pair_and_fill (depths : gmap string nat) (saved : gmap Z frag) (cands : list cand) : gmap Z frag :=
  let st := pair_loop (sort_frags (collect_frags cands)) in
  fold_left store (ps_stored st ++ final_unpaired depths (ps_unpaired st)) saved.

(** [handlerCallDepths], extractor.go 1496-1529: [callers x] are the base
    identities of the callees of [meta.Callers[x]].  The per-handler memo is left
    out; it stores exactly this result under the handler's name. *)
Definition visit_callee (next : nat) (st : gmap string nat * list string) (callee : string) : gmap string nat * list string :=
  match st.1 !! callee with
  | Some _ => st
  | None => (<[callee := next]> st.1, st.2 ++ [callee])
  end.
Fixpoint depth_loop (callers : string → list string) (fuel : nat) (st : gmap string nat * list string) : option (gmap string nat) :=
  match st.2 with
  | [] => Some st.1
  | cur :: queue =>
    match fuel with
    | 0 => None
    | S fuel =>
      depth_loop callers fuel (fold_left (visit_callee (default 0 (st.1 !! cur) + 1)) (callers cur) (st.1, queue))
    end
  end.
(** The call graph is a list of (caller, callee) base identities; BuildCallGraphMaps
    (types.go 266-290) groups it by caller in order. *)
Definition callees_of (edges : list (string * string)) (x : string) : list string :=
  snd <$> filter (λ e, e.1 = x) edges.
Definition handler_call_depths (edges : list (string * string)) (fuel : nat) (handler : string) : option (gmap string nat) :=
  if decide (handler = "") then Some ∅
  else depth_loop (callees_of edges) fuel ({[handler := 0]}, [handler]).
