(** * C90: which nodes below a registration give the request body and complete the route. *)
From stdpp Require Import base list strings gmap.
From Verif Require Import RouteModel FlowModel.

(** ** Specification *)
(** The ways from a node down to its descendants, parents before children, each the nodes passed. *)
Fixpoint paths (n : rnode) : list (list rnode) :=
  let 'RNode _ _ _ kids := n in
  (fix go (l : list rnode) : list (list rnode) := match l with [] => [] | c :: l => [c] :: ((cons c <$> paths c) ++ go l) end) kids.
(** Every step of a way, with the depth of the node it leaves. *)
Fixpoint every (step : rnode → rnode → nat → Prop) (n : rnode) (depth : nat) (p : list rnode) : Prop :=
  match p with [] => True | c :: p => step n c depth ∧ every step c (S depth) p end.
Definition end_of (n : rnode) (p : list rnode) : rnode := default n (last p).
(** The call [c] is run by the call [p]: it is written in the function called, or next to it, or in a function literal of
    the function called. *)
Definition runs (pf : gmap string (list nat)) (p c : redge) : Prop :=
  re_caller c = re_callee p ∨ re_caller c = re_caller p ∨ (∃ l, pf !! re_callee p = Some l ∧ re_ptr c ∈ l) ∨ (∃ l, pf !! re_callee_strip p = Some l ∧ re_ptr c ∈ l).
(** A step the program takes, as the code decides it. *)
Definition flow_step (pf : gmap string (list nat)) (parent child : rnode) (depth : nat) : Prop :=
  match rn_arg parent with
  | Some kind => depth ≤ 1 ∨ kind = "call" ∨ kind = "type_conversion"
  | None => is_Some (rn_arg child) ∨ ∀ p c, rn_edge parent = Some p → rn_edge child = Some c →
      re_chain c = true ∨ runs pf p c ∨ (re_caller_name c ≠ "" ∧ re_caller_name c = re_callee_name p)
  end.
(** A step inside the same registration: to a call that continues a chain or is written in the same function. *)
Definition reg_step (parent child : rnode) (depth : nat) : Prop :=
  rn_arg child = None ∧ ∃ p c, rn_edge parent = Some p ∧ rn_edge child = Some c ∧ (re_chain c = true ∨ re_caller c = re_caller p).
(** The last concrete body, and the last one if none is concrete. *)
Definition best (l : list reqi) : option reqi := match last (filter (λ r, request_concrete r = true) l) with Some r => Some r | None => last l end.

(** ** The walk *)
Fixpoint everyb (step : rnode → rnode → nat → bool) (n : rnode) (depth : nat) (p : list rnode) : bool :=
  match p with [] => true | c :: p => step n c depth && everyb step c (S depth) p end.
Lemma everyb_spec step P : (∀ n c d, step n c d = true ↔ P n c d) → ∀ p n d, everyb step n d p = true ↔ every P n d p.
Proof. intros H p. induction p as [|c p IH]; intros n d; cbn [everyb every]; [done|]. by rewrite andb_true_iff, H, IH. Qed.
Lemma everyb_true step p : ∀ n d, everyb step n d p = true ↔ every (λ n c d, step n c d = true) n d p.
Proof. intros n d. by apply everyb_spec. Qed.
Lemma end_cons n c p : end_of n (c :: p) = end_of c p.
Proof. unfold end_of. rewrite last_cons. by destruct (last p). Qed.
Definition visit_at (meta : option (gmap string (list nat))) (n : rnode) (may body : bool) (depth : nat) (p : list rnode) : visit :=
  Visit (end_of n p) (may && everyb (λ n c _, completes n c) n depth p) (body && everyb (follows meta) n depth p).
Lemma walk_paths meta : ∀ n may body depth, walk meta n may body depth = visit_at meta n may body depth <$> paths n.
Proof.
  fix IH 1. intros [key arg edge kids] may body depth. cbn [walk paths].
  assert (∀ N, (fix go (l : list rnode) : list visit :=
     match l with
     | [] => []
     | c :: l0 => Visit c (may && completes N c) (body && follows meta N c depth) :: walk meta c (may && completes N c) (body && follows meta N c depth) (S depth) ++ go l0
     end) kids =
   visit_at meta N may body depth <$> (fix go (l : list rnode) : list (list rnode) := match l with [] => [] | c :: l0 => [c] :: ((cons c <$> paths c) ++ go l0) end) kids) as H; [|apply H].
  intros N. induction kids as [|c kids IHk]; [done|]. cbn [fmap list_fmap]. f_equal.
  - unfold visit_at. cbn [everyb]. by rewrite !andb_true_r.
  - rewrite (IH c), IHk. rewrite fmap_app. f_equal. rewrite <- list_fmap_compose. apply list_fmap_ext. intros i p _. unfold visit_at, compose. cbn [everyb]. by rewrite end_cons, !andb_assoc.
Qed.

Lemma follows_spec pf n c d : follows (Some pf) n c d = true ↔ flow_step pf n c d.
Proof.
  unfold follows, flow_step. destruct (rn_arg n) as [kind|].
  - rewrite !orb_true_iff, !bool_decide_eq_true. unfold handler_arg_depth. tauto.
  - destruct (rn_arg c) as [k|]; [split; [left; by eexists|done]|].
    destruct (rn_edge n) as [p|]; [|split; [right; done|done]]. destruct (rn_edge c) as [e|]; [|split; [right; done|done]].
    split.
    + intros H. right. intros p' e' [= <-] [= <-]. destruct (re_chain e); [by left|]. right.
      destruct (decide (re_caller e = re_callee p)) as [E1|E1]; [left; by left|]. rewrite bool_decide_eq_false_2 in H by done.
      destruct (decide (re_caller e = re_caller p)) as [E2|E2]; [left; right; by left|]. rewrite (bool_decide_eq_false_2 _ E2) in H.
      destruct (decide (re_ptr e ∈ default [] (pf !! re_callee p))) as [E3|E3].
      { left. do 2 right. left. destruct (pf !! re_callee p) as [l|]; [by exists l|by apply elem_of_nil in E3]. }
      rewrite (bool_decide_eq_false_2 _ E3) in H. destruct (negb (bool_decide (re_callee_strip p = re_callee p)) && bool_decide (re_ptr e ∈ default [] (pf !! re_callee_strip p))) eqn:E4.
      { left. do 3 right. apply andb_true_iff in E4 as [_ E4]. apply bool_decide_eq_true in E4. destruct (pf !! re_callee_strip p) as [l|]; [by exists l|by apply elem_of_nil in E4]. }
      apply andb_true_iff in H as [H1 H2]. apply negb_true_iff, bool_decide_eq_false in H1. apply bool_decide_eq_true in H2. by right.
    + intros [[? [=]]|H]. specialize (H p e eq_refl eq_refl). destruct (re_chain e); [done|]. destruct (bool_decide (re_caller e = re_callee p)) eqn:E1; [done|]. apply bool_decide_eq_false in E1.
      destruct (bool_decide (re_caller e = re_caller p)) eqn:E2; [done|]. apply bool_decide_eq_false in E2.
      destruct (bool_decide (re_ptr e ∈ default [] (pf !! re_callee p))) eqn:E3; [done|]. apply bool_decide_eq_false in E3.
      destruct (negb (bool_decide (re_callee_strip p = re_callee p)) && bool_decide (re_ptr e ∈ default [] (pf !! re_callee_strip p))) eqn:E4; [done|].
      destruct H as [?|[H|[H1 H2]]]; [done| |].
      * exfalso. destruct H as [?|[?|[(l & El & Hl)|(l & El & Hl)]]]; [done|done| |].
        -- apply E3. by rewrite El.
        -- apply andb_false_iff in E4 as [E4|E4].
           ++ apply negb_false_iff, bool_decide_eq_true in E4. apply E3. rewrite <- E4, El. done.
           ++ apply bool_decide_eq_false in E4. apply E4. by rewrite El.
      * rewrite bool_decide_eq_false_2 by done. by rewrite bool_decide_eq_true_2.
Qed.
Lemma completes_spec n c d : completes n c = true ↔ reg_step n c d.
Proof.
  unfold completes, reg_step. destruct (rn_arg c); [split; [done|by intros [? _]]|]. destruct (rn_edge n) as [p|]; [|split; [done|by intros (_ & ? & ? & ? & _)]]. destruct (rn_edge c) as [e|]; [|split; [done|by intros (_ & ? & ? & _ & ? & _)]].
  rewrite orb_true_iff, bool_decide_eq_true. split; [intros H; split; [done|]; exists p, e; naive_solver|]. intros (_ & p' & e' & [= <-] & [= <-] & H). naive_solver.
Qed.

(** ** Theorems *)
(** Below each node the walk makes, exactly one visit per way, in order; the body counts exactly when the program takes
    every step of the way, and the node may complete the route exactly when the registration goes on at every step. *)
Theorem C90_walk pf reg : ∃ vs, visits (Some pf) reg = vs ∧ v_node <$> vs = end_of reg <$> paths reg ∧
  Forall2 (λ v p, (v_body v = true ↔ every (flow_step pf) reg 0 p) ∧ (v_may v = true ↔ every reg_step reg 0 p)) vs (paths reg).
Proof.
  eexists. split; [reflexivity|]. unfold visits. rewrite walk_paths. split; [by rewrite <- list_fmap_compose|]. apply Forall2_fmap_l. apply Forall_Forall2_diag. apply Forall_forall. intros p _. unfold visit_at. cbn [v_body v_may andb]. split.
  - apply everyb_spec. intros n c d. apply follows_spec.
  - apply everyb_spec. intros n c d. apply completes_spec.
Qed.
Lemma prefer_foldl l : ∀ cur, foldl (λ c r, prefer_request c (Some r)) (Some cur) l = best (cur :: l).
Proof.
  unfold best. induction l as [|r l IH]; intros cur; cbn [foldl]; [rewrite filter_cons, filter_nil; by destruct (decide _)|]. cbn [prefer_request]. destruct (request_concrete r) eqn:Er, (request_concrete cur) eqn:Ec; cbn [andb negb]; rewrite IH, !filter_cons, ?Er, ?Ec.
  - rewrite !decide_True by done. by rewrite !last_cons_cons.
  - repeat first [rewrite decide_True by done | rewrite decide_False by done]. rewrite last_cons. destruct (last (filter _ l)); done.
  - repeat first [rewrite decide_True by done | rewrite decide_False by done]. rewrite last_cons. by destruct (last (filter _ l)).
  - rewrite !decide_False by done. destruct (last (filter _ l)); [done|]. by rewrite !last_cons_cons.
Qed.
Lemma filter_sub {A} (P : A → Prop) `{∀ x, Decision (P x)} (l : list A) : filter P l `sublist_of` l.
Proof. induction l as [|x l IH]; [done|]. rewrite filter_cons. destruct (decide (P x)); by constructor. Qed.
(** The request of a route is, of the bodies on the ways the program takes, the last concrete one; the last of all if
    none is concrete. *)
Theorem C90_request pf extract reg : ∃ ways, ways `sublist_of` paths reg ∧ (∀ p, p ∈ ways ↔ p ∈ paths reg ∧ every (flow_step pf) reg 0 p) ∧
  request_of (Some pf) extract reg = best (omap (λ p, extract (end_of reg p)) ways).
Proof.
  exists (filter (λ p, everyb (follows (Some pf)) reg 0 p = true) (paths reg)). split; [apply filter_sub|]. split.
  { intros p. rewrite elem_of_list_filter, (everyb_spec _ (flow_step pf)) by apply follows_spec. tauto. }
  unfold request_of, visits. rewrite walk_paths. 
  assert (∀ l cur, foldl (λ cur v, match extract (v_node v) with Some r => if v_body v then prefer_request cur (Some r) else cur | None => cur end) cur (visit_at (Some pf) reg true true 0 <$> l) =
    foldl (λ c r, prefer_request c (Some r)) cur (omap (λ p, extract (end_of reg p)) (filter (λ p, everyb (follows (Some pf)) reg 0 p = true) l))) as H.
  { induction l as [|p l IH]; intros cur; [done|]. rewrite filter_cons. cbn [fmap list_fmap foldl]. assert (v_node (visit_at (Some pf) reg true true 0 p) = end_of reg p) as -> by done. assert (v_body (visit_at (Some pf) reg true true 0 p) = everyb (follows (Some pf)) reg 0 p) as -> by done. destruct (everyb (follows (Some pf)) reg 0 p) eqn:E.
    - rewrite decide_True by done. cbn [omap list_omap]. destruct (extract (end_of reg p)) as [r|] eqn:Er; [|apply IH]. cbn [foldl]. apply IH.
    - rewrite decide_False by done. destruct (extract (end_of reg p)) as [r|] eqn:Er; apply IH. }
  rewrite H. destruct (omap _ _) as [|r l]; [done|]. cbn [foldl prefer_request]. apply prefer_foldl.
Qed.
Lemma last_elem {A} (l : list A) x : last l = Some x → x ∈ l.
Proof. intros H. apply last_Some in H as [l' ->]. rewrite elem_of_app, elem_of_list_singleton. by right. Qed.
(** No body of a call the route does not run is documented: behind every body there is a way the program takes. *)
Theorem C90_own_body pf extract reg r : request_of (Some pf) extract reg = Some r → ∃ p, p ∈ paths reg ∧ every (flow_step pf) reg 0 p ∧ extract (end_of reg p) = Some r.
Proof.
  destruct (C90_request pf extract reg) as (ways & _ & Hw & ->). unfold best. intros H. assert (r ∈ omap (λ p, extract (end_of reg p)) ways) as Hr.
  { destruct (last (filter _ _)) as [x|] eqn:E; [|by apply last_elem]. injection H as ->. apply last_elem, elem_of_list_filter in E as [_ E]. done. }
  apply elem_of_list_omap in Hr as (p & Hp & Er). apply Hw in Hp as [Hp He]. by exists p.
Qed.
(** A route completed from a call is completed from a call of the same registration: it is no argument, and without
    chains it is written in the function the registration is written in. *)
Theorem C90_same_registration meta reg n : n ∈ completing meta reg → ∃ p, p ∈ paths reg ∧ n = end_of reg p ∧ every reg_step reg 0 p ∧ rn_arg n = None ∧
  (Forall (λ c, ∀ e, rn_edge c = Some e → re_chain e = false) p → ∃ e e', rn_edge reg = Some e ∧ rn_edge n = Some e' ∧ re_caller e' = re_caller e).
Proof.
  unfold completing, visits. rewrite walk_paths. intros H. apply elem_of_list_fmap in H as (v & -> & H). apply elem_of_list_filter in H as [Hv H]. apply elem_of_list_fmap in H as (p & -> & Hp). exists p. split; [done|]. split; [done|].
  unfold visit_at in Hv. cbn [v_may v_node andb] in *. apply (everyb_spec _ reg_step) in Hv; [|intros; apply completes_spec]. split; [done|].
  assert (p ≠ []) as Hne. { destruct reg as [k a e kids]. intros ->. cbn [paths] in Hp. induction kids as [|c kids IH]; [by apply elem_of_nil in Hp|]. apply elem_of_cons in Hp as [?|Hp]; [done|]. apply elem_of_app in Hp as [Hp|Hp]; [|by apply IH]. by apply elem_of_list_fmap in Hp as (? & ? & _). }
  assert (∀ p m d, p ≠ [] → every reg_step m d p → rn_arg (end_of m p) = None ∧ (Forall (λ c, ∀ e, rn_edge c = Some e → re_chain e = false) p → ∃ e e', rn_edge m = Some e ∧ rn_edge (end_of m p) = Some e' ∧ re_caller e' = re_caller e)) as HH; [|by apply (HH p reg 0)].
  clear. induction p as [|c p IH]; intros m d Hne H; [done|]. destruct H as [(Ha & e & e' & He & He' & Hor) H]. rewrite end_cons. destruct p as [|c' p].
  - split; [done|]. intros Hf. apply Forall_cons in Hf as [Hf _]. exists e, e'. split; [done|]. split; [done|]. destruct Hor as [Hc|Hc]; [|done]. by rewrite (Hf e' He') in Hc.
  - destruct (IH c (S d) ltac:(done) H) as [H1 H2]. split; [done|]. intros Hf. apply Forall_cons in Hf as [Hf Hfs]. destruct (H2 Hfs) as (e1 & e2 & E1 & E2 & E3). exists e, e2. split; [done|]. split; [done|]. rewrite E3. assert (e1 = e') as -> by congruence.
    destruct Hor as [Hc|Hc]; [|done]. by rewrite (Hf e' He') in Hc.
Qed.
(** Below an argument that is a variable or a field, from the second level on, nothing gives the body: if the only bodies are there,
    the route has none. *)
Theorem C90_lateral_blocked pf extract reg p kind : rn_arg (end_of reg p) = Some kind → kind ≠ "call" → kind ≠ "type_conversion" → 2 ≤ length p →
  (∀ p', p' ∈ paths reg → is_Some (extract (end_of reg p')) → ∃ c q, p' = p ++ c :: q) → request_of (Some pf) extract reg = None.
Proof.
  intros Ha H1 H2 Hl Hu. destruct (request_of (Some pf) extract reg) as [r|] eqn:Hr; [exfalso|done]. destruct (C90_own_body _ _ _ _ Hr) as (p' & Hp & He & Hx). destruct (Hu p' Hp) as (c & q & ->); [by eexists|]. clear Hu Hx Hp Hr.
  assert (∀ m d, 2 ≤ d + length p → rn_arg (end_of m p) = Some kind → ¬ every (flow_step pf) m d (p ++ c :: q)) as HH; [|by apply (HH reg 0)]. clear -H1 H2.
  induction p as [|x p IH]; intros m d Hl Ha He.
  - cbn [app every] in He. destruct He as [He _]. unfold flow_step in He. cbn in Ha, Hl. rewrite Ha in He. destruct He as [?|[?|?]]; [lia|done|done].
  - cbn [app every] in He. destruct He as [_ He]. rewrite end_cons in Ha. apply (IH x (S d)); [cbn in Hl; lia|done|done].
Qed.

(** ** What goes wrong *)
Definition plain_edge (ptr : nat) (caller caller_name callee callee_name : string) : redge := REdge ptr false caller caller_name callee callee callee_name.
Definition body_of (name : string) : reqi := Reqi (Some (Sch name [] 0 0 false "")) name "application/json".
Definition decode_at (key : string) (r : reqi) (n : rnode) : option reqi := if decide (rn_key n = key) then Some r else None.
(** [r.Post("/items", auth(create))]: the call of the decoder is written in the handler [create], below the argument that names it; but
    that argument is two levels down and is no call, so the body is lost. *)
Theorem C90_wrapped_refuted : ∃ pf extract reg p h c e r, paths reg = p ∧ [h; c] `suffix_of` (default [] (last p)) ∧
  rn_edge c = Some e ∧ rn_key h = re_caller e ∧ rn_arg h = Some "ident" ∧ extract c = Some r ∧ request_of (Some pf) extract reg = None.
Proof.
  set (e := plain_edge 3 "app.create" "create" "json.Decoder.Decode" "Decode"). set (c := RNode "json.Decoder.Decode@app.go:30" None (Some e) []).
  set (h := RNode "app.create" (Some "ident") (Some (plain_edge 2 "app.main" "main" "app.auth" "auth")) [c]).
  exists ∅, (decode_at "json.Decoder.Decode@app.go:30" (body_of "app.Item")), (RNode "chi.Mux.Post@app.go:10" None (Some (plain_edge 1 "app.main" "main" "chi.Mux.Post" "Post"))
    [RNode "app.auth@app.go:10" (Some "call") (Some (plain_edge 2 "app.main" "main" "app.auth" "auth")) [h]]).
  eexists. exists h, c, e, (body_of "app.Item"). split; [reflexivity|]. split; [by eexists [_]|]. done.
Qed.
(** A call of [Store.List] and a handler of another type named [List]: the body the handler decodes is taken, though nothing relates
    the two but the name. *)
Theorem C90_same_name_refuted : ∃ pf extract reg p c e r, [p; c] ∈ paths reg ∧ rn_edge p = Some e ∧
  (∀ e', rn_edge c = Some e' → ¬ runs pf e e' ∧ re_chain e' = false) ∧ extract c = Some r ∧ request_of (Some pf) extract reg = Some r.
Proof.
  set (e := plain_edge 2 "app.getUser" "getUser" "app.Store.List" "List"). set (c := RNode "json.Decoder.Decode@app.go:30" None (Some (plain_edge 3 "app.Orders.List" "List" "json.Decoder.Decode" "Decode")) []).
  set (p := RNode "app.Store.List@app.go:20" None (Some e) [c]).
  exists ∅, (decode_at "json.Decoder.Decode@app.go:30" (body_of "app.OrderFilter")), (RNode "chi.Mux.Get@app.go:10" None (Some (plain_edge 1 "app.getUser" "getUser" "chi.Mux.Get" "Get")) [p]), p, c, e, (body_of "app.OrderFilter").
  split; [cbn; rewrite !elem_of_cons; by right; left|]. split; [done|]. split; [|done]. intros e' [= <-]. split; [|done]. intros [?|[?|[(l & Hl & _)|(l & Hl & _)]]]; [done|done| |]; by rewrite lookup_empty in Hl.
Qed.
(** The same with a call that is a link of a chain, wherever it is written. *)
Theorem C90_chain_refuted : ∃ pf extract reg p c e r, [p; c] ∈ paths reg ∧ rn_edge p = Some e ∧
  (∀ e', rn_edge c = Some e' → ¬ runs pf e e' ∧ re_caller_name e' ≠ re_callee_name e) ∧ extract c = Some r ∧ request_of (Some pf) extract reg = Some r.
Proof.
  set (e := plain_edge 2 "app.getUser" "getUser" "app.convert" "convert"). set (c := RNode "json.Decoder.Decode@app.go:30" None (Some (REdge 3 true "app.createOrder" "createOrder" "json.Decoder.Decode" "json.Decoder.Decode" "Decode")) []).
  set (p := RNode "app.convert@app.go:20" None (Some e) [c]).
  exists ∅, (decode_at "json.Decoder.Decode@app.go:30" (body_of "app.Order")), (RNode "chi.Mux.Get@app.go:10" None (Some (plain_edge 1 "app.getUser" "getUser" "chi.Mux.Get" "Get")) [p]), p, c, e, (body_of "app.Order").
  split; [cbn; rewrite !elem_of_cons; by right; left|]. split; [done|]. split; [|done]. intros e' [= <-]. split; [|done]. intros [?|[?|[(l & Hl & _)|(l & Hl & _)]]]; [done|done| |]; by rewrite lookup_empty in Hl.
Qed.
(** The types of a body that does not count are registered all the same: they come out as components. *)
Theorem C90_components_refuted : ∃ pf extract types reg t, request_of (Some pf) extract reg = None ∧ t ∈ used_of (Some pf) types reg ∧
  ∀ p, p ∈ paths reg → t ∈ types (end_of reg p) → ¬ every (flow_step pf) reg 0 p.
Proof.
  set (c := RNode "json.Decoder.Decode@app.go:30" None (Some (plain_edge 3 "app.createOrder" "createOrder" "json.Decoder.Decode" "Decode")) []).
  exists ∅, (decode_at "json.Decoder.Decode@app.go:30" (body_of "app.Order")), (λ n, if decide (rn_key n = "json.Decoder.Decode@app.go:30") then ["app.Order"] else []),
    (RNode "chi.Mux.Get@app.go:10" None (Some (plain_edge 1 "app.getUser" "getUser" "chi.Mux.Get" "Get")) [RNode "app.convert@app.go:20" None (Some (plain_edge 2 "app.getUser" "getUser" "app.convert" "convert")) [c]]), "app.Order".
  split; [done|]. split; [by apply (elem_of_list_lookup_2 _ 0)|]. intros p Hp Ht. cbn in Hp. rewrite !elem_of_cons, elem_of_nil in Hp. destruct Hp as [-> | [-> | []]]; [by apply elem_of_nil in Ht|]. cbn [every]. intros (_ & H & _). apply follows_spec in H. by vm_compute in H.
Qed.
(** A router of the program's own whose method builds the route by a chain: the links of that chain are in its body, not in the
    function of the registration, and complete the route all the same. *)
Theorem C90_house_router_refuted : ∃ meta reg c e e', c ∈ completing meta reg ∧ rn_edge reg = Some e ∧ rn_edge c = Some e' ∧ re_caller e' = re_callee e ∧ re_caller e' ≠ re_caller e.
Proof.
  set (e := plain_edge 1 "app.main" "main" "app.Router.Get" "Get"). set (e' := REdge 3 true "app.Router.Get" "Get" "mux.Route.Path" "mux.Route.Path" "Path").
  exists None, (RNode "app.Router.Get@app.go:10" None (Some e) [RNode "mux.Route.Path@app.go:40" None (Some e') []]), (RNode "mux.Route.Path@app.go:40" None (Some e') []), e, e'.
  split; [by apply (elem_of_list_lookup_2 _ 0)|]. done.
Qed.

(** A registration with a handler, a helper the handler calls, and a converter that reaches another handler sideways. *)
Example C90_case : let dec := λ k caller name, RNode k None (Some (plain_edge 9 caller name "json.Decoder.Decode" "Decode")) [] in
  let reg := RNode "chi.Mux.Post@app.go:10" None (Some (plain_edge 1 "app.main" "main" "chi.Mux.Post" "Post"))
    [RNode "app.create" (Some "ident") (Some (plain_edge 1 "app.main" "main" "chi.Mux.Post" "Post"))
       [RNode "app.read@app.go:30" None (Some (plain_edge 2 "app.create" "create" "app.read" "read")) [dec "d1" "app.read" "read"];
        RNode "app.convert@app.go:31" None (Some (plain_edge 3 "app.create" "create" "app.convert" "convert")) [dec "d2" "app.update" "update"]]] in
  let extract := λ n, if decide (rn_key n = "d1") then Some (body_of "app.Item") else if decide (rn_key n = "d2") then Some (body_of "app.Other") else None in
  request_of (Some ∅) extract reg = Some (body_of "app.Item") ∧ length (paths reg) = 5 ∧ completing (Some ∅) reg = [].
Proof. done. Qed.
(** A chain: the later calls complete the registration. *)
Example C90_chain_case : let e := λ p ch, REdge p ch "app.main" "main" "mux.Route.Path" "mux.Route.Path" "Path" in
  rn_key <$> completing (Some ∅) (RNode "methods" None (Some (e 1 false)) [RNode "path" None (Some (e 2 true)) [RNode "handler" None (Some (e 3 true)) []]; RNode "arg" (Some "ident") (Some (e 1 false)) []; RNode "next" None (Some (e 4 false)) []]) = ["path"; "handler"; "next"].
Proof. done. Qed.
Example C90_lateral_case : ∃ pf extract reg p c q kind, rn_arg (end_of reg p) = Some kind ∧ kind ≠ "call" ∧ kind ≠ "type_conversion" ∧ 2 ≤ length p ∧ p ++ c :: q ∈ paths reg ∧ extract (end_of reg (p ++ c :: q)) = Some (body_of "app.Order") ∧ request_of (Some pf) extract reg = None.
Proof.
  set (c := RNode "d" None (Some (plain_edge 3 "app.createOrder" "createOrder" "json.Decoder.Decode" "Decode")) []). set (v := RNode "o" (Some "selector") (Some (plain_edge 2 "app.getUser" "getUser" "app.convert" "convert")) [c]).
  set (m := RNode "app.convert@app.go:20" None (Some (plain_edge 2 "app.getUser" "getUser" "app.convert" "convert")) [v]).
  exists ∅, (decode_at "d" (body_of "app.Order")), (RNode "chi.Mux.Get@app.go:10" None (Some (plain_edge 1 "app.getUser" "getUser" "chi.Mux.Get" "Get")) [m]), [m; v], c, [], "selector".
  repeat split; try done. by apply (elem_of_list_lookup_2 _ 2).
Qed.

Print Assumptions C90_walk.
Print Assumptions C90_request.
Print Assumptions C90_own_body.
Print Assumptions C90_same_registration.
Print Assumptions C90_lateral_blocked.
Print Assumptions C90_wrapped_refuted.
Print Assumptions C90_same_name_refuted.
Print Assumptions C90_chain_refuted.
Print Assumptions C90_components_refuted.
Print Assumptions C90_house_router_refuted.
