(** * C91: the calls of a file are recorded once each, with the call they are chained on and the variable they are assigned to. *)
From stdpp Require Import base list strings gmap.
From Verif Require Import GraphModel GraphProofs.

(** For a file whose calls have different instance IDs and in which a method called on the result of a call is called on
    the result of a recorded one: the analysis of the file ends, keeps the call graph it was given and adds one edge per
    call; the edge of a call is chained on the edge of the call whose result it is called on, if there is one, and on nothing
    otherwise. What is missing: the two hypotheses, without which it is false (below). *)
Theorem C91_calls_partial before decls :
  NoDup (id_of <$> calls_all decls) → (∀ c d, c ∈ calls_all decls → inner c = Some d → is_recorded d) →
  ∃ new, graph_file before decls = Some (before ++ new) ∧ ge_id <$> new ≡ₚ id_of <$> calls_all decls ∧
    (∀ c, c ∈ calls_all decls → ∃ e, e ∈ new ∧ ge_id e = id_of c ∧
       match inner c with Some d => ∃ j p, ge_chain e = Some j ∧ (before ++ new) !! j = Some p ∧ p ∈ new ∧ ge_id p = id_of d | None => ge_chain e = None end).
Proof.
  intros Hnd Hg. destruct (walks_all (length before) decls (λ x _, walks_every _ x) (GState before ∅) None Hnd Hg) as (s' & a' & Hi & new & E & P & S & L & A); [done|intros c _; cbn; set_solver|].
  exists new. unfold graph_file. rewrite Hi. cbn in E. split; [by rewrite E|]. split; [cbn in P; by rewrite app_nil_r in P|].
  intros c Hc. destruct (L c Hc) as [?%elem_of_nil|(k & e & Hk & Hb & Hid & H)]; [done|]. rewrite E in Hk. rewrite lookup_app_r in Hk by done. exists e. split; [by eapply elem_of_list_lookup_2|]. split; [done|].
  destruct (inner c) as [d|]; [|done]. destruct H as (j & p & H1 & H2 & H3 & H4). exists j, p. rewrite E in H3. split; [done|]. split; [done|]. split; [|done]. rewrite lookup_app_r in H3 by done. by eapply elem_of_list_lookup_2.
Qed.
(** In such a file the edge of [f] in [x := f(...)] says it is assigned to [x]. *)
Theorem C91_assigned_partial before decls x c :
  NoDup (id_of <$> calls_all decls) → (∀ c d, c ∈ calls_all decls → inner c = Some d → is_recorded d) → (x, c) ∈ single_assigns_all decls →
  ∃ es e, graph_file before decls = Some es ∧ e ∈ es ∧ ge_id e = id_of c ∧ ge_assigned e = x.
Proof.
  intros Hnd Hg Hx. destruct (walks_all (length before) decls (λ x _, walks_every _ x) (GState before ∅) None Hnd Hg) as (s' & a' & Hi & new & E & P & S & L & A); [done|intros c' _; cbn; set_solver|].
  destruct (A x c Hx) as (e & ? & ? & ?). exists (gs_edges s'), e. unfold graph_file. by rewrite Hi.
Qed.
(** The analysis of a file never changes or drops what it was given, whatever the file. *)
Lemma process_keeps n : ∀ a s s', process n a s = Some s' → ∃ new, gs_edges s' = gs_edges s ++ new.
Proof.
  remember (gsize n) as k eqn:Ek. revert n Ek. induction k as [k IH] using lt_wf_ind. intros [|x|i fn args| |] Ek a s s' H; try (injection H as <-; exists []; by rewrite app_nil_r).
  cbn [process] in H. destruct (negb (recordable i) || bool_decide (gi_id i ∈ gs_seen s)); [injection H as <-; exists []; by rewrite app_nil_r|].
  destruct fn as [|d| | |]; try (injection H as <-; by eexists). destruct d as [name []| |i' f' l'| |]; try (injection H as <-; by eexists).
  destruct (process (NCall i' f' l') a s) as [s1|] eqn:E1; [|done]. destruct (IH (gsize (NCall i' f' l')) ltac:(subst k; cbn; lia) _ eq_refl _ _ _ E1) as (new & Hn). destruct (last (gs_edges s1)); [|done]. injection H as <-. cbn. rewrite Hn, <- app_assoc. by eexists.
Qed.
Theorem C91_kept before decls es : graph_file before decls = Some es → before `prefix_of` es.
Proof.
  assert (∀ k l a s a' s', gsize_all l ≤ k → inspect_all l (Some (a, s)) = Some (a', s') → ∃ new, gs_edges s' = gs_edges s ++ new) as Hall.
  { assert (∀ l, inspect_all l None = None) as Hnone_all; [|].
    { assert (∀ k l, gsize_all l ≤ k → inspect_all l None = None) as H; [|intros l; by apply (H (gsize_all l))].
      induction k as [|k IH]; intros l Hk; [destruct l as [|[]]; cbn in Hk; done || lia|]. destruct l as [|x l]; [done|]. change (inspect_all l (inspect x None) = None).
      change (gsize_all (x :: l)) with (gsize x + gsize_all l) in Hk. assert (1 ≤ gsize x) as Hx by (destruct x; cbn; lia).
      assert (inspect x None = None) as ->; [|apply IH; lia].
      assert (∀ y, gsize y ≤ k → inspect y None = None) as Hone. { intros y Hy. apply (IH [y]). unfold gsize_all. cbn [foldr]. lia. }
      destruct x as [|y|i fn args|lhs inside rhs|kids]; [done|apply (Hone y); change (gsize (NSel y)) with (S (gsize y)) in Hk; lia| | |].
      - rewrite inspect_call. rewrite gsize_call in Hk. rewrite Hone by lia. apply IH. lia.
      - rewrite inspect_assign. rewrite gsize_assign in Hk. rewrite (IH inside) by lia. apply IH. lia.
      - rewrite inspect_node. rewrite gsize_node in Hk. apply IH. lia. }
    induction k as [|k IH]; intros l a s a' s' Hk H.
    - destruct l as [|x l]; [injection H as <- <-; exists []; by rewrite app_nil_r|]. change (gsize_all (x :: l)) with (gsize x + gsize_all l) in Hk. destruct x; cbn in Hk; lia.
    - destruct l as [|x l]; [injection H as <- <-; exists []; by rewrite app_nil_r|]. change (inspect_all l (inspect x (Some (a, s))) = Some (a', s')) in H. change (gsize_all (x :: l)) with (gsize x + gsize_all l) in Hk. assert (1 ≤ gsize x) as Hx by (destruct x; cbn; lia).
      destruct (inspect x (Some (a, s))) as [[a1 s1]|] eqn:E1; [|by rewrite Hnone_all in H].
      assert (∃ new, gs_edges s1 = gs_edges s ++ new) as (n1 & H1).
      { destruct x as [|y|i fn args|lhs inside rhs|kids].
        - injection E1 as <- <-. exists []. by rewrite app_nil_r.
        - apply (IH [y] a s a1 s1); [change (gsize (NSel y)) with (S (gsize y)) in Hk; unfold gsize_all; cbn [foldr]; lia|exact E1].
        - rewrite inspect_call in E1. rewrite gsize_call in Hk. destruct (process (NCall i fn args) a s) as [s2|] eqn:E2.
          + destruct (process_keeps _ _ _ _ E2) as (n2 & H2). destruct (inspect fn (Some (None, s2))) as [[a3 s3]|] eqn:E3; [|by rewrite Hnone_all in E1].
            destruct (IH [fn] None s2 a3 s3) as (n3 & H3); [unfold gsize_all; cbn [foldr]; lia|exact E3|]. destruct (IH args a3 s3 a1 s1) as (n4 & H4); [lia|exact E1|]. exists (n2 ++ n3 ++ n4). by rewrite H4, H3, H2, <- !app_assoc.
          + assert (inspect fn None = None) as Hf by apply (Hnone_all [fn]). by rewrite Hf, Hnone_all in E1.
        - rewrite inspect_assign in E1. rewrite gsize_assign in Hk. destruct (inspect_all inside (Some (Some (assigned_names lhs rhs), s))) as [[a3 s3]|] eqn:E3; [|by rewrite Hnone_all in E1].
          destruct (IH inside (Some (assigned_names lhs rhs)) s a3 s3) as (n3 & H3); [lia|exact E3|]. destruct (IH rhs a3 s3 a1 s1) as (n4 & H4); [lia|exact E1|]. exists (n3 ++ n4). by rewrite H4, H3, <- app_assoc.
        - rewrite inspect_node in E1. rewrite gsize_node in Hk. apply (IH kids a s a1 s1); [lia|exact E1]. }
      destruct (IH l a1 s1 a' s') as (n2 & H2); [lia|exact H|]. exists (n1 ++ n2). by rewrite H2, H1, app_assoc. }
  unfold graph_file. destruct (inspect_all decls (Some (None, GState before ∅))) as [[a' s']|] eqn:E; intros H; [|done]. injection H as <-. destruct (Hall _ _ _ _ _ _ (Nat.le_refl _) E) as (new & Hn). by exists new.
Qed.

(** ** Cases *)
(** [func main] of the program
<<
  r := chi.NewRouter()
  r.Route("/users").With(auth()).Get("/", list)
>> *)
Definition recd (id callee : string) : ginfo := GInfo id "main" callee false.
Definition new_router : gnode := NCall (recd "chi.NewRouter@1" "NewRouter") (NSel (NIdent "chi" false)) [].
Definition r_route : gnode := NCall (recd "Mux.Route@2" "Route") (NSel (NIdent "r" true)) [].
Definition call_auth : gnode := NCall (recd "main.auth@3" "auth") (NIdent "auth" true) [].
Definition r_with : gnode := NCall (recd "Mux.With@2" "With") (NSel r_route) [call_auth].
Definition r_get : gnode := NCall (recd "Mux.Get@2" "Get") (NSel r_with) [NIdent "list" true].
Definition a_file : list gnode := [NNode [NAssign ["r"] [] [new_router]; NNode [r_get]]].
(** The hypotheses hold of it, and this is what is recorded: a chain is recorded from its start. *)
Example a_file_ok : NoDup (id_of <$> calls_all a_file) ∧ (∀ c d, c ∈ calls_all a_file → inner c = Some d → is_recorded d) ∧ ("r", new_router) ∈ single_assigns_all a_file.
Proof.
  split; [apply (bool_decide_unpack _); by vm_compute|]. split; [|by apply (elem_of_list_lookup_2 _ 0)].
  change (calls_all a_file) with [new_router; r_get; r_with; r_route; call_auth]. intros c d Hc Hd. repeat (apply elem_of_cons in Hc as [->|Hc]; [cbn in Hd; try discriminate Hd; by injection Hd as <-|]). by apply elem_of_nil in Hc.
Qed.
Example a_file_graph : graph_file [] a_file = Some [GEdge "chi.NewRouter@1" "" "r" None; GEdge "Mux.Route@2" "r" "" None; GEdge "Mux.With@2" "" "" (Some 1); GEdge "Mux.Get@2" "r" "" (Some 2); GEdge "main.auth@3" "" "" None].
Proof. by vm_compute. Qed.

(** ** What is false *)
(** A program whose first call is a method of a converted value stops the analysis: [time.Duration(n).String()]. *)
Definition conv_call : gnode := NCall (GInfo "time.Duration@1" "main" "Duration" true) (NSel (NIdent "time" false)) [NIdent "n" true].
Definition on_conv : gnode := NCall (recd "Duration.String@1" "String") (NSel conv_call) [].
Theorem C91_ends_refuted : ∃ decls, NoDup (id_of <$> calls_all decls) ∧ graph_file [] decls = None.
Proof. exists [on_conv]. split; [apply (bool_decide_unpack _); by vm_compute|by vm_compute]. Qed.
(** Later in the program such a call is chained on whatever call was recorded before it. *)
Definition other_call : gnode := NCall (recd "log.Print@0" "Print") (NSel (NIdent "log" false)) [].
Theorem C91_conversion_refuted : ∃ decls c es e j p, c ∈ calls_all decls ∧ graph_file [] decls = Some es ∧ e ∈ es ∧ ge_id e = id_of c ∧ ge_chain e = Some j ∧ es !! j = Some p ∧
  (∀ d, inner c = Some d → ge_id p ≠ id_of d ∧ id_of d ∉ (ge_id <$> es)).
Proof.
  exists [other_call; on_conv], on_conv, [GEdge "log.Print@0" "" "" None; GEdge "Duration.String@1" "time" "" (Some 0)], (GEdge "Duration.String@1" "time" "" (Some 0)), 0, (GEdge "log.Print@0" "" "" None).
  split; [by apply (elem_of_list_lookup_2 _ 1)|]. split; [by vm_compute|]. split; [by apply (elem_of_list_lookup_2 _ 1)|]. do 3 (split; [done|]). intros d Hd. cbn in Hd. injection Hd as <-. split; [done|]. apply (bool_decide_unpack _). by vm_compute.
Qed.
(** An assignment without a call is taken for the one of the call that follows: [x := y; foo()]. *)
Definition call_foo : gnode := NCall (recd "main.foo@2" "foo") (NIdent "foo" true) [].
Theorem C91_pending_refuted : ∃ x y c es e, graph_file [] [NAssign [x] [] [NIdent y true]; c] = Some es ∧ e ∈ es ∧ ge_id e = id_of c ∧ ge_assigned e = x ∧ x ≠ "".
Proof. exists "x", "y", call_foo, [GEdge "main.foo@2" "" "x" None], (GEdge "main.foo@2" "" "x" None). split; [by vm_compute|]. split; [by apply elem_of_list_singleton|done]. Qed.
(** [r, err := newRouter()] is recorded as assigned to [err]: the first name is lost. *)
Theorem C91_first_name_refuted : ∃ x y c es, x ≠ y ∧ is_recorded c ∧ graph_file [] [NAssign [x; y] [] [c]] = Some es ∧ ∀ e, e ∈ es → ge_assigned e = y.
Proof. exists "r", "err", call_foo, [GEdge "main.foo@2" "" "err" None]. split; [done|]. split; [done|]. split; [by vm_compute|]. by intros e ->%elem_of_list_singleton. Qed.
(** [x := a.B().C()]: the call of [B], whose result is not assigned to anything, is recorded as assigned to [x], and it comes
    first in the call graph. *)
Definition call_b : gnode := NCall (recd "A.B@1" "B") (NSel (NIdent "a" true)) [].
Definition call_c : gnode := NCall (recd "B.C@1" "C") (NSel call_b) [].
Theorem C91_inner_assigned_refuted : ∃ x c d es e, inner c = Some d ∧ graph_file [] [NAssign [x] [] [c]] = Some es ∧ es !! 0 = Some e ∧ ge_id e = id_of d ∧ ge_assigned e = x.
Proof. exists "x", call_c, call_b, [GEdge "A.B@1" "a" "x" None; GEdge "B.C@1" "" "x" (Some 0)], (GEdge "A.B@1" "a" "x" None). repeat (split; [by vm_compute|]). done. Qed.
(** A method called on the result of a function of a package is recorded as called on a variable with the package's name. *)
Definition get_on_new : gnode := NCall (recd "Mux.Get@1" "Get") (NSel new_router) [].
Theorem C91_package_variable_refuted : ∃ p i j es e, graph_file [] [NCall j (NSel (NCall i (NSel (NIdent p false)) [])) []] = Some es ∧ e ∈ es ∧ ge_id e = gi_id j ∧ ge_var e = p.
Proof.
  exists "chi", (recd "chi.NewRouter@1" "NewRouter"), (recd "Mux.Get@1" "Get"), [GEdge "chi.NewRouter@1" "" "" None; GEdge "Mux.Get@1" "chi" "" (Some 0)], (GEdge "Mux.Get@1" "chi" "" (Some 0)). split; [by vm_compute|]. split; [by apply (elem_of_list_lookup_2 _ 1)|done].
Qed.
(** Two calls of one method in a chain, [b.Add(x).Add(y)], have one instance ID (the position of both is where the chain starts,
    analysis.go 226-303), and only the ID distinguishes calls: both of them are recorded under it, so that one ID stands for two
    calls. *)
Theorem C91_same_method_refuted : ∃ i f x y es, graph_file [] [NCall i (NSel (NCall i (NSel f) [x])) [y]] = Some es ∧ ge_id <$> es = [gi_id i; gi_id i] ∧ recordable i = true.
Proof. exists (recd "B.Add@1" "Add"), (NIdent "b" true), (NIdent "x" true), (NIdent "y" true), [GEdge "B.Add@1" "b" "" None; GEdge "B.Add@1" "" "" (Some 0)]. repeat (split; [by vm_compute|]). by vm_compute. Qed.

Print Assumptions C91_calls_partial.
Print Assumptions C91_assigned_partial.
Print Assumptions C91_kept.
Print Assumptions C91_ends_refuted.
Print Assumptions C91_conversion_refuted.
Print Assumptions C91_pending_refuted.
Print Assumptions C91_first_name_refuted.
Print Assumptions C91_inner_assigned_refuted.
Print Assumptions C91_package_variable_refuted.
Print Assumptions C91_same_method_refuted.
