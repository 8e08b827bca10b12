(** * The properties about group mounts and the application of derived patterns. *)
From Coq Require Import Ascii.
From stdpp Require Import sorting.
From stdpp Require Import base list strings gmap.
From Coq Require Import ZArith.
From Verif Require Import StrLib StrOrder StrSplit PairModel SccSpec StatModel WrapModel WrapSpec WrapProofs2 WrapProps MountModel MountSpec MountProofs.

(** ** C77: group mounts *)
(** The mounts are exactly the methods of a router type that take a path and a function
    and for which a call by the name of that function is recorded; the path position is
    that of the first string parameter. *)
Theorem C77_mounts_exact methods_of es iter routers (mt : gmount) : is_order iter →
  mt ∈ group_mounts methods_of es iter routers ↔
  ∃ pkg recv name ps i f, router_type routers pkg recv ∧ (name, ps) ∈ methods_of pkg (trim_prefix "*" recv) ∧ takes_group ps i f ∧
    runs es (pkg +:+ "." +:+ recv) name f ∧
    mt = GMount (pkg +:+ "." +:+ recv) name ("^" +:+ quote_meta name +:+ "$") ("^" +:+ quote_meta pkg +:+ "\.\*?" +:+ quote_meta (trim_prefix "*" recv) +:+ "$") i.
Proof.
  intros Hi. rewrite elem_of_group_mounts by done. split.
  - intros (r & Hr & Hc & Hm). apply elem_of_mounts_of in Hm as (pkg & recv & name & ps & i & f & Hfq & Hp & Hrr & Hd & Hin & Hg & Hrun & ->).
    exists pkg, recv, name, ps, i, f. rewrite Hfq in *. split; [|done]. split; [done|]. split; [done|]. split; [done|]. eauto.
  - intros (pkg & recv & name & ps & i & f & (Hp & Hrr & Hd & r & Hr & Hc & Hfq) & Hin & Hg & Hrun & ->).
    exists r. split; [done|]. split; [done|]. apply elem_of_mounts_of. exists pkg, recv, name, ps, i, f. rewrite Hfq. done.
Qed.
(** They are listed by receiver and name, the same for every order of the map when no
    type declares two methods of a name. *)
Theorem C77_mounts_determined methods_of es iter iter2 routers : is_order iter → is_order iter2 →
  (∀ pkg recv, router_type routers pkg recv → NoDup (methods_of pkg (trim_prefix "*" recv)).*1) →
  group_mounts methods_of es iter routers = group_mounts methods_of es iter2 routers ∧
  StronglySorted mount_le (group_mounts methods_of es iter routers).
Proof. intros Hi Hi2 Hnd. split; [by apply group_mounts_same|apply group_mounts_sorted]. Qed.
Print Assumptions C77_mounts_exact.
Print Assumptions C77_mounts_determined.

(** A router with [Group(pattern string, fn func())] and [Use(pattern string, mw func())]
    that does not run what it is given. *)
Definition path_arg : gparam := GParam GIdent "pattern" "string".
Definition fn_arg (n : string) : gparam := GParam GFunc n "func()".
Definition house_methods (pkg ty : string) : list (string * list gparam) :=
  if bool_decide (ty = "Router") then [("Group", [path_arg; fn_arg "fn"]); ("Use", [path_arg; fn_arg "mw"]); ("Twice", [fn_arg "pre"; path_arg; fn_arg "fn"])] else [].
Definition house_routers : list dwrap := group_wrappers id id (detect_found gitea no_function by_name app [chi_method] gitea_edges).
Definition runs_fn (recv name callee : string) : wedge := WEdge recv web name "" callee [].
Example C77_example :
  group_mounts house_methods [runs_fn "*Router" "Group" "fn"] id house_routers =
    [GMount "example.com/app/web.*Router" "Group" "^Group$" "^example\.com/app/web\.\*?Router$" 0] ∧
  group_mounts house_methods [runs_fn "*Router" "Twice" "pre"] id house_routers =
    [GMount "example.com/app/web.*Router" "Twice" "^Twice$" "^example\.com/app/web\.\*?Router$" 1] ∧
  (∀ pkg ty, NoDup (house_methods pkg ty).*1).
Proof.
  split; [by vm_compute|]. split; [by vm_compute|]. intros pkg ty. unfold house_methods. destruct (bool_decide (ty = "Router")); [|constructor].
  apply (bool_decide_unpack _). by vm_compute.
Qed.

Lemma house_router : router_type house_routers web "*Router".
Proof.
  split; [done|]. split; [done|]. split; [done|]. eexists. split; [unfold house_routers; vm_compute; left|]. done.
Qed.
(** Full statement, false: a method of a router type that takes a path and a function
    and calls it is a mount — not when it has a value receiver and the registrars a
    pointer. *)
Theorem C77_value_receiver_refuted :
  ∃ methods_of es routers pkg recv name ps i f e, router_type routers pkg recv ∧ (name, ps) ∈ methods_of pkg (trim_prefix "*" recv) ∧ takes_group ps i f ∧
    e ∈ es ∧ we_pkg e = pkg ∧ we_recv e = trim_prefix "*" recv ∧ we_name e = name ∧ we_callee e = f ∧
    ∀ iter mt, is_order iter → mt ∉ group_mounts methods_of es iter routers.
Proof.
  exists house_methods, [runs_fn "Router" "Group" "fn"], house_routers, web, "*Router", "Group", [path_arg; fn_arg "fn"], 0, "fn", (runs_fn "Router" "Group" "fn").
  split; [apply house_router|]. split; [vm_compute; left|].
  split; [by apply group_shape_spec; vm_compute|]. split; [left|]. split; [done|]. split; [done|]. split; [done|]. split; [done|].
  intros iter mt Hi Hm. rewrite (proj1 (C77_mounts_determined house_methods _ iter id house_routers Hi (λ l, Permutation_refl l) (λ pkg recv _, proj2 (proj2 C77_example) _ _))) in Hm.
  vm_compute in Hm. by apply elem_of_nil in Hm.
Qed.
(** Full statement, false: the same for a method that runs its second function. *)
Theorem C77_second_function_refuted :
  ∃ methods_of es routers pkg recv name ps i p j q, router_type routers pkg recv ∧ (name, ps) ∈ methods_of pkg (trim_prefix "*" recv) ∧
    first_with path_param ps i p ∧ ps !! j = Some q ∧ func_param q ∧ runs es (pkg +:+ "." +:+ recv) name (gp_name q) ∧
    ∀ iter mt, is_order iter → mt ∉ group_mounts methods_of es iter routers.
Proof.
  exists house_methods, [runs_fn "*Router" "Twice" "fn"], house_routers, web, "*Router", "Twice", [fn_arg "pre"; path_arg; fn_arg "fn"], 1, path_arg, 2, (fn_arg "fn").
  split; [apply house_router|]. split; [vm_compute; right; right; left|]. split.
  { split; [done|]. split; [done|]. intros [|j] y Hj Hy; [|lia]. cbn in Hy. injection Hy as <-. by intros [? _]. }
  split; [done|]. split; [done|]. split.
  { exists (runs_fn "*Router" "Twice" "fn"). split; [left|]. done. }
  intros iter mt Hi Hm. rewrite (proj1 (C77_mounts_determined house_methods _ iter id house_routers Hi (λ l, Permutation_refl l) (λ pkg recv _, proj2 (proj2 C77_example) _ _))) in Hm.
  vm_compute in Hm. by apply elem_of_nil in Hm.
Qed.
(** Full statement, false: a mount runs the function it is given — a call of anything
    of that name will do. *)
Theorem C77_name_only_refuted :
  ∃ methods_of es routers mt, mt ∈ group_mounts methods_of es id routers ∧
    ∀ e, e ∈ es → we_callee_pkg e ≠ "" ∧ we_callee_pkg e ≠ we_pkg e.
Proof.
  exists house_methods, [WEdge "*Router" web "Use" "example.com/app/hooks" "mw" []], house_routers.
  exists (GMount "example.com/app/web.*Router" "Use" "^Use$" "^example\.com/app/web\.\*?Router$" 0).
  split; [vm_compute; left|]. intros e ->%elem_of_list_singleton. done.
Qed.
Print Assumptions C77_value_receiver_refuted.
Print Assumptions C77_second_function_refuted.
Print Assumptions C77_name_only_refuted.

(** ** C78: applying what was derived *)
Section apply.
Context {M R Q P T : Type} (idM : M → string * string) (idR : R → string * string) (idQ : Q → string * string)
  (idP : P → string * string) (idT : T → string * string) (described : R → bool).
Notation apply_ := (apply_wrappers idM idR idQ idP idT described).
(** A wrapper of the list is complete and has something. *)
Definition given {A} (ws : list (@awrap M R Q P T)) (has : awrap → A → Prop) (x : A) : Prop :=
  ∃ w, w ∈ ws ∧ aw_complete w = true ∧ has w x.
(** What a wrapper is applied as. *)
Definition as_resp (w : @awrap M R Q P T) (r : R) : Prop := aw_resp w = Some r ∧ described r = true.
Definition as_route (w : @awrap M R Q P T) (t : T) : Prop :=
  aw_mount w = None ∧ (∀ r, ¬ as_resp w r) ∧ aw_req w = None ∧ aw_param w = None ∧ aw_route w = t.

Lemma resp_role_spec w r : resp_role described w = Some r ↔ as_resp w r.
Proof.
  unfold resp_role, as_resp. destruct (aw_resp w) as [r0|]; [|split; [done|by intros [? _]]]. destruct (described r0) eqn:E.
  - split; [by intros [= <-]|by intros [? _]].
  - split; [done|]. intros [[= <-] ?]. congruence.
Qed.
Lemma route_role_spec w t : route_role described w = Some t ↔ as_route w t.
Proof.
  unfold route_role, as_route. pose proof (resp_role_spec w) as Hr. destruct (aw_mount w); [split; [done|by intros (? & _)]|].
  destruct (resp_role described w) as [r|]; [split; [done|]; intros (_ & H & _); destruct (H r); by apply Hr|].
  destruct (aw_req w); [split; [done|by intros (_ & _ & ? & _)]|]. destruct (aw_param w); [split; [done|by intros (_ & _ & _ & ? & _)]|].
  split; [|by intros (_ & _ & _ & _ & ->)]. intros [= <-]. split; [done|]. split; [|done]. intros r H. by apply Hr in H.
Qed.
Lemma grown_iff {A} (identity : A → string * string) (G G' : A → Prop) l l' : (∀ x, G x ↔ G' x) → grown identity G l l' → grown identity G' l l'.
Proof.
  intros H (added & E & Hg & Hnd & Hnew & Hall). exists added. split; [done|]. split; [intros x Hx; by apply H, Hg|]. split; [done|]. split; [done|].
  intros x Hx. apply Hall. by apply H.
Qed.

(** Every list grows by roles of complete wrappers only, put before what the
    configuration has, which stays; no two patterns of an identity are added, none that
    is configured already, and every role of a complete wrapper is covered.  The count
    is the number added. *)
Theorem C78_applied (c : fwconf) (ws : list awrap) : let r := apply_ c ws in
  grown idM (given ws (λ w m, aw_mount w = Some m)) (fc_mounts c) (fc_mounts r.1) ∧
  grown idR (given ws as_resp) (fc_resps c) (fc_resps r.1) ∧
  grown idQ (given ws (λ w q, aw_req w = Some q)) (fc_reqs c) (fc_reqs r.1) ∧
  grown idP (given ws (λ w p, aw_param w = Some p)) (fc_params c) (fc_params r.1) ∧
  grown idT (given ws as_route) (fc_routes c) (fc_routes r.1) ∧
  length (fc_mounts r.1) + length (fc_resps r.1) + length (fc_reqs r.1) + length (fc_params r.1) + length (fc_routes r.1) =
  length (fc_mounts c) + length (fc_resps c) + length (fc_reqs c) + length (fc_params c) + length (fc_routes c) + r.2.
Proof.
  cbv zeta. destruct (apply_spec idM idR idQ idP idT described c ws) as (-> & -> & -> & -> & -> & H).
  split; [eapply grown_iff; [|apply add_all_spec]; intros x; apply elem_of_roles|].
  split; [eapply grown_iff; [|apply add_all_spec]; intros x; rewrite elem_of_roles; unfold given; by setoid_rewrite resp_role_spec|].
  split; [eapply grown_iff; [|apply add_all_spec]; intros x; apply elem_of_roles|].
  split; [eapply grown_iff; [|apply add_all_spec]; intros x; apply elem_of_roles|].
  split; [eapply grown_iff; [|apply add_all_spec]; intros x; rewrite elem_of_roles; unfold given; by setoid_rewrite route_role_spec|].
  exact H.
Qed.
(** Applying the same wrappers again changes nothing. *)
Theorem C78_idempotent (c : fwconf) (ws : list awrap) : apply_ (apply_ c ws).1 ws = ((apply_ c ws).1, 0).
Proof.
  destruct (apply_spec idM idR idQ idP idT described c ws) as (E1 & E2 & E3 & E4 & E5 & _).
  destruct (apply_spec idM idR idQ idP idT described (apply_ c ws).1 ws) as (F1 & F2 & F3 & F4 & F5 & F6).
  assert (∀ A (identity : A → string * string) l xs, add_all identity (add_all identity l xs) xs = add_all identity l xs) as Hid.
  { intros A identity l xs. apply add_all_id. intros x Hx. destruct (add_all_spec identity l xs) as (_ & _ & _ & _ & _ & H). by apply H. }
  rewrite E1, Hid in F1. rewrite E2, Hid in F2. rewrite E3, Hid in F3. rewrite E4, Hid in F4. rewrite E5, Hid in F5.
  rewrite F1, F2, F3, F4, F5, <- E1, <- E2, <- E3, <- E4, <- E5 in F6.
  destruct (apply_ (apply_ c ws).1 ws) as [c2 n]. cbn [fst snd] in *. f_equal; [|lia].
  rewrite <- E1 in F1. rewrite <- E2 in F2. rewrite <- E3 in F3. rewrite <- E4 in F4. rewrite <- E5 in F5.
  destruct c2 as [m2 r2 q2 p2 t2], (apply_ c ws).1 as [m1 r1 q1 p1 t1]. cbn in F1, F2, F3, F4, F5. by subst.
Qed.
End apply.
Print Assumptions C78_applied.
Print Assumptions C78_idempotent.

Definition pat (c : string) : string * string * bool := (c, "r", true).
Definition pat_id (p : string * string * bool) : string * string := p.1.
Example C78_example :
  let ws := [AWrap true (Some (pat "G")) None None None (pat ""); AWrap true None (Some ("J", "r", false)) None (Some (pat "P")) (pat "");
             AWrap false None None None None (pat "half"); AWrap true None None None None (pat "Get"); AWrap true None None None None (pat "Own")] in
  apply_wrappers pat_id pat_id pat_id pat_id pat_id snd (FwConf [] [] [] [] [("Own", "r", false)]) ws =
  (FwConf [pat "G"] [] [] [pat "P"] [pat "Get"; ("Own", "r", false)], 3).
Proof. by vm_compute. Qed.

(** Full statement, false: "a second run on the same config produces the same config" —
    the derived patterns are registrations for the second run, which finds wrappers of
    a longer chain. *)
Definition by_names (p : rpat) (e : wedge) : bool :=
  bool_decide (rp_call p = "^" +:+ we_callee e +:+ "$") ||
  match rp_call p with
  | String _ (String _ rest) => bool_decide (we_callee e ∈ split_byte "|" (default "" (fst <$> split_last ")" rest)))
  | _ => false
  end.
Theorem C78_second_run_refuted :
  ∃ method_of function_of matches modpath es config,
    let run := route_run method_of function_of matches modpath es in
    ∃ p, p ∈ run (run config) ∧ p ∉ run config ∧ length (run (run config)) = S (length (run config)).
Proof.
  exists forwarding, no_function, by_names, app, chain, [chi_method]. cbv zeta.
  exists (RPat "^(A1|A2|A3|A4|A5)$" "^example\.com/app/web\.\*?Router$" true 1 true 2 true 0 false false false).
  set (r1 := route_run forwarding no_function by_names app chain [chi_method]).
  assert (r1 = [RPat "^(A1|A2|A3|A4)$" "^example\.com/app/web\.\*?Router$" true 1 true 2 true 0 false false false; chi_method]) as -> by (by vm_compute).
  split; [vm_compute; left|]. split; [|by vm_compute].
  intros H. apply elem_of_cons in H as [H|H]; [discriminate H|]. apply elem_of_list_singleton in H. discriminate H.
Qed.
Print Assumptions C78_second_run_refuted.
