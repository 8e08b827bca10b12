(** * C16, C17, C24, C25, C29, C30, C51: routes. *)
From Coq Require Import Ascii.
From stdpp Require Import base list strings gmap.
From Verif Require Import StrOrder StrLib StrSplit RouteModel RouteSpec RouteProofs.

(** ** C17 *)

(** The seam is one slash, and nothing but slashes is lost on either side. *)
Theorem C17_one_slash_at_the_seam : ∀ a b, ∃ l r i j,
  join_paths a b = l +:+ "/" +:+ r ∧ a = l +:+ rep_byte i slash ∧ b = rep_byte j slash +:+ r ∧
  ¬ ends_with slash l ∧ ¬ starts_with slash r.
Proof.
  intros a b. destruct (trim_right_spec slash a) as (i & Ha & Hea). destruct (trim_left_spec slash b) as (j & Hb & Hsb).
  exists (trim_right slash a), (trim_left slash b), i, j. by rewrite join_paths_eq.
Qed.
Print Assumptions C17_one_slash_at_the_seam.

Theorem C17_leading_slash : ∀ a b, a = "" ∨ starts_with slash a → starts_with slash (join_paths a b).
Proof.
  intros a b Ha. rewrite join_paths_eq. destruct Ha as [->|[t ->]]; [by eexists|].
  simpl. destruct (trim_right slash t); eexists; reflexivity.
Qed.
Print Assumptions C17_leading_slash.

Theorem C17_join_is_associative : ∀ a b c, join_paths (join_paths a b) c = join_paths a (join_paths b c).
Proof. exact join_paths_assoc. Qed.
Print Assumptions C17_join_is_associative.

(** Seen as segment lists, joining is concatenation. *)
Theorem C17_join_appends_segments : ∀ a b, mount_segments (join_paths a b) = mount_segments a ++ mount_segments b.
Proof. exact segments_join. Qed.
Print Assumptions C17_join_appends_segments.

(** What the segments of a path are: slashes at the ends do not matter, those
    between the parts separate them. *)
Theorem C17_segments_are_the_parts : ∀ l i j, l ≠ [] → Forall (λ x, contains_byte slash x = false) l →
  head l ≠ Some "" → last l ≠ Some "" →
  mount_segments (rep_byte i slash +:+ str_join "/" l +:+ rep_byte j slash) = l.
Proof. exact segments_spec. Qed.
Print Assumptions C17_segments_are_the_parts.

Example C17_example : join_paths "/api//" "//users/{id}" = "/api/users/{id}" ∧ join_paths "" "x" = "/x" ∧
  join_paths (join_paths "/a/" "//") "b" = "/a/b" ∧ mount_segments "//api/v1/" = ["api"; "v1"] ∧
  mount_segments (rep_byte 2 slash +:+ str_join "/" ["api"; "v1"] +:+ rep_byte 1 slash) = ["api"; "v1"].
Proof. by vm_compute. Qed.

(** ** C16 *)

(** The surviving routes, in the original order, are exactly those that are not a
    partially mounted copy of another one. *)
Theorem C16_dropped_iff_subsumed : ∀ routes, ∃ kept,
  ident <$> drop_subsumed routes = ident <$> kept ∧ sublist kept routes ∧
  (∀ r, r ∈ routes → (r ∈ kept ↔ ¬ ∃ r', r' ∈ routes ∧ subsumed_by r r')).
Proof.
  intros routes. exists (filter (λ r, dropped_in routes r = false) routes). split; [apply drop_kept_idents|]. split.
  - generalize (dropped_in routes). intros f. induction routes as [|r l IH]; [constructor|].
    rewrite filter_cons. destruct (decide _); by constructor.
  - intros r Hr. rewrite elem_of_list_filter, <- dropped_in_spec. destruct (dropped_in routes r).
    + split; [by intros [? _]|]. intros H. by destruct H.
    + split; [done|]. intros _. done.
Qed.
Print Assumptions C16_dropped_iff_subsumed.

(** Every route is documented at its own mount or at a fuller one. *)
Theorem C16_every_route_is_covered : ∀ routes r, r ∈ routes →
  ∃ k, k ∈ drop_subsumed routes ∧ (ident k = ident r ∨ subsumed_by r k).
Proof.
  intros routes r Hr. destruct (covered routes r Hr) as (m & Hm & Hc & Hmax).
  eexists. split; [apply elem_drop; exists m; split; [done|]; split; [done|reflexivity]|].
  destruct Hc as [->|Hc]; [left; apply merges_ident|right].
  eapply ident_subsumed; [reflexivity|symmetry; apply merges_ident|done].
Qed.
Print Assumptions C16_every_route_is_covered.

Theorem C16_survivors_are_incomparable : ∀ routes k k', k ∈ drop_subsumed routes → k' ∈ drop_subsumed routes →
  ¬ subsumed_by k k'.
Proof.
  intros routes k k' (r & Hr & Hn & ->)%elem_drop (r' & Hr' & Hn' & ->)%elem_drop Hs.
  apply (Hn r' Hr'). eapply ident_subsumed; [apply merges_ident|apply merges_ident|done].
Qed.
Print Assumptions C16_survivors_are_incomparable.

Theorem C16_dropping_again_changes_nothing : ∀ routes, drop_subsumed (drop_subsumed routes) = drop_subsumed routes.
Proof. intros routes. apply drop_none. intros r r' Hr Hr'. by eapply C16_survivors_are_incomparable. Qed.
Print Assumptions C16_dropping_again_changes_nothing.

(** Types used by a dropped copy are still used by every route that covers it. *)
Lemma used_merges (ds : list route) e name : is_Some (rt_used (fold_left merge_route ds e) !! name) ↔
  is_Some (rt_used e !! name) ∨ ∃ d, d ∈ ds ∧ is_Some (rt_used d !! name).
Proof.
  revert e. induction ds as [|d ds IH]; intros e; simpl.
  - split; [by left|]. intros [?|(d & Hd & _)]; [done|by apply not_elem_of_nil in Hd].
  - rewrite IH. simpl. rewrite lookup_merge.
    assert (is_Some (diag_None used_merge (rt_used e !! name) (rt_used d !! name)) ↔
      is_Some (rt_used e !! name) ∨ is_Some (rt_used d !! name)) as ->.
    { destruct (rt_used e !! name) as [[s|]|], (rt_used d !! name) as [u|]; simpl; split; intros H; eauto;
        by destruct H as [[? ?]|[? ?]]. }
    split.
    + intros [[H|H]|(d' & Hd' & H)]; [by left|right; exists d; split; [by left|done]|right; exists d'; split; [by right|done]].
    + intros [H|(d' & Hd' & H)]; [by left; left|]. apply elem_of_cons in Hd' as [->|Hd']; [by left; right|right; eauto].
Qed.
Theorem C16_types_survive : ∀ routes r name, r ∈ routes → is_Some (rt_used r !! name) →
  ∃ k, k ∈ drop_subsumed routes ∧ (ident k = ident r ∨ subsumed_by r k) ∧ is_Some (rt_used k !! name).
Proof.
  intros routes r name Hr Hn. destruct (covered routes r Hr) as (m & Hm & Hc & Hmax).
  eexists. split; [apply elem_drop; exists m; split; [done|]; split; [done|reflexivity]|]. split.
  - destruct Hc as [->|Hc]; [left; apply merges_ident|right].
    eapply ident_subsumed; [reflexivity|symmetry; apply merges_ident|done].
  - apply used_merges. destruct Hc as [->|Hc]; [by left|right]. exists r. split; [|done].
    apply elem_of_list_filter. split; [apply same_group_spec; destruct Hc as ((?&?&?)&_); done|].
    apply elem_of_list_filter. split; [|done]. apply dropped_in_spec. eauto.
Qed.
Print Assumptions C16_types_survive.

Definition ex_r (mount ty : string) : route :=
  Route "h.Get" "GET" "/{id}" mount {[ ty := None ]} ∅ None [] [] None.
Example C16_example : ident <$> drop_subsumed [ex_r "/api" "A"; ex_r "/api/user/" "B"; ex_r "" "C"; ex_r "/v2" "D"; ex_r "user" "E"] =
  ident <$> [ex_r "/api/user/" "B"; ex_r "/v2" "D"].
Proof. by vm_compute. Qed.
Example C16_example_hyp : subsumed_by (ex_r "user" "E") (ex_r "/api/user/" "B").
Proof.
  split; [done|]. split; [|vm_compute; lia].
  replace (mount_segments (rt_mount (ex_r "user" "E"))) with ["user"] by done.
  replace (mount_segments (rt_mount (ex_r "/api/user/" "B"))) with ["api"; "user"] by done.
  apply sublist_cons. apply sublist_skip. constructor.
Qed.

(** ** C51 *)

(** A surviving route that covers none of the dropped copies is left as it was -
    false: the dropped copy is folded into every survivor of its group, here
    putting the security of /v2 on the unprotected route under /pub. *)
Theorem C51_fold_only_into_covering_routes_refuted : ∃ routes k r,
  k ∈ drop_subsumed routes ∧ r ∈ routes ∧ ident k = ident r ∧
  (∀ d, d ∈ routes → ¬ subsumed_by d r) ∧
  rt_security r = None ∧ rt_security k = Some [[("bearer", [])]].
Proof.
  set (v2 := Route "h.Get" "GET" "/{id}" "/v2" ∅ ∅ None [] [] (Some [[("bearer", [])]])).
  set (v2x := Route "h.Get" "GET" "/{id}" "/v2/x" ∅ ∅ None [] [] (Some [[("bearer", [])]])).
  set (pub := Route "h.Get" "GET" "/{id}" "/pub" ∅ ∅ None [] [] None).
  exists [v2; v2x; pub], (merge_route pub v2), pub. split; [|split; [|split; [|split]]].
  - vm_compute. right. left.
  - right. right. left.
  - done.
  - intros d Hd (_ & Hs & Hl). cut (is_subsequence (mount_segments (rt_mount d)) (mount_segments (rt_mount pub)) = false).
    { intros Hf. apply is_subsequence_spec in Hs. congruence. }
    apply elem_of_cons in Hd as [->|Hd]; [done|]. apply elem_of_cons in Hd as [->|Hd]; [done|].
    apply elem_of_list_singleton in Hd as ->. vm_compute in Hl. lia.
  - done.
Qed.
Print Assumptions C51_fold_only_into_covering_routes_refuted.

(** True when all survivors of an endpoint cover all its dropped copies; in
    particular a survivor whose endpoint has no dropped copy is untouched. *)
Theorem C51_untouched_without_dropped_copies_partial : ∀ routes r, r ∈ routes →
  (∀ d d', d ∈ routes → d' ∈ routes → same_endpoint d r → ¬ subsumed_by d d') → r ∈ drop_subsumed routes.
Proof.
  intros routes r Hr H. apply elem_drop. exists r. split; [done|]. split; [intros r' Hr'; by apply H|].
  assert (filter (λ d, same_group r d = true) (filter (λ r, dropped_in routes r = true) routes) = []) as ->; [|done].
  destruct (filter _ _) as [|d l] eqn:E; [done|]. exfalso.
  assert (d ∈ filter (λ d, same_group r d = true) (filter (λ r, dropped_in routes r = true) routes)) as Hd by (rewrite E; by left).
  apply elem_of_list_filter in Hd as [Hg Hd]. apply elem_of_list_filter in Hd as [Hdr Hd].
  apply dropped_in_spec in Hdr as (d' & Hd' & Hs). apply (H d d'); try done.
  apply same_group_spec in Hg as (? & ? & ?). done.
Qed.
Print Assumptions C51_untouched_without_dropped_copies_partial.

(** ** C24 *)

(** The survivor among any number of analyses of one response: there is one as
    soon as one of them exists, it is one of them, it is informative if any is,
    and among the equally informative ones it has the least body type. *)
Theorem C24_best_response : ∀ l, match fold_left prefer_response l None with
  | None => ∀ x, x ∈ l → x = None
  | Some r => Some r ∈ l ∧ ∀ x, Some x ∈ l →
      (informative (rp_schema x) → informative (rp_schema r)) ∧
      ((informative (rp_schema x) ↔ informative (rp_schema r)) → string_le (rp_body r) (rp_body x))
  end.
Proof.
  intros l. pose proof (best_ok l None) as H. destruct (fold_left prefer_response l None) as [r|].
  - destruct H as [[?|Hin] Hb]; [done|]. split; [done|]. intros x Hx.
    destruct (Hb x (or_intror Hx)) as [H1 H2]. unfold response_concrete in *. rewrite <- !schema_concrete_spec.
    split; [done|]. intros Hiff. apply H2. destruct (schema_concrete (rp_schema x)), (schema_concrete (rp_schema r)); try done.
    + by apply proj1 in Hiff; rewrite Hiff.
    + by apply proj2 in Hiff; rewrite Hiff.
  - destruct H as [_ HF]. by apply Forall_forall.
Qed.
Print Assumptions C24_best_response.

(** Arrival order does not matter, up to full ties. *)
Theorem C24_response_order_irrelevant : ∀ l1 l2, l1 ≡ₚ l2 →
  resp_tie (fold_left prefer_response l1 None) (fold_left prefer_response l2 None).
Proof.
  intros l1 l2 Hp. pose proof (C24_best_response l1) as H1. pose proof (C24_best_response l2) as H2.
  destruct (fold_left prefer_response l1 None) as [r1|], (fold_left prefer_response l2 None) as [r2|]; simpl.
  - destruct H1 as [Hin1 H1], H2 as [Hin2 H2].
    destruct (H1 r2) as [Ha Hb]; [by rewrite Hp|]. destruct (H2 r1) as [Hc Hd]; [by rewrite <- Hp|].
    split; [done|]. apply (anti_symm string_le); [apply Hb|apply Hd]; split; auto.
  - destruct H1 as [Hin1 _]. specialize (H2 (Some r1)). rewrite <- Hp in H2. by specialize (H2 Hin1).
  - destruct H2 as [Hin2 _]. specialize (H1 (Some r2)). rewrite Hp in H1. by specialize (H1 Hin2).
  - done.
Qed.
Print Assumptions C24_response_order_irrelevant.

Theorem C24_response_choice_algebra : ∀ a b c,
  prefer_response (prefer_response a b) c = prefer_response a (prefer_response b c) ∧ prefer_response a a = a.
Proof.
  intros a b c. split; [apply prefer_response_assoc|]. destruct a as [a|]; [|done]. simpl.
  rewrite eqb_reflx. by rewrite string_lt_irrefl.
Qed.
Print Assumptions C24_response_choice_algebra.

(** Requests: informative wins, choosing is associative and idempotent... *)
Theorem C24_request_choice_partial : ∀ a b c,
  prefer_request (prefer_request a b) c = prefer_request a (prefer_request b c) ∧ prefer_request a a = a ∧
  (∀ l x, Some x ∈ l → informative (rq_schema x) →
    ∃ r, fold_left prefer_request l None = Some r ∧ Some r ∈ l ∧ informative (rq_schema r)).
Proof.
  intros a b c. split; [|split].
  - destruct a as [a|], b as [b|], c as [c|]; try done; simpl;
      repeat (match goal with |- context [request_concrete ?x] => destruct (request_concrete x) eqn:? end; simpl);
      congruence.
  - destruct a as [a|]; [|done]. simpl. by destruct (request_concrete a).
  - assert (∀ (l : list (option reqi)) cur, (∃ x, (cur = Some x ∨ Some x ∈ l) ∧ request_concrete x = true) →
      ∃ r, fold_left prefer_request l cur = Some r ∧ (cur = Some r ∨ Some r ∈ l) ∧ request_concrete r = true) as Hgen.
    { induction l as [|o l IH]; intros cur (x & Hx & Hc); simpl.
      - destruct Hx as [->|Hx]; [|by apply not_elem_of_nil in Hx]. exists x. split; [done|]. split; [by left|done].
      - destruct (IH (prefer_request cur o)) as (r & Hr & Hor & Hrc).
        { destruct cur as [c0|], o as [o0|]; simpl.
          - destruct (request_concrete o0) eqn:Eo, (request_concrete c0) eqn:Ec; simpl; eauto.
            exists x. split; [|done]. destruct Hx as [[= <-]|Hx]; [congruence|].
            apply elem_of_cons in Hx as [[= <-]|Hx]; [congruence|by right].
          - exists x. split; [|done]. destruct Hx as [?|Hx]; [by left|]. apply elem_of_cons in Hx as [?|Hx]; [done|by right].
          - exists x. split; [|done]. destruct Hx as [?|Hx]; [done|]. apply elem_of_cons in Hx as [[= <-]|Hx]; [by left|by right].
          - exists x. split; [|done]. destruct Hx as [?|Hx]; [done|]. apply elem_of_cons in Hx as [?|Hx]; [done|by right]. }
        exists r. split; [done|]. split; [|done]. destruct Hor as [Hor|Hor]; [|by right; right].
        destruct cur as [c0|], o as [o0|]; simpl in Hor.
        + destruct (request_concrete o0 && negb (request_concrete c0)); [right; rewrite Hor; by left|].
          destruct (request_concrete c0 && negb (request_concrete o0)); [by left|right; rewrite Hor; by left].
        + by left.
        + right. rewrite Hor. by left.
        + done. }
    intros l x Hx Hi. destruct (Hgen l None) as (r & Hr & [?|Hin] & Hc); [|done|].
    + exists x. split; [by right|by apply schema_concrete_spec].
    + exists r. split; [done|]. split; [done|by apply schema_concrete_spec].
Qed.
Print Assumptions C24_request_choice_partial.

(** ...but among two informative requests the later one wins, so the order shows. *)
Theorem C24_request_order_refuted : ∃ a b, informative (rq_schema a) ∧ informative (rq_schema b) ∧
  rq_body a ≠ rq_body b ∧
  fold_left prefer_request [Some a; Some b] None ≠ fold_left prefer_request [Some b; Some a] None.
Proof.
  exists (Reqi (Some (Sch "#/components/schemas/A" [] 0 0 false "")) "A" "application/json"),
         (Reqi (Some (Sch "#/components/schemas/B" [] 0 0 false "")) "B" "application/json").
  split; [|split; [|done]]; eexists; (split; [reflexivity|by left]).
Qed.
Print Assumptions C24_request_order_refuted.

(** A body resolved to alternatives (oneOf) counts as uninformative, and loses
    against a bare object whose body type sorts first. *)
Theorem C24_resolved_alternatives_lost_refuted : ∃ alt generic s g,
  rp_schema alt = Some s ∧ sc_oneof s = 2 ∧
  rp_schema generic = Some g ∧ g = Sch "" [] 0 0 false "type: object" ∧
  prefer_response (Some alt) (Some generic) = Some generic.
Proof.
  exists (Resp (Some (Sch "" [] 0 2 false "")) "m.Shape" "application/json" 200),
         (Resp (Some (Sch "" [] 0 0 false "type: object")) "any" "application/json" 200).
  eexists _, _. split; [reflexivity|]. split; [reflexivity|]. split; [reflexivity|]. by split.
Qed.
Print Assumptions C24_resolved_alternatives_lost_refuted.

Example C24_example :
  let gen := Resp (Some (Sch "" [] 0 0 false "type: object")) "any" "application/json" 200 in
  let user := Resp (Some (Sch "#/components/schemas/User" [] 0 0 false "")) "m.User" "application/json" 200 in
  let team := Resp (Some (Sch "#/components/schemas/Team" [] 0 0 false "")) "m.Team" "application/json" 200 in
  fold_left prefer_response [Some gen; None; Some user; Some team; Some gen] None = Some team ∧
  fold_left prefer_response [Some team; Some gen; Some user] None = Some team.
Proof. by vm_compute. Qed.

(** ** C25 *)
Theorem C25_no_used_type_is_lost : ∀ e n name,
  (is_Some (rt_used (merge_route e n) !! name) ↔ is_Some (rt_used e !! name) ∨ is_Some (rt_used n !! name)) ∧
  (∀ s, rt_used e !! name = Some (Some s) → rt_used (merge_route e n) !! name = Some (Some s)) ∧
  (∀ s, rt_used n !! name = Some (Some s) → (∀ s', rt_used e !! name ≠ Some (Some s')) →
     rt_used (merge_route e n) !! name = Some (Some s)).
Proof.
  intros e n name. simpl. rewrite lookup_merge.
  destruct (rt_used e !! name) as [[s|]|], (rt_used n !! name) as [u|]; simpl;
    (split; [|split]);
    repeat match goal with
    | |- is_Some _ ↔ _ => split; intros H; eauto; by destruct H as [[? ?]|[? ?]]
    | |- ∀ s', Some (Some ?s) = Some (Some s') → _ => intros s' [= <-]; done
    | |- ∀ s', Some None = _ → _ => intros s' ?; done
    | |- ∀ s', None = _ → _ => intros s' ?; done
    end; try naive_solver.
Qed.
Print Assumptions C25_no_used_type_is_lost.

(** Responses: a slot documented by either analysis stays documented, and with
    the better of the two descriptions. *)
Theorem C25_response_slots_kept : ∀ e n slot,
  (is_Some (rt_response (merge_route e n) !! slot) ↔
     is_Some (rt_response e !! slot) ∨ is_Some (rt_response n !! slot)) ∧
  rt_response (merge_route e n) !! slot ≫= id =
    prefer_response (rt_response e !! slot ≫= id) (rt_response n !! slot ≫= id).
Proof.
  intros e n slot. simpl. rewrite lookup_merge.
  destruct (rt_response e !! slot) as [[r|]|], (rt_response n !! slot) as [[u|]|]; simpl;
    (split; [split; intros H; eauto; by destruct H as [[? ?]|[? ?]]|]); try done.
Qed.
Print Assumptions C25_response_slots_kept.

(** Parameters and tags come from the first analysis that has any; identity,
    path and mount are the route's own. *)
Lemma first_nonempty {A} (get : route → list A) (H : ∀ e n, get (merge_route e n) = or_when_empty (get e) (get n)) ds k :
  (∀ a x b, k :: ds = a ++ x :: b → get x ≠ [] → (∀ y, y ∈ a → get y = []) → get (fold_left merge_route ds k) = get x) ∧
  ((∀ y, y ∈ k :: ds → get y = []) → get (fold_left merge_route ds k) = []).
Proof.
  revert k. induction ds as [|d ds IH]; intros k; split.
  - intros a x b E Hx Ha. destruct a as [|y [|z a]]; simplify_eq/=; done.
  - intros Hall. apply Hall. left.
  - intros a x b E Hx Ha. simpl. destruct (IH (merge_route k d)) as [IH1 _]. destruct a as [|y a].
    + injection E as <- _. rewrite (IH1 [] (merge_route k d) ds eq_refl).
      * rewrite H. by destruct (get k).
      * rewrite H. by destruct (get k).
      * by intros ? ?%elem_of_nil.
    + injection E as -> E. assert (get y = []) as Hy by (apply Ha; left). destruct a as [|z a].
      * injection E as -> _. rewrite (IH1 [] (merge_route y x) ds eq_refl).
        -- by rewrite H, Hy.
        -- by rewrite H, Hy.
        -- by intros ? ?%elem_of_nil.
      * injection E as -> ->. apply (IH1 (merge_route y z :: a) x b eq_refl Hx).
        intros w [->|Hw]%elem_of_cons; [|apply Ha; right; by right].
        rewrite H, Hy. simpl. apply Ha. right. left.
  - intros Hall. simpl. destruct (IH (merge_route k d)) as [_ IH2]. apply IH2. intros y [->|Hy]%elem_of_cons.
    + rewrite H, (Hall k) by left. simpl. apply Hall. right. left.
    + apply Hall. right. by right.
Qed.
Theorem C25_params_and_tags_of_the_first : ∀ k ds a x b, k :: ds = a ++ x :: b →
  (rt_params x ≠ [] → (∀ y, y ∈ a → rt_params y = []) → rt_params (fold_left merge_route ds k) = rt_params x) ∧
  (rt_tags x ≠ [] → (∀ y, y ∈ a → rt_tags y = []) → rt_tags (fold_left merge_route ds k) = rt_tags x).
Proof.
  intros k ds a x b E. split.
  - exact (proj1 (first_nonempty rt_params (λ _ _, eq_refl) ds k) a x b E).
  - exact (proj1 (first_nonempty rt_tags (λ _ _, eq_refl) ds k) a x b E).
Qed.
Print Assumptions C25_params_and_tags_of_the_first.
Theorem C25_identity_kept : ∀ k ds, let m := fold_left merge_route ds k in
  (rt_fn m, rt_method m, rt_path m, rt_mount m) = (rt_fn k, rt_method k, rt_path k, rt_mount k).
Proof. intros k ds. revert k. induction ds as [|d ds IH]; intros k; [done|]. exact (IH (merge_route k d)). Qed.
Print Assumptions C25_identity_kept.

Theorem C25_own_security_wins_partial : ∀ e n req reqs, rt_security e = Some (req :: reqs) →
  rt_security (merge_route e n) = rt_security e.
Proof. intros e n req reqs H. simpl. by rewrite H. Qed.
Print Assumptions C25_own_security_wins_partial.

(** A route explicitly marked public does not stay public: merging in an analysis
    that has requirements protects it, and merging in one that says nothing makes
    it inherit the document's security. *)
Theorem C25_public_marker_refuted : ∃ e n1 n2, rt_security e = Some [] ∧
  rt_security n1 = Some [[("bearer", [])]] ∧ rt_security (merge_route e n1) = Some [[("bearer", [])]] ∧
  rt_security (merge_route n1 e) = Some [[("bearer", [])]] ∧
  rt_security n2 = None ∧ rt_security (merge_route e n2) = None.
Proof.
  exists (Route "f" "GET" "/p" "" ∅ ∅ None [] [] (Some [])),
    (Route "f" "GET" "/p" "" ∅ ∅ None [] [] (Some [[("bearer", [])]])),
    (Route "f" "GET" "/p" "" ∅ ∅ None [] [] None). done.
Qed.
Print Assumptions C25_public_marker_refuted.

Example C25_example :
  let s := Sch "#/x" [] 0 0 false "" in
  let e := Route "f" "GET" "/p" "" {[ "A" := None; "B" := Some s ]} ∅ None [] [] (Some [[("k", [])]]) in
  let n := Route "f" "GET" "/p" "" {[ "A" := Some s; "C" := None ]} ∅ None [] [] None in
  rt_used (merge_route e n) !! "A" = Some (Some s) ∧ rt_used (merge_route e n) !! "C" = Some None ∧
  rt_security (merge_route e n) = Some [[("k", [])]].
Proof. by vm_compute. Qed.
Example C25_example_params :
  let r ps ts := Route "f" "GET" "/p" "" ∅ ∅ None ps ts None in
  let m := fold_left merge_route [r [] ["t"]; r ["b"] ["u"]; r ["c"] []] (r [] []) in
  rt_params m = ["b"] ∧ rt_tags m = ["t"].
Proof. by vm_compute. Qed.

(** ** C29 *)

(** If every accepting matcher can extract, the one used is the first of those
    with the highest priority. *)
Theorem C29_highest_priority_wins_partial : ∀ A (ms : list (rmatcher A)), ms ≠ [] →
  (∀ m, m ∈ ms → is_Some (rm_extract m)) →
  ∃ m x pre post, execute_route ms = (true, Some x) ∧ rm_extract m = Some x ∧ ms = pre ++ m :: post ∧
    (∀ q, q ∈ pre → (rm_priority q < rm_priority m)%Z) ∧ (∀ q, q ∈ post → (rm_priority q ≤ rm_priority m)%Z).
Proof. intros A ms Hne Hall. pose proof (execute_route_ok ms Hall). by destruct ms. Qed.
Print Assumptions C29_highest_priority_wins_partial.

(** What is reported as extracted was extracted by an accepting matcher. *)
Theorem C29_only_real_extractions_partial : ∀ A (ms : list (rmatcher A)) x, execute_route ms = (true, Some x) →
  ∃ m, m ∈ ms ∧ rm_extract m = Some x.
Proof. intros A ms x. apply execute_route_sound. Qed.
Print Assumptions C29_only_real_extractions_partial.

(** In general a higher-priority matcher that accepts the call but cannot extract
    a route discards the route already extracted... *)
Theorem C29_any_extractor_suffices_refuted : ∃ ms : list (rmatcher string),
  (∃ m x, m ∈ ms ∧ rm_extract m = Some x) ∧ (execute_route ms).1 = false.
Proof.
  exists [RMatcher 10 (Some "GET /users"); RMatcher 20 None]. split; [|done].
  eexists _, _. split; [by left|done].
Qed.
Print Assumptions C29_any_extractor_suffices_refuted.

(** ...and then lets a lower-priority one take over. *)
Theorem C29_priority_order_refuted : ∃ ms : list (rmatcher string),
  RMatcher 10 (Some "GET /users") ∈ ms ∧ RMatcher 1 (Some "POST /") ∈ ms ∧
  execute_route ms = (true, Some "POST /").
Proof.
  exists [RMatcher 10 (Some "GET /users"); RMatcher 20 None; RMatcher 1 (Some "POST /")].
  split; [by left|]. split; [by right; right; left|done].
Qed.
Print Assumptions C29_priority_order_refuted.

(** Mount matchers: the first of the highest priority. *)
Theorem C29_mount_selection : ∀ A (ms : list (Z * A)), match execute_mount ms with
  | None => ms = []
  | Some x => ∃ p pre post, ms = pre ++ (p, x) :: post ∧
      (∀ q y, (q, y) ∈ pre → (q < p)%Z) ∧ (∀ q y, (q, y) ∈ post → (q ≤ p)%Z)
  end.
Proof. intros A. exact execute_mount_ok. Qed.
Print Assumptions C29_mount_selection.

Example C29_example : execute_route [RMatcher 5 (Some "a"); RMatcher 9 (Some "b"); RMatcher 9 (Some "c")] = (true, Some "b") ∧
  execute_mount [(5%Z, "a"); (9%Z, "b"); (9%Z, "c")] = Some "b".
Proof. by vm_compute. Qed.

(** ** C30 *)

(** The join of a chain of prefixes. *)
Definition joined (prefixes : list string) : string :=
  fold_left (λ a p, if decide (p = "") then a else join_paths a p) prefixes "".

(** Nested mounts accumulate as long as no prefix is, textually, the end of the
    join of those before it. *)
Theorem C30_mounts_accumulate_partial : ∀ prefixes own,
  (∀ pre p post, prefixes = pre ++ p :: post → p ≠ "" → joined pre ≠ "" → ¬ ∃ t, joined pre = t +:+ p) →
  mount_segments (route_mount prefixes own) = concat (mount_segments <$> prefixes) ++ mount_segments own.
Proof.
  intros prefixes own H.
  assert (fold_left mount_down prefixes "" = joined prefixes ∧
    mount_segments (joined prefixes) = concat (mount_segments <$> prefixes)) as [H1 H2].
  { induction prefixes as [|p ps IH] using rev_ind; [done|].
    destruct IH as [I1 I2].
    { intros pre q post Hq. eapply H. by rewrite Hq, <- app_assoc. }
    unfold joined in *. rewrite !fold_left_app, fmap_app, concat_app. simpl. rewrite I1. clear I1.
    set (J := fold_left _ ps "") in *. rewrite app_nil_r, <- I2.
    unfold mount_down. destruct (decide (p = "")) as [->|Hne]; [by rewrite app_nil_r|].
    destruct (bool_decide (J = "") || negb (has_suffix p J)) eqn:E; [split; [done|apply segments_join]|].
    exfalso. apply orb_false_iff in E as [E1 E2]. apply bool_decide_eq_false in E1. apply negb_false_iff in E2.
    apply has_suffix_spec in E2 as [t Ht]. apply (H ps p []); [done|done|done|by exists t]. }
  unfold route_mount. rewrite H1. destruct (decide (joined prefixes = "")) as [He|He].
  - rewrite He in H2. by rewrite <- H2.
  - by rewrite segments_join, H2.
Qed.
Print Assumptions C30_mounts_accumulate_partial.

(** A router mounted at /api inside a router mounted at /api loses a level, and
    so does one mounted at /users inside /admin-users. *)
Theorem C30_repeated_prefix_refuted :
  (∃ prefixes own, mount_segments (route_mount prefixes own) ≠ concat (mount_segments <$> prefixes) ++ mount_segments own ∧
    prefixes = ["/api"; "/api"]) ∧
  (∃ prefixes own, mount_segments (route_mount prefixes own) ≠ concat (mount_segments <$> prefixes) ++ mount_segments own ∧
    prefixes = ["/admin-users"; "users"]).
Proof. split; eexists _, ""; (split; [|reflexivity]); by vm_compute. Qed.
Print Assumptions C30_repeated_prefix_refuted.

Example C30_example : route_mount ["/api"; ""; "/v1/"; "users"] "" = "/api/v1/users/" ∧
  mount_segments (route_mount ["/api"; ""; "/v1/"; "users"] "x") = ["api"; "v1"; "users"; "x"].
Proof. by vm_compute. Qed.
Example C30_example_hyp : ∀ pre p post, ["/api"; "/v1"] = pre ++ p :: post → p ≠ "" → joined pre ≠ "" →
  ¬ ∃ t, joined pre = t +:+ p.
Proof.
  intros pre p post Heq _ Hj Ht. apply has_suffix_spec in Ht.
  destruct pre as [|a [|b pre]]; simpl in Heq.
  - done.
  - injection Heq as <- <- <-. done.
  - injection Heq as _ _ Heq. by destruct pre.
Qed.
