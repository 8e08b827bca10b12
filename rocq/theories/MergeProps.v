(** * C09, C10: merging framework configurations. *)
From Coq Require Import Ascii.
From stdpp Require Import base list strings gmap.
From Verif Require Import StrLib StrSplit RouteModel MergeModel MergeProofs.

(** ** Specification *)

(** [result] is [primary] followed by entries of the secondaries, in order, each
    with an identity that did not occur before; no identity is lost. *)
Definition appended_only_new {A B} (idn : A → B) (primary : list A) (secondaries : list (list A)) (result : list A) : Prop :=
  (∃ added, result = primary ++ added ∧ sublist added (concat secondaries) ∧
     NoDup (idn <$> added) ∧ ∀ x, x ∈ added → idn x ∉ idn <$> primary) ∧
  (∀ x, x ∈ concat secondaries → ∃ y, y ∈ result ∧ idn y = idn x).

(** What identifies a pattern of each kind, per the comments in config_merge.go. *)
Definition route_id (p : pat) := (p_call p, p_fn p, p_recv p, p_recvrx p).
Definition short_id (p : pat) := (p_call p, p_recvrx p).
Definition param_id (p : pat) := (p_call p, p_recvrx p, p_recv p, p_kind p).
Definition sec_id (p : pat) := (p_call p, p_recvrx p, p_kind p).

(** The pattern strings contain no NUL byte, which is used as a separator. *)
Definition clean_pat (p : pat) : Prop :=
  Forall (λ x, contains_byte nul x = false) [p_call p; p_fn p; p_recv p; p_recvrx p; p_kind p].
Definition clean (c : cfg) : Prop :=
  ∀ p, p ∈ c_routes c ++ c_reqs c ++ c_resps c ++ c_params c ++ c_mounts c ++ c_secs c → clean_pat p.

(** ** Keys tell identities apart *)
Ltac in_cfg := intros ? ? ?; rewrite !elem_of_app; tauto.
Ltac clean_tac := unfold clean_pat; intros p q Hp Hq;
  repeat (apply Forall_cons in Hp as [? Hp]); repeat (apply Forall_cons in Hq as [? Hq]).
Lemma route_key_id p q : clean_pat p → clean_pat q → route_key p = route_key q ↔ route_id p = route_id q.
Proof.
  revert p q. clean_tac. unfold route_key, route_id. split.
  - intros Hk. apply key_inj in Hk; [by injection Hk as -> -> -> ->|done|done|by repeat constructor|by repeat constructor].
  - by intros [= -> -> -> ->].
Qed.
Lemma short_key_id p q : clean_pat p → clean_pat q → short_key p = short_key q ↔ short_id p = short_id q.
Proof.
  revert p q. clean_tac. unfold short_key, short_id. split.
  - intros Hk. apply key_inj in Hk; [by injection Hk as -> ->|done|done|by repeat constructor|by repeat constructor].
  - by intros [= -> ->].
Qed.
Lemma sec_key_id p q : clean_pat p → clean_pat q → sec_key p = sec_key q ↔ sec_id p = sec_id q.
Proof.
  revert p q. clean_tac. unfold sec_key, sec_id. split.
  - intros Hk. apply key_inj in Hk; [by injection Hk as -> -> ->|done|done|by repeat constructor|by repeat constructor].
  - by intros [= -> -> ->].
Qed.
Lemma param_key_4 p : param_key p = pattern_key [p_call p; p_recvrx p; p_recv p; p_kind p].
Proof.
  unfold param_key, pattern_key. rewrite !str_join_cons2. f_equal. f_equal. by rewrite !sapp_assoc.
Qed.
Lemma param_key_id p q : clean_pat p → clean_pat q → param_key p = param_key q ↔ param_id p = param_id q.
Proof.
  revert p q. clean_tac. rewrite !param_key_4. unfold param_id. split.
  - intros Hk. apply key_inj in Hk; [by injection Hk as -> -> -> ->|done|done|by repeat constructor|by repeat constructor].
  - by intros [= -> -> -> ->].
Qed.

Lemma appended_transfer {A B} (key : A → string) (idn : A → B) (primary : list A) ls :
  (∀ x y, x ∈ primary ++ concat ls → y ∈ primary ++ concat ls → key x = key y ↔ idn x = idn y) →
  appended_only_new idn primary ls (merge_list key primary ls).
Proof.
  intros Hk. destruct (merge_list_ok key primary ls) as [seen [_ (added & Hsh & Hsub & Hnd & Hdis) Hall _]]. simpl in *.
  assert (∀ x, x ∈ added → x ∈ primary ++ concat ls) as Hadd.
  { intros x Hx. apply elem_of_app. right. by eapply elem_of_submseteq, sublist_submseteq. }
  split.
  - exists added. split; [done|]. split; [done|]. split.
    + clear Hall Hsh Hdis Hsub. induction added as [|x added IH]; [constructor|]. simpl in *.
      apply NoDup_cons in Hnd as [Hx Hnd]. constructor.
      * intros Hin. apply Hx. apply elem_of_list_fmap in Hin as (y & Heq & Hy). apply elem_of_list_fmap. exists y.
        split; [|done]. apply Hk; [apply Hadd; by left|apply Hadd; by right|done].
      * apply IH; [done|]. intros y Hy. apply Hadd. by right.
    + intros x Hx Hin. apply (Hdis x Hx). apply elem_of_list_fmap in Hin as (y & Heq & Hy). apply elem_of_list_fmap. exists y.
      split; [|done]. apply Hk; [by apply Hadd|apply elem_of_app; by left|done].
  - intros x Hx. destruct (Hall x Hx) as (y & Hy & Hyx). exists y. split; [done|].
    apply Hk; [|apply elem_of_app; by right|done].
    rewrite Hsh in Hy. apply elem_of_app in Hy as [Hy|Hy]; [apply elem_of_app; by left|by apply Hadd].
Qed.

Lemma clean_all (primary : cfg) (secs : list cfg) (f : cfg → list pat) :
  clean primary → Forall clean secs →
  (∀ c p, p ∈ f c → p ∈ c_routes c ++ c_reqs c ++ c_resps c ++ c_params c ++ c_mounts c ++ c_secs c) →
  ∀ x, x ∈ f primary ++ concat (f <$> secs) → clean_pat x.
Proof.
  intros Hp Hs Hf x Hx. apply elem_of_app in Hx as [Hx|Hx]; [by eapply Hp, Hf|].
  apply elem_of_list_In, in_concat in Hx as (l & Hl & Hx). apply elem_of_list_In in Hl, Hx.
  apply elem_of_list_fmap in Hl as (c & -> & Hc). rewrite Forall_forall in Hs. by eapply Hs, Hf.
Qed.

(** ** C09 *)
Theorem C09_primary_first_then_new : ∀ primary secs, clean primary → Forall clean secs →
  let m := merge_configs primary secs in
  appended_only_new route_id (c_routes primary) (c_routes <$> secs) (c_routes m) ∧
  appended_only_new short_id (c_reqs primary) (c_reqs <$> secs) (c_reqs m) ∧
  appended_only_new short_id (c_resps primary) (c_resps <$> secs) (c_resps m) ∧
  appended_only_new param_id (c_params primary) (c_params <$> secs) (c_params m) ∧
  appended_only_new short_id (c_mounts primary) (c_mounts <$> secs) (c_mounts m) ∧
  appended_only_new sec_id (c_secs primary) (c_secs <$> secs) (c_secs m) ∧
  appended_only_new fst (c_ext primary) (c_ext <$> secs) (c_ext m).
Proof.
  intros primary secs Hp Hs m. unfold m. simpl.
  split; [|split; [|split; [|split; [|split; [|split]]]]]; apply appended_transfer; [..|done]; intros x y Hx Hy.
  - apply route_key_id; eapply (clean_all primary secs c_routes); try done; in_cfg.
  - apply short_key_id; eapply (clean_all primary secs c_reqs); try done; in_cfg.
  - apply short_key_id; eapply (clean_all primary secs c_resps); try done; in_cfg.
  - apply param_key_id; eapply (clean_all primary secs c_params); try done; in_cfg.
  - apply short_key_id; eapply (clean_all primary secs c_mounts); try done; in_cfg.
  - apply sec_key_id; eapply (clean_all primary secs c_secs); try done; in_cfg.
Qed.
Print Assumptions C09_primary_first_then_new.

(** Merging a configuration that was already merged in changes nothing at all. *)
Theorem C09_merge_is_idempotent : ∀ primary secs s, s ∈ secs →
  merge_configs (merge_configs primary secs) [s] = merge_configs primary secs.
Proof.
  intros primary secs s Hs. unfold merge_configs. cbn [c_routes c_reqs c_resps c_params c_mounts c_secs c_ext c_typerx c_bodyacc c_implicit c_rest fmap list_fmap fold_left].
  rewrite !merge_list_again by (by apply elem_of_list_fmap_1).
  rewrite !fold_unique_again by (by apply elem_of_list_fmap_1). f_equal.
  assert (∀ l cur, c_implicit s ∈ l →
    let r := fold_left (λ cur s, if decide (cur = 0%Z) then s else cur) l cur in r = 0%Z → c_implicit s = 0%Z) as H.
  { induction l as [|z l IH]; intros cur Hin r; unfold r; simpl; [by apply not_elem_of_nil in Hin|].
    apply elem_of_cons in Hin as [<-|Hin]; [|by eapply IH].
    assert (∀ l x, fold_left (λ cur s, if decide (cur = 0%Z) then s else cur) l x = 0%Z → x = 0%Z) as Hz.
    { clear. induction l as [|z l IH]; intros x; [done|]. simpl. intros H%IH. by destruct (decide (x = 0%Z)). }
    intros Hr%Hz. destruct (decide (cur = 0%Z)); [done|]. congruence. }
  destruct (decide _) as [Hz|Hz]; [|done]. rewrite Hz. eapply H; [|exact Hz].
  by apply elem_of_list_fmap_1.
Qed.
Print Assumptions C09_merge_is_idempotent.

(** The request context collects the union of the regexes, the implicit status is
    the first one stated, and everything else stays the primary's. *)
Theorem C09_rest_of_the_merge : ∀ primary secs, let m := merge_configs primary secs in
  (∀ x, x ∈ c_typerx m ↔ x ∈ c_typerx primary ∨ ∃ s, s ∈ secs ∧ x ∈ c_typerx s) ∧
  (∀ x, x ∈ c_bodyacc m ↔ x ∈ c_bodyacc primary ∨ ∃ s, s ∈ secs ∧ x ∈ c_bodyacc s) ∧
  (c_implicit primary ≠ 0%Z → c_implicit m = c_implicit primary) ∧
  (∀ pre s post, c_implicit primary = 0%Z → secs = pre ++ s :: post → c_implicit s ≠ 0%Z →
     (∀ q, q ∈ pre → c_implicit q = 0%Z) → c_implicit m = c_implicit s) ∧
  c_rest m = c_rest primary.
Proof.
  intros primary secs m. unfold m. simpl.
  assert (∀ (f : cfg → list string) x, x ∈ concat (f <$> secs) ↔ ∃ s, s ∈ secs ∧ x ∈ f s) as Hc.
  { intros f x. rewrite elem_of_list_In, in_concat. split.
    - intros (l & Hl & Hx). apply elem_of_list_In in Hl, Hx. apply elem_of_list_fmap in Hl as (s & -> & ?). eauto.
    - intros (s & Hs & Hx). exists (f s). split; apply elem_of_list_In; [by apply elem_of_list_fmap_1|done]. }
  assert (∀ l x, x ≠ 0%Z → fold_left (λ cur s, if decide (cur = 0%Z) then s else cur) l x = x) as Hk.
  { induction l as [|z l IH]; intros x Hx; [done|]. simpl. rewrite decide_False by done. by apply IH. }
  split; [|split; [|split; [|split]]].
  - intros x. by rewrite (proj1 (fold_unique_props _ _)), Hc.
  - intros x. by rewrite (proj1 (fold_unique_props _ _)), Hc.
  - intros H. by apply Hk.
  - intros pre s post -> -> Hs Hpre. rewrite fmap_app, fold_left_app. simpl.
    assert (fold_left (λ cur s, if decide (cur = 0%Z) then s else cur) (c_implicit <$> pre) 0%Z = 0%Z) as ->.
    { clear -Hpre. induction pre as [|q pre IH]; [done|]. simpl. rewrite (Hpre q) by (by left). apply IH.
      intros r Hr. apply Hpre. by right. }
    rewrite decide_True by done. by apply Hk.
  - done.
Qed.
Print Assumptions C09_rest_of_the_merge.

(** The secondary view contains exactly the patterns with a receiver constraint. *)
Theorem C09_secondary_view_is_the_scoped_part : ∀ c p,
  let scoped q := p_recv q ≠ "" ∨ p_recvrx q ≠ "" in
  (p ∈ c_routes (secondary_view c) ↔ p ∈ c_routes c ∧ scoped p) ∧
  (p ∈ c_reqs (secondary_view c) ↔ p ∈ c_reqs c ∧ scoped p) ∧
  (p ∈ c_resps (secondary_view c) ↔ p ∈ c_resps c ∧ scoped p) ∧
  (p ∈ c_params (secondary_view c) ↔ p ∈ c_params c ∧ scoped p) ∧
  (p ∈ c_mounts (secondary_view c) ↔ p ∈ c_mounts c ∧ scoped p) ∧
  (p ∈ c_secs (secondary_view c) ↔ p ∈ c_secs c ∧ scoped p) ∧
  c_ext (secondary_view c) = c_ext c.
Proof.
  intros c p sc. simpl. rewrite !elem_of_list_filter. unfold scoped, sc. tauto.
Qed.
Print Assumptions C09_secondary_view_is_the_scoped_part.

(** ** C10 *)

(** A pattern whose identity is new is kept - for routes this is the whole set of
    receiver, caller-name and call-name fields; request, response and mount
    identities leave out the exact receiver type and the caller name. *)
Theorem C10_new_identity_is_kept_partial : ∀ primary secs, clean primary → Forall clean secs →
  let m := merge_configs primary secs in
  (∀ pre s post l1 p l2, secs = pre ++ s :: post → c_routes s = l1 ++ p :: l2 →
     route_id p ∉ route_id <$> (c_routes primary ++ concat (c_routes <$> pre) ++ l1) → p ∈ c_routes m) ∧
  (∀ pre s post l1 p l2, secs = pre ++ s :: post → c_reqs s = l1 ++ p :: l2 →
     short_id p ∉ short_id <$> (c_reqs primary ++ concat (c_reqs <$> pre) ++ l1) → p ∈ c_reqs m) ∧
  (∀ pre s post l1 p l2, secs = pre ++ s :: post → c_resps s = l1 ++ p :: l2 →
     short_id p ∉ short_id <$> (c_resps primary ++ concat (c_resps <$> pre) ++ l1) → p ∈ c_resps m) ∧
  (∀ pre s post l1 p l2, secs = pre ++ s :: post → c_params s = l1 ++ p :: l2 →
     param_id p ∉ param_id <$> (c_params primary ++ concat (c_params <$> pre) ++ l1) → p ∈ c_params m) ∧
  (∀ pre s post l1 p l2, secs = pre ++ s :: post → c_mounts s = l1 ++ p :: l2 →
     short_id p ∉ short_id <$> (c_mounts primary ++ concat (c_mounts <$> pre) ++ l1) → p ∈ c_mounts m).
Proof.
  intros primary secs Hp Hs m. unfold m. clear m. simpl.
  assert (∀ {B} (f : cfg → list pat) (key : pat → string) (idn : pat → B),
    (∀ c p, p ∈ f c → p ∈ c_routes c ++ c_reqs c ++ c_resps c ++ c_params c ++ c_mounts c ++ c_secs c) →
    (∀ x y, clean_pat x → clean_pat y → key x = key y ↔ idn x = idn y) →
    ∀ pre s post l1 p l2, secs = pre ++ s :: post → f s = l1 ++ p :: l2 →
     idn p ∉ idn <$> (f primary ++ concat (f <$> pre) ++ l1) → p ∈ merge_list key (f primary) (f <$> secs)) as Hgen.
  { intros B f key idn Hf Hk pre s post l1 p l2 Hsecs Hfs Hid.
    destruct (merge_list_ok key (f primary) (f <$> secs)) as [seen [_ _ _ Hfirst]]. simpl in Hfirst.
    pose proof (clean_all primary secs f Hp Hs Hf) as Hcl.
    assert (concat (f <$> secs) = (concat (f <$> pre) ++ l1) ++ p :: (l2 ++ concat (f <$> post))) as Hcc.
    { rewrite Hsecs, fmap_app, concat_app. simpl. rewrite Hfs. by rewrite <- !app_assoc. }
    assert (clean_pat p) as Hcp by (apply Hcl; rewrite Hcc; set_solver).
    apply (Hfirst _ _ _ Hcc); intros (y & Hy & Hin)%elem_of_list_fmap; apply Hid, elem_of_list_fmap; exists y;
      (split; [apply Hk; [done|apply Hcl; rewrite Hcc; set_solver|done]|set_solver]). }
  split; [|split; [|split; [|split]]].
  - apply Hgen; [in_cfg|apply route_key_id].
  - apply Hgen; [in_cfg|apply short_key_id].
  - apply Hgen; [in_cfg|apply short_key_id].
  - apply Hgen; [in_cfg|apply param_key_id].
  - apply Hgen; [in_cfg|apply short_key_id].
Qed.
Print Assumptions C10_new_identity_is_kept_partial.

Definition no_lists : list string * list string * list string * list string := ([], [], [], []).
Definition cfg_reqs (l : list pat) : cfg := Cfg [] l [] [] [] [] [] [] [] 0 "".
Definition cfg_resps (l : list pat) : cfg := Cfg [] [] l [] [] [] [] [] [] 0 "".
Definition cfg_mounts (l : list pat) : cfg := Cfg [] [] [] [] l [] [] [] [] 0 "".

(** Two request patterns for the same method name on two different receiver types:
    the secondary framework's is dropped, and with it every call it would have
    matched.  The same happens to response and mount patterns.  This holds
    whatever the regexp package says about other patterns. *)
Theorem C10_exact_receiver_dropped_refuted : ∃ gin_bind echo_bind c,
  p_recv gin_bind ≠ p_recv echo_bind ∧
  (∀ rx, rx (p_call echo_bind) (k_name c) = true →
    matches rx echo_bind c = true ∧
    (∀ q, q ∈ c_reqs (merge_configs (cfg_reqs [gin_bind]) [cfg_reqs [echo_bind]]) → matches rx q c = false) ∧
    (∀ q, q ∈ c_resps (merge_configs (cfg_resps [gin_bind]) [cfg_resps [echo_bind]]) → matches rx q c = false) ∧
    (∀ q, q ∈ c_mounts (merge_configs (cfg_mounts [gin_bind]) [cfg_mounts [echo_bind]]) → matches rx q c = false)).
Proof.
  exists (Pat "^Bind$" "" "github.com/gin-gonic/gin.*Context" "" "" no_lists ""),
         (Pat "^Bind$" "" "github.com/labstack/echo/v4.Context" "" "" no_lists ""),
         (Call "Bind" "createUser" ["github.com/labstack/echo/v4.Context"] ("", "", "", "")).
  split; [done|]. intros rx Hrx. simpl in Hrx.
  assert (∀ q, q ∈ [Pat "^Bind$" "" "github.com/gin-gonic/gin.*Context" "" "" no_lists ""] →
    matches rx q (Call "Bind" "createUser" ["github.com/labstack/echo/v4.Context"] ("", "", "", "")) = false) as H.
  { intros q ->%elem_of_list_singleton. unfold matches. cbn. by rewrite Hrx. }
  split; [|split; [exact H|split; exact H]]. unfold matches. cbn. by rewrite Hrx.
Qed.
Print Assumptions C10_exact_receiver_dropped_refuted.

(** Likewise two route patterns restricted to different caller packages: none of
    the four caller/callee filters is part of the identity. *)
Theorem C10_caller_filter_dropped_refuted : ∃ p q c, p_lists p ≠ p_lists q ∧
  (∀ rx, rx "^Get$" "Get" = true → rx "internal/admin" "m/internal/api" = false →
     rx "internal/api" "m/internal/api" = true →
    matches rx q c = true ∧
    ∀ r, r ∈ c_routes (merge_configs (Cfg [p] [] [] [] [] [] [] [] [] 0 "") [Cfg [q] [] [] [] [] [] [] [] [] 0 ""]) →
      matches rx r c = false).
Proof.
  exists (Pat "^Get$" "" "chi.*Mux" "" "" (["internal/admin"], [], [], []) ""),
         (Pat "^Get$" "" "chi.*Mux" "" "" (["internal/api"], [], [], []) ""),
         (Call "Get" "setup" ["chi.*Mux"] ("m/internal/api", "", "", "")).
  split; [done|]. intros rx H1 H2 H3. split.
  - unfold matches. cbn. by rewrite H1, H3.
  - intros r Hr. assert (r = Pat "^Get$" "" "chi.*Mux" "" "" (["internal/admin"], [], [], []) "") as ->.
    { by apply elem_of_list_singleton in Hr. }
    unfold matches. cbn. by rewrite H2.
Qed.
Print Assumptions C10_caller_filter_dropped_refuted.

(** Non-vacuity. *)
Definition ex_p (c r : string) : pat := Pat c "" r "" "" no_lists "".
Example C09_example :
  c_routes (merge_configs (Cfg [ex_p "^GET$" "gin"; ex_p "^POST$" "gin"] [] [] [] [] [] [] ["a"] [] 0 "gin")
    [Cfg [ex_p "^GET$" "echo"; ex_p "^GET$" "gin"] [] [] [] [] [] [] ["b"; "a"] [] 200 "x";
     Cfg [ex_p "^GET$" "echo"; ex_p "^PUT$" "chi"] [] [] [] [] [] [] [] [] 500 "y"]) =
  [ex_p "^GET$" "gin"; ex_p "^POST$" "gin"; ex_p "^GET$" "echo"; ex_p "^PUT$" "chi"].
Proof. by vm_compute. Qed.
Example C09_example_hyp : clean (Cfg [ex_p "^GET$" "gin"; ex_p "^POST$" "gin"] [] [] [] [] [] [] ["a"] [] 0 "gin").
Proof.
  intros p Hp. simpl in Hp. apply elem_of_cons in Hp as [->|Hp]; [by repeat constructor|].
  apply elem_of_list_singleton in Hp as ->. by repeat constructor.
Qed.

(** ** C10: the fields that decide what a pattern matches, read independently of the matcher. A blank entry of a filter never
    matches, so a filter of blank entries matches nothing; an empty filter, call name or caller name restricts nothing. *)
Definition filter_allows (rx : string → string → bool) (l : list string) (v : string) : Prop := l = [] ∨ ∃ x, x ∈ l ∧ x ≠ "" ∧ rx x v = true.
Definition field_allows (rx : string → string → bool) (x v : string) : Prop := x = "" ∨ rx x v = true.
Definition receiver_allows (rx : string → string → bool) (exact regex : string) (forms : list string) : Prop :=
  (exact = "" ∧ regex = "") ∨ ∃ f, (f ∈ forms ∨ (forms = [] ∧ f = "")) ∧ if decide (regex = "") then f = exact else rx regex f = true.
Theorem C10_what_a_pattern_matches : ∀ rx p c, matches rx p c = true ↔
  filter_allows rx (p_lists p).1.1.1 (k_scope c).1.1.1 ∧ filter_allows rx (p_lists p).1.1.2 (k_scope c).1.1.2 ∧
  filter_allows rx (p_lists p).1.2 (k_scope c).1.2 ∧ filter_allows rx (p_lists p).2 (k_scope c).2 ∧
  field_allows rx (p_call p) (k_name c) ∧ field_allows rx (p_fn p) (k_caller c) ∧ receiver_allows rx (p_recv p) (p_recvrx p) (k_forms c).
Proof.
  intros rx p c.
  assert (Hl : ∀ l v, matches_any rx l v = true ↔ filter_allows rx l v).
  { intros l v. unfold matches_any, filter_allows. destruct l as [|x l]; [split; [by left|done]|]. rewrite existsb_exists. split.
    - intros (y & Hy & [H1 H2]%andb_true_iff). right. exists y. apply negb_true_iff, bool_decide_eq_false in H1. by rewrite elem_of_list_In.
    - intros [?|(y & Hy & H1 & H2)]; [done|]. exists y. rewrite <-elem_of_list_In. split; [done|]. by rewrite H2, bool_decide_eq_false_2. }
  assert (Hf : ∀ x v, bool_decide (x = "") || rx x v = true ↔ field_allows rx x v).
  { intros x v. unfold field_allows. rewrite orb_true_iff, bool_decide_eq_true. done. }
  assert (Hr : ∀ e r fs, matches_recv rx fs e r = true ↔ receiver_allows rx e r fs).
  { intros e r fs. unfold matches_recv, receiver_allows.
    assert (Hfs : ∀ P : string → Prop, (∃ f, f ∈ (match fs with [] => [""] | _ => fs end) ∧ P f) ↔ ∃ f, (f ∈ fs ∨ (fs = [] ∧ f = "")) ∧ P f).
    { intros P. destruct fs as [|x fs].
      - split; [intros (f & ->%elem_of_list_singleton & HP); exists ""; tauto|]. intros (f & [?%elem_of_nil|[_ ->]] & HP); [done|]. exists "". split; [left|done].
      - split; intros (f & H & HP); exists f; [tauto|]. split; [|done]. by destruct H as [?|[? ?]]. }
    destruct (decide (r = "")) as [->|Hr0].
    - rewrite (bool_decide_eq_true_2 ("" = "")) by done. cbn [andb]. destruct (decide (e = "")) as [->|He].
      + rewrite bool_decide_eq_true_2 by done. split; [by left|done].
      + rewrite bool_decide_eq_false_2 by done. rewrite existsb_exists. rewrite <-(Hfs (λ f, f = e)). split.
        * intros (f & Hin & ->%bool_decide_eq_true). right. exists f. by rewrite elem_of_list_In.
        * intros [[? _]|(f & Hin & ->)]; [done|]. exists e. rewrite <-elem_of_list_In. split; [done|]. by apply bool_decide_eq_true.
    - rewrite (bool_decide_eq_false_2 (r = "")) by done. cbn [andb]. rewrite existsb_exists. rewrite <-(Hfs (λ f, rx r f = true)). split.
      + intros (f & Hin & H). right. exists f. by rewrite elem_of_list_In.
      + intros [[_ ?]|(f & Hin & H)]; [done|]. exists f. by rewrite <-elem_of_list_In. }
  unfold matches, match_scope. destruct (p_lists p) as [[[l1 l2] l3] l4], (k_scope c) as [[[v1 v2] v3] v4]. cbn [fst snd].
  rewrite !andb_true_iff, !Hl, !Hf, Hr. tauto.
Qed.
Print Assumptions C10_what_a_pattern_matches.
Example C10_blank_filter : ∀ rx, rx "^Get$" "Get" = true →
  matches rx (Pat "^Get$" "" "" "" "" ([""], [], [], []) "") (Call "Get" "f" [] ("p", "", "", "")) = false ∧
  matches rx (Pat "^Get$" "" "" "" "" ([], [], [], []) "") (Call "Get" "f" [] ("p", "", "", "")) = true.
Proof. intros rx H. unfold matches. cbn. by rewrite H. Qed.
